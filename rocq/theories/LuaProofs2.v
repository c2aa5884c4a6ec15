(* Lemmas about keys, nodes and epochs. *)
From Coq Require Import Ascii String QArith Qround ZArith List Bool Lia Lqa.
From Verif Require Import Base MpcModel MpcSpec MpcProofs ObsModel AdesModel AdesProofs LuaModel LuaSpec LuaProofs CatProofs.
Import ListNotations.
Open Scope string_scope.
Open Scope list_scope.
Open Scope nat_scope.

(* ---- keys ---- *)
Lemma str_eqb_iff : forall a b, str_eqb a b = true <-> a = b.
Proof.
  intros a b. unfold str_eqb. rewrite String.eqb_eq. split; [|congruence]. intros E.
  apply (f_equal list_ascii_of_string) in E. rewrite !list_ascii_of_string_of_list_ascii in E. auto.
Qed.
Lemma lower_same : forall r, Forall (fun x => small x \/ digit x) r -> lower r = r.
Proof.
  unfold lower. induction 1 as [|c r H Hr IH]; auto. cbn [map]. rewrite IH. f_equal. unfold lower_char.
  destruct ((65 <=? nat_of_ascii c) && (nat_of_ascii c <=? 90)) eqn:E; auto. apply andb_true_iff in E. destruct E as [A B].
  apply Nat.leb_le in A, B. unfold small, digit in H. lia.
Qed.
Definition big (c : ascii) : Prop := 65 <= nat_of_ascii c <= 90.
Lemma upper_small : forall c, small c -> nat_of_ascii (upper_char c) = nat_of_ascii c - 32.
Proof.
  intros c H. unfold upper_char, small in *. replace (97 <=? nat_of_ascii c) with true by (symmetry; apply Nat.leb_le; lia).
  replace (nat_of_ascii c <=? 122) with true by (symmetry; apply Nat.leb_le; lia). cbn [andb]. apply nat_ascii_embedding. lia.
Qed.
Lemma upper_inj : forall c d, small c -> small d -> upper_char c = upper_char d -> c = d.
Proof.
  intros c d C D E. apply (f_equal nat_of_ascii) in E. rewrite !upper_small in E by auto. rewrite <- (ascii_nat_embedding c), <- (ascii_nat_embedding d).
  f_equal. unfold small in *. lia.
Qed.
Lemma not_big : forall x, small x \/ digit x -> ~ big x.
Proof. intros x H. unfold small, digit, big in *. lia. Qed.
Lemma upper_big : forall c, small c -> big (upper_char c).
Proof. intros c H. unfold big. rewrite upper_small by auto. unfold small in H. lia. Qed.
Lemma prefix_unique : forall a b x y, Forall (fun c => ~ big c) a -> Forall (fun c => ~ big c) b ->
  (x = [] \/ exists c r, x = c :: r /\ big c) -> (y = [] \/ exists c r, y = c :: r /\ big c) -> a ++ x = b ++ y -> a = b /\ x = y.
Proof.
  induction a as [|c a IH]; intros [|d b] x y A B X Y E.
  - auto.
  - cbn in E. inversion B; subst. destruct X as [X|(e & r & X & G)]; [discriminate|]. injection X as -> _. contradiction.
  - cbn in E. inversion A; subst. destruct Y as [Y|(e & r & Y & G)]; [discriminate|]. injection Y as -> _. contradiction.
  - cbn in E. injection E as -> E. inversion A; inversion B; subst. destruct (IH b x y) as [-> ->]; auto.
Qed.
Lemma pascal_words_inj : forall ws vs, Forall snake_word ws -> Forall snake_word vs -> flat_map capitalize ws = flat_map capitalize vs -> ws = vs.
Proof.
  assert (T : forall us, Forall snake_word us -> flat_map capitalize us = [] \/ exists c r, flat_map capitalize us = c :: r /\ big c).
  { intros us U. destruct U as [|u us (c & r & -> & C & R) U]; [auto|]. right. cbn. eexists _, _. split; [reflexivity|apply upper_big; auto]. }
  induction ws as [|w ws IH]; intros [|v vs] W V E; auto.
  - inversion V as [|? ? (c & r & -> & C & R) V']; subst. cbn in E. discriminate.
  - inversion W as [|? ? (c & r & -> & C & R) W']; subst. cbn in E. discriminate.
  - inversion W as [|? ? (c & r & -> & C & R) W']; subst. inversion V as [|? ? (d & q & -> & D & Q) V']; subst.
    cbn [flat_map capitalize] in E. cbn [app] in E. injection E as E1 E2. rewrite !lower_same in E2 by auto.
    destruct (prefix_unique r q (flat_map capitalize ws) (flat_map capitalize vs)) as [-> E3]; auto.
    + eapply Forall_impl; [|exact R]. intros x. apply not_big.
    + eapply Forall_impl; [|exact Q]. intros x. apply not_big.
    + f_equal; [f_equal; apply upper_inj; auto|auto].
Qed.
Lemma snake_split : forall k, snake k -> Forall snake_word (split_on "_" k) /\ split_on "_" k <> [].
Proof.
  intros k (ws & N & W & ->). rewrite split_join; auto. eapply Forall_impl; [|exact W]. intros w (c & r & -> & C & R) [I|I].
  - subst. unfold small in C. cbn in C. lia.
  - rewrite Forall_forall in R. destruct (R _ I) as [X|X]; unfold small, digit in X; cbn in X; lia.
Qed.
Lemma pascal_inj : forall a b, snake a -> snake b -> pascal a = pascal b -> a = b.
Proof.
  intros a b A B E. rewrite <- (join_split "_" a), <- (join_split "_" b). f_equal. apply pascal_words_inj; auto; apply snake_split; auto.
Qed.
Lemma snake_lit : forall ws, ws <> [] -> forallb (fun w => match w with [] => false | c :: r => ((97 <=? nat_of_ascii c) && (nat_of_ascii c <=? 122)) &&
  forallb (fun x => ((97 <=? nat_of_ascii x) && (nat_of_ascii x <=? 122)) || ((48 <=? nat_of_ascii x) && (nat_of_ascii x <=? 57))) r end) ws = true -> snake (join "_" ws).
Proof.
  intros ws N H. exists ws. split; auto. split; auto. apply Forall_forall. intros w I. rewrite forallb_forall in H. specialize (H w I). destruct w as [|c r]; [discriminate|].
  apply andb_true_iff in H. destruct H as [A B]. exists c, r. split; auto. split; [unfold small; apply andb_true_iff in A; destruct A as [A1 A2]; apply Nat.leb_le in A1, A2; lia|].
  apply Forall_forall. intros x J. rewrite forallb_forall in B. specialize (B x J). unfold small, digit. rewrite orb_true_iff, !andb_true_iff, !Nat.leb_le in B. lia.
Qed.
Lemma key_inj : forall a b, snake a -> snake b -> a <> s_ "g_u_i" -> b <> s_ "g_u_i" -> key_text a = key_text b -> a = b.
Proof.
  intros a b A B Na Nb E. assert (G : snake (s_ "g_u_i")) by (apply (snake_lit [s_ "g"; s_ "u"; s_ "i"]); [discriminate|reflexivity]).
  unfold key_text in E. destruct (str_eqb a (s_ "gui")) eqn:Ea, (str_eqb b (s_ "gui")) eqn:Eb.
  - apply str_eqb_iff in Ea, Eb. congruence.
  - destruct Nb. apply (pascal_inj b (s_ "g_u_i")); auto.
  - destruct Na. apply (pascal_inj a (s_ "g_u_i")); auto.
  - apply pascal_inj; auto.
Qed.
Lemma upper_word : forall c, small c -> word_char (upper_char c).
Proof.
  intros c H. pose proof (upper_small c H) as E. unfold small in H.
  assert (G : forall n, n <= 255 -> forallb (fun n => negb ((65 <=? n) && (n <=? 90)) || (negb (is_space (ascii_of_nat n)) && match punct (ascii_of_nat n) with None => true | _ => false end && negb (Ascii.eqb (ascii_of_nat n) quote))) (seq 0 256) = true -> 65 <= n <= 90 ->
    word_char (ascii_of_nat n)).
  { intros n L F R. rewrite forallb_forall in F. specialize (F n ltac:(apply in_seq; lia)). replace ((65 <=? n) && (n <=? 90)) with true in F by (symmetry; rewrite andb_true_iff, !Nat.leb_le; lia).
    cbn [negb orb] in F. apply andb_true_iff in F. destruct F as [F A]. apply andb_true_iff in F. destruct F as [F B]. split; [destruct (is_space _); [discriminate|auto]|].
    split; [destruct (punct _); [discriminate|auto]|]. intros X. rewrite X in A. discriminate. }
  rewrite <- (ascii_nat_embedding (upper_char c)). apply G; [lia|vm_compute; reflexivity|lia].
Qed.
Lemma small_word : forall c, small c \/ digit c -> word_char c.
Proof.
  intros c H.
  assert (G : forall n, forallb (fun n => negb (((97 <=? n) && (n <=? 122)) || ((48 <=? n) && (n <=? 57))) || (negb (is_space (ascii_of_nat n)) && match punct (ascii_of_nat n) with None => true | _ => false end && negb (Ascii.eqb (ascii_of_nat n) quote))) (seq 0 256) = true -> 97 <= n <= 122 \/ 48 <= n <= 57 ->
    word_char (ascii_of_nat n)).
  { intros n F R. rewrite forallb_forall in F. specialize (F n ltac:(apply in_seq; lia)). replace (((97 <=? n) && (n <=? 122)) || ((48 <=? n) && (n <=? 57))) with true in F by (symmetry; rewrite orb_true_iff, !andb_true_iff, !Nat.leb_le; lia).
    cbn [negb orb] in F. apply andb_true_iff in F. destruct F as [F A]. apply andb_true_iff in F. destruct F as [F B]. split; [destruct (is_space _); [discriminate|auto]|].
    split; [destruct (punct _); [discriminate|auto]|]. intros X. rewrite X in A. discriminate. }
  rewrite <- (ascii_nat_embedding c). apply G; [vm_compute; reflexivity|exact H].
Qed.
Lemma key_word : forall k, snake k -> word (key_text k).
Proof.
  intros k H. unfold key_text. destruct (str_eqb k (s_ "gui")); [apply word_lit; [reflexivity|discriminate]|].
  destruct (snake_split k H) as [W N]. unfold pascal. split.
  - apply Forall_flat_map. eapply Forall_impl; [|exact W]. intros w (c & r & -> & C & R). cbn [capitalize]. constructor; [apply upper_word; auto|].
    rewrite lower_same by auto. eapply Forall_impl; [|exact R]. intros x. apply small_word.
  - destruct W as [|w ws (c & r & -> & C & R) W]; [congruence|]. discriminate.
Qed.

(* ---- initialisation ---- *)
Lemma init_lines : forall l, Forall (fun a => ~ In NL a) l ->
  split_on NL (create_initialization l) =
    (s_ "asset.onInitialize(function ()" :: map (fun a => s_ "  openspace.addSceneGraphNode(" ++ a ++ s_ ");") l ++ [s_ "end)"]) ++
    (s_ "asset.onDeinitialize(function ()" :: map (fun a => s_ "  openspace.removeSceneGraphNode(" ++ a ++ s_ ");") l ++ [s_ "end)"]).
Proof.
  intros l H. unfold create_initialization.
  assert (G : forall p q r, ~ In NL p -> ~ In NL q -> ~ In NL r -> Forall (fun x => ~ In NL x) (q :: map (fun a => p ++ a ++ r) l ++ [s_ "end)"])).
  { intros p q r P Q R. constructor; auto. apply Forall_app. split; [|repeat constructor; cbn; intuition discriminate].
    apply Forall_map. eapply Forall_impl; [|exact H]. intros a A I. cbv beta in A. apply in_app_or in I. destruct I as [I|I]; [exact (P I)|]. apply in_app_or in I. destruct I as [I|I]; [exact (A I)|exact (R I)]. }
  set (A := s_ "asset.onInitialize(function ()" :: _). set (B := s_ "asset.onDeinitialize(function ()" :: _).
  assert (GA : Forall (fun x => ~ In NL x) A) by (apply G; cbn; intuition discriminate).
  assert (GB : Forall (fun x => ~ In NL x) B) by (apply G; cbn; intuition discriminate).
  rewrite app_assoc. rewrite join_unlines by discriminate. rewrite split_unlines by auto. rewrite split_join; [reflexivity|discriminate|auto].
Qed.

(* ---- variables ---- *)
Lemma variable_inj : forall m n, variable_name m = variable_name n -> m = n.
Proof.
  intros m n E. unfold variable_name in E. apply app_inv_head in E.
  destruct (str_of_alld (Z.of_nat m) ltac:(lia)) as (A1 & A2 & _). destruct (str_of_alld (Z.of_nat n) ltac:(lia)) as (B1 & B2 & _).
  rewrite !zfill_alld in E by auto. apply (f_equal (svalue 0)) in E. rewrite !svalue_repeat0, A2, B2 in E. lia.
Qed.
Lemma variable_newline : forall n, ~ In NL (variable_name n).
Proof.
  intros n I. unfold variable_name in I. apply in_app_or in I. destruct I as [I|I]; [cbn in I; intuition discriminate|].
  destruct (str_of_alld (Z.of_nat n) ltac:(lia)) as (A1 & _). rewrite zfill_alld in I by auto. apply in_app_or in I. destruct I as [I|I].
  - apply repeat_spec in I. discriminate.
  - unfold alld in A1. rewrite Forall_forall in A1. specialize (A1 _ I). discriminate.
Qed.
Section Nodes.
Variable number : Q -> str.
Notation nodes := (nodes number).
Lemma nodes_shape : forall t rend os prev n ns, nodes t rend prev n os = OOk ns ->
  map fst ns = map variable_name (seq n (List.length ns)) /\ List.length ns = (if to_head t then 2 else 1) * List.length os /\
  exists trs, Forall2 (fun o tr => exists p, translation number t p o = OOk tr) os trs /\
    map snd ns = flat_map (fun p => trail_asset number t rend (snd p) (fst p) :: (if to_head t then [head_asset t (snd p) (fst p)] else [])) (combine os trs).
Proof.
  intros t rend. induction os as [|o os IH]; intros prev n ns H.
  - injection H as <-. split; [reflexivity|]. split; [cbn; destruct (to_head t); reflexivity|]. exists []. split; [constructor|reflexivity].
  - cbn [LuaModel.nodes] in H. destruct (translation number t prev o) as [tr|] eqn:E; [|discriminate]. cbn [obind] in H. cbv zeta in H.
    match type of H with obind (nodes _ _ _ ?k _) _ = _ => destruct (nodes t rend true k os) as [rest|] eqn:E2; [|discriminate] end.
    cbn [obind] in H. injection H as <-. destruct (IH _ _ _ E2) as (A & B & trs & C & D).
    destruct (to_head t) eqn:Hh; cbn [app List.length map fst snd] in *.
    + replace (n + 2) with (S (S n)) in A by lia. replace (n + 1) with (S n) by lia. split; [cbn [seq map]; rewrite A; reflexivity|]. split; [lia|].
      exists (tr :: trs). split; [constructor; eauto|]. cbn [combine flat_map fst snd app]. rewrite D. reflexivity.
    + replace (n + 1) with (S n) in A by lia. split; [cbn [seq map]; rewrite A; reflexivity|]. split; [lia|].
      exists (tr :: trs). split; [constructor; eauto|]. cbn [combine flat_map fst snd app]. rewrite D. reflexivity.
Qed.
Lemma names_distinct : forall n k, NoDup (map variable_name (seq n k)).
Proof. intros n k. apply FinFun.Injective_map_NoDup; [exact variable_inj|apply seq_NoDup]. Qed.
End Nodes.

(* ---- epochs ---- *)
Open Scope Q_scope.
Lemma floor_spec : forall q z, inject_Z z <= q -> q < inject_Z (z + 1) -> Qfloor q = z.
Proof.
  intros q z A B. pose proof (Qfloor_le q). pose proof (Qlt_floor q). assert (X : inject_Z (Qfloor q) < inject_Z (z + 1)) by lra. assert (Y : inject_Z z < inject_Z (Qfloor q + 1)) by lra.
  rewrite <- Zlt_Qlt in X, Y. lia.
Qed.
Lemma iso_day_spec : forall m, let d := Qfloor m in
  ((m - inject_Z d) * 86400000 < 86400000 - (1 # 2) -> iso_day m = d) /\ (86400000 - (1 # 2) <= (m - inject_Z d) * 86400000 -> iso_day m = (d + 1)%Z).
Proof.
  intros m d. pose proof (Qfloor_le m) as L. pose proof (Qlt_floor m) as U. fold d in L, U. rewrite inject_Z_plus in U. change (inject_Z 1) with 1 in U.
  set (x := m * 86400000). assert (Ex : x == (m - inject_Z d) * 86400000 + inject_Z (d * 86400000)) by (unfold x; rewrite inject_Z_mult; change (inject_Z 86400000) with 86400000; ring).
  assert (N : inject_Z (round_half_even x) - x <= 1 # 2 /\ -(1 # 2) <= inject_Z (round_half_even x) - x)
    by (pose proof (round_near x) as N; rewrite !inject_Z_mult in N; change (inject_Z 2) with 2 in N; destruct N; split; lra).
  set (r := round_half_even x) in *.
  assert (R : forall z, (z * 86400000 <= r < (z + 1) * 86400000)%Z -> iso_day m = z).
  { intros z [A B]. unfold iso_day. fold x. fold r. apply floor_spec.
    - apply Qle_shift_div_l; [reflexivity|]. change 86400000 with (inject_Z 86400000). rewrite <- inject_Z_mult. rewrite <- Zle_Qle. exact A.
    - apply Qlt_shift_div_r; [reflexivity|]. change 86400000 with (inject_Z 86400000). rewrite <- inject_Z_mult. rewrite <- Zlt_Qlt. exact B. }
  split; intros H; apply R.
  - split.
    + assert (X : inject_Z (d * 86400000 - 1) < inject_Z r) by (unfold Zminus; change (Z.opp 1) with (-1)%Z; rewrite inject_Z_plus; change (inject_Z (-1)) with (-(1)); destruct N; lra).
      rewrite <- Zlt_Qlt in X. lia.
    + assert (X : inject_Z r < inject_Z ((d + 1) * 86400000)) by (rewrite Z.mul_add_distr_r, inject_Z_plus; change (inject_Z (1 * 86400000)) with 86400000; destruct N; lra).
      rewrite <- Zlt_Qlt in X. exact X.
  - (* the tie goes to the even neighbour, which is midnight *)
    assert (X : inject_Z r < inject_Z ((d + 1) * 86400000 + 1)) by (rewrite inject_Z_plus, Z.mul_add_distr_r, inject_Z_plus; change (inject_Z (1 * 86400000)) with 86400000; change (inject_Z 1) with 1; destruct N; lra).
    rewrite <- Zlt_Qlt in X.
    assert (Y : inject_Z ((d + 1) * 86400000 - 1) <= inject_Z r) by (unfold Zminus; change (Z.opp 1) with (-1)%Z; rewrite inject_Z_plus, Z.mul_add_distr_r, inject_Z_plus; change (inject_Z (1 * 86400000)) with 86400000; change (inject_Z (-1)) with (-(1)); destruct N; lra).
    rewrite <- Zle_Qle in Y.
    assert (P : r <> ((d + 1) * 86400000 - 1)%Z).
    { intros Er. assert (Fx : Qfloor x = r).
      { apply floor_spec; rewrite Er.
        - unfold Zminus; change (Z.opp 1) with (-1)%Z. rewrite inject_Z_plus, Z.mul_add_distr_r, inject_Z_plus. change (inject_Z (1 * 86400000)) with 86400000. change (inject_Z (-1)) with (-(1)). lra.
        - replace ((d + 1) * 86400000 - 1 + 1)%Z with ((d + 1) * 86400000)%Z by ring. rewrite Z.mul_add_distr_r, inject_Z_plus. change (inject_Z (1 * 86400000)) with 86400000. lra. }
      assert (Hf : 1 # 2 <= x - inject_Z r) by (rewrite Er; unfold Zminus; change (Z.opp 1) with (-1)%Z; rewrite inject_Z_plus, Z.mul_add_distr_r, inject_Z_plus; change (inject_Z (1 * 86400000)) with 86400000; change (inject_Z (-1)) with (-(1)); lra).
      unfold r, round_half_even in Er. cbv zeta in Er. rewrite Fx in Er.
      destruct (Qcompare _ _) eqn:C in Er; [|apply Qlt_alt in C; lra|lia].
      destruct (Z.even r) eqn:Ev; [|lia]. rewrite Er in Ev. apply Z.even_spec in Ev. destruct Ev as [k Ev]. lia. }
    lia.
Qed.
Open Scope nat_scope.

(* ---- fields ---- *)
Lemma lookup_field : forall fs k v, NoDup (map (fun kv => key_text (fst kv)) fs) -> In (k, v) fs ->
  lookup (key_text k) (view_fields fs) = match v with LNone => None | _ => Some (view v) end.
Proof.
  assert (A : forall fs k, ~ In (key_text k) (map (fun kv => key_text (fst kv)) fs) -> lookup (key_text k) (view_fields fs) = None).
  { induction fs as [|[k' v'] fs IH]; intros k N; auto. cbn [map fst] in N. cbn [view_fields].
    assert (E : str_eqb (key_text k) (key_text k') = false).
    { destruct (str_eqb (key_text k) (key_text k')) eqn:E; auto. apply str_eqb_iff in E. destruct N. left. auto. }
    assert (I : lookup (key_text k) (view_fields fs) = None) by (apply IH; intros X; apply N; right; exact X).
    destruct v'; auto; cbn [lookup]; rewrite E; exact I. }
  induction fs as [|[k' v'] fs IH]; intros k v N I; [destruct I|]. cbn [map fst] in N. inversion N as [|? ? N1 N2]; subst. destruct I as [I|I].
  - injection I as -> ->. cbn [view_fields].
    assert (R : str_eqb (key_text k) (key_text k) = true) by (apply str_eqb_iff; auto).
    destruct v; try (cbn [lookup]; rewrite R; reflexivity). apply A. exact N1.
  - specialize (IH k v N2 I). cbn [view_fields].
    assert (E : str_eqb (key_text k) (key_text k') = false).
    { destruct (str_eqb (key_text k) (key_text k')) eqn:E; auto. apply str_eqb_iff in E. destruct N1. rewrite <- E. apply (in_map (fun kv => key_text (fst kv)) fs (k, v) I). }
    destruct v'; auto; cbn [lookup]; rewrite E; exact IH.
Qed.
Lemma reads_one : forall s a b, reads_as s a -> reads_as s b -> a = b.
Proof.
  intros s a b (ts & L & n & A) (us & L' & m & B). rewrite L in L'. injection L' as <-. specialize (A (n + m) ltac:(lia)). specialize (B (n + m) ltac:(lia)). congruence.
Qed.
