(* Proofs for AdesModel: whole files. *)
From Coq Require Import Ascii String QArith Qround Lqa Lia ZArith Permutation Sorted.
From Verif Require Import Base ListLemmas TimeModel TimeSpec TimeQProofs MpcModel MpcSpec MpcProofs ObsModel ObsSpec ObsProofs AdesModel AdesSpec AdesProofs AdesRows.
Open Scope string_scope.
Open Scope Z_scope.
Open Scope list_scope.

(* ---- order ---- *)
Lemma code_inj : forall x y, code x = code y -> x = y.
Proof. intros x y H. rewrite <- (ascii_nat_embedding x), <- (ascii_nat_embedding y). unfold code in H. rewrite H. reflexivity. Qed.
Lemma sleb_refl : forall a, sleb a a = true.
Proof. induction a as [|x a IH]; auto. cbn [sleb]. rewrite Nat.ltb_irrefl. exact IH. Qed.
Lemma sleb_total : forall a b, sleb a b = true \/ sleb b a = true.
Proof.
  induction a as [|x a IH]; intros [|y b]; auto. cbn [sleb]. destruct (Nat.ltb_spec (nat_of_ascii x) (nat_of_ascii y)); auto.
  destruct (Nat.ltb_spec (nat_of_ascii y) (nat_of_ascii x)); auto.
Qed.
Lemma sleb_antisym : forall a b, sleb a b = true -> sleb b a = true -> a = b.
Proof.
  induction a as [|x a IH]; intros [|y b]; auto; try discriminate. cbn [sleb].
  destruct (Nat.ltb_spec (nat_of_ascii x) (nat_of_ascii y)), (Nat.ltb_spec (nat_of_ascii y) (nat_of_ascii x)); try discriminate; try lia.
  intros P Q. f_equal; auto. apply code_inj. unfold code. lia.
Qed.
Lemma sleb_trans : forall a b c, sleb a b = true -> sleb b c = true -> sleb a c = true.
Proof.
  induction a as [|x a IH]; intros [|y b] [|z c]; auto; try discriminate. cbn [sleb].
  destruct (Nat.ltb_spec (nat_of_ascii x) (nat_of_ascii y)), (Nat.ltb_spec (nat_of_ascii y) (nat_of_ascii x)); try discriminate; try lia;
  destruct (Nat.ltb_spec (nat_of_ascii y) (nat_of_ascii z)), (Nat.ltb_spec (nat_of_ascii z) (nat_of_ascii y)); try discriminate; try lia;
  destruct (Nat.ltb_spec (nat_of_ascii x) (nat_of_ascii z)), (Nat.ltb_spec (nat_of_ascii z) (nat_of_ascii x)); try discriminate; try lia; eauto.
Qed.
Lemma sleb_slt : forall a b, sleb a b = true -> a = b \/ slt a b.
Proof.
  induction a as [|x a IH]; intros [|y b]; auto; try discriminate.
  - intros _. right. left. exists y, b. reflexivity.
  - cbn [sleb]. destruct (Nat.ltb_spec (nat_of_ascii x) (nat_of_ascii y)); [intros _; right; right; exists [], x, y, a, b; auto|].
    destruct (Nat.ltb_spec (nat_of_ascii y) (nat_of_ascii x)); [discriminate|]. intros H1.
    assert (x = y) by (apply code_inj; unfold code; lia). subst y. destruct (IH b H1) as [->|[[c [r ->]]|[p [c [d [r [s [-> [-> L]]]]]]]]]; auto.
    + right. left. exists c, r. reflexivity.
    + right. right. exists (x :: p), c, d, r, s. auto.
Qed.
Lemma oeqb_eq : forall a b, oeqb a b = true <-> a = b.
Proof. intros [a|] [b|]; cbn; try rewrite str_eqb_eq; split; congruence. Qed.
Lemma oleb_refl : forall a, oleb a a = true.
Proof. intros [a|]; cbn; auto using sleb_refl. Qed.
Lemma oleb_total : forall a b, oleb a b = true \/ oleb b a = true.
Proof. intros [a|] [b|]; cbn; auto using sleb_total. Qed.
Lemma oleb_antisym : forall a b, oleb a b = true -> oleb b a = true -> a = b.
Proof. intros [a|] [b|]; cbn; intros; try discriminate; auto. f_equal. auto using sleb_antisym. Qed.
Lemma oleb_trans : forall a b c, oleb a b = true -> oleb b c = true -> oleb a c = true.
Proof. intros [a|] [b|] [c|]; cbn; intros; try discriminate; eauto using sleb_trans. Qed.
Lemma oleb_olt : forall a b, oleb a b = true -> a = b \/ olt a b.
Proof. intros [a|] [b|]; cbn; intros; try discriminate; auto. destruct (sleb_slt a b H) as [->|]; auto. Qed.
Lemma rleb_tle : forall a b, rleb a b = true <-> tle a b.
Proof. intros a b. unfold rleb, tle. rewrite Bool.orb_true_iff, Bool.andb_true_iff, Z.ltb_lt, Z.eqb_eq, Z.leb_le. tauto. Qed.
(* lexicographic order on one identifier followed by another order *)
Definition lexo {A} (f : A -> option str) (le : A -> A -> bool) (a b : A) : bool := if negb (oeqb (f a) (f b)) then oleb (f a) (f b) else le a b.
Lemma lexo_total : forall A (f : A -> option str) le, (forall a b, le a b = true \/ le b a = true) -> forall a b, lexo f le a b = true \/ lexo f le b a = true.
Proof.
  intros A f le T a b. unfold lexo. destruct (oeqb (f a) (f b)) eqn:E.
  - apply oeqb_eq in E. rewrite E. replace (oeqb (f b) (f b)) with true by (symmetry; apply oeqb_eq; reflexivity). cbn. auto.
  - destruct (oeqb (f b) (f a)) eqn:E2; [apply oeqb_eq in E2; rewrite E2 in E; assert (oeqb (f a) (f a) = true) by (apply oeqb_eq; auto); congruence|]. cbn. apply oleb_total.
Qed.
Lemma lexo_trans : forall A (f : A -> option str) le, (forall a b c, le a b = true -> le b c = true -> le a c = true) ->
  forall a b c, lexo f le a b = true -> lexo f le b c = true -> lexo f le a c = true.
Proof.
  intros A f le T a b c. unfold lexo. destruct (oeqb (f a) (f b)) eqn:E; cbn.
  - apply oeqb_eq in E. rewrite E. destruct (oeqb (f b) (f c)) eqn:E2; cbn; eauto.
  - destruct (oeqb (f b) (f c)) eqn:E2; cbn; intros P Q.
    + apply oeqb_eq in E2. rewrite <- E2, E. cbn. exact P.
    + destruct (oeqb (f a) (f c)) eqn:E3; cbn; [|eauto using oleb_trans].
      apply oeqb_eq in E3. rewrite <- E3 in Q. pose proof (oleb_antisym _ _ P Q) as X. apply oeqb_eq in X. congruence.
Qed.
Lemma obs_leb_lexo : obs_leb = lexo a_prov (lexo a_perm (lexo a_trk (fun a b => rleb (a_time a) (a_time b)))).
Proof. reflexivity. Qed.
Lemma rleb_total : forall a b : ades, rleb (a_time a) (a_time b) = true \/ rleb (a_time b) (a_time a) = true.
Proof. intros a b. rewrite !rleb_tle. unfold tle. lia. Qed.
Lemma rleb_trans : forall a b c : ades, rleb (a_time a) (a_time b) = true -> rleb (a_time b) (a_time c) = true -> rleb (a_time a) (a_time c) = true.
Proof. intros a b c. rewrite !rleb_tle. unfold tle. lia. Qed.
Lemma obs_leb_total : forall a b, obs_leb a b = true \/ obs_leb b a = true.
Proof. rewrite obs_leb_lexo. repeat apply lexo_total. apply rleb_total. Qed.
Lemma obs_leb_trans : forall a b c, obs_leb a b = true -> obs_leb b c = true -> obs_leb a c = true.
Proof. rewrite obs_leb_lexo. repeat apply lexo_trans. apply rleb_trans. Qed.
Lemma lexo_cases : forall A (f : A -> option str) le a b, lexo f le a b = true -> olt (f a) (f b) \/ f a = f b /\ le a b = true.
Proof.
  intros A f le a b. unfold lexo. destruct (oeqb (f a) (f b)) eqn:E; cbn; intros H; [right; split; auto; apply oeqb_eq; auto|].
  destruct (oleb_olt _ _ H) as [X|X]; auto. apply oeqb_eq in X. congruence.
Qed.
Lemma obs_leb_before : forall a b, a_stn a = a_stn b -> obs_leb a b = true -> before a b.
Proof.
  intros a b S H. right. split; auto. rewrite obs_leb_lexo in H.
  destruct (lexo_cases _ _ _ _ _ H) as [X|[X H1]]; [left; exact X|right; split; [exact X|]].
  destruct (lexo_cases _ _ _ _ _ H1) as [Y|[Y H2]]; [left; exact Y|right; split; [exact Y|]].
  destruct (lexo_cases _ _ _ _ _ H2) as [W|[W H3]]; [left; exact W|right; split; [exact W|]]. apply rleb_tle. exact H3.
Qed.

(* ---- the written arrangement ---- *)
Definition rows_of (obs : list ades) (s : str) : list ades := sort obs_leb (filter (fun a => str_eqb (a_stn a) s) obs).
Definition arrangement (obs : list ades) : list ades := flat_map (rows_of obs) (stations obs).
Lemma rows_of_In : forall obs s a, In a (rows_of obs s) <-> In a obs /\ a_stn a = s.
Proof. intros obs s a. unfold rows_of. rewrite sort_In, filter_In, str_eqb_eq. tauto. Qed.
Lemma stations_In : forall obs s, In s (stations obs) <-> exists a, In a obs /\ a_stn a = s.
Proof. intros obs s. unfold stations. rewrite sort_In, (uniq_In str_eqb str_eqb_eq), in_map_iff. split; intros [a [X Y]]; exists a; auto. Qed.
Lemma stations_NoDup : forall obs, NoDup (stations obs).
Proof. intros obs. unfold stations. eapply Permutation_NoDup; [apply sort_perm|]. apply (uniq_NoDup str_eqb str_eqb_eq). Qed.
Lemma filter_keys_perm : forall (ks : list str) (l : list ades), NoDup ks -> (forall x, In x l -> In (a_stn x) ks) ->
  Permutation (flat_map (fun k => filter (fun a => str_eqb (a_stn a) k) l) ks) l.
Proof.
  induction ks as [|k ks IH]; intros l N H; cbn.
  - destruct l as [|x l]; auto. destruct (H x (or_introl eq_refl)).
  - inversion N as [|? ? Hk Hks]; subst. rewrite (filter_app_perm (fun a => str_eqb (a_stn a) k) l) at 2. apply Permutation_app_head.
    rewrite <- (IH (filter (fun x => negb (str_eqb (a_stn x) k)) l)) at 1; auto.
    + match goal with |- Permutation ?a ?b => cut (a = b); [intros ->; reflexivity|] end. rewrite !flat_map_concat_map. apply f_equal. apply map_ext_in. intros k' Ik'.
      clear - Hk Ik'. induction l as [|x l IHl]; auto. cbn. destruct (str_eqb (a_stn x) k) eqn:E; cbn.
      * apply str_eqb_eq in E. destruct (str_eqb (a_stn x) k') eqn:E2; auto. apply str_eqb_eq in E2. congruence.
      * destruct (str_eqb (a_stn x) k'); [f_equal|]; exact IHl.
    + intros x Ix. apply filter_In in Ix. destruct Ix as [Ix Np]. destruct (H x Ix) as [E|E]; auto. subst k. rewrite str_eqb_refl in Np. discriminate.
Qed.
Lemma flat_map_perm : forall A B (f g : A -> list B) l, (forall x, Permutation (f x) (g x)) -> Permutation (flat_map f l) (flat_map g l).
Proof. intros A B f g l H. induction l as [|x l IH]; cbn; auto. apply Permutation_app; auto. Qed.
Lemma arrangement_perm : forall obs, Permutation (arrangement obs) obs.
Proof.
  intros obs. unfold arrangement. etransitivity; [apply flat_map_perm; intros s; symmetry; apply sort_perm|].
  apply filter_keys_perm; [apply stations_NoDup|]. intros x Ix. apply stations_In. eauto.
Qed.
Lemma ssorted_app : forall A (R : A -> A -> Prop) l m, StronglySorted R l -> StronglySorted R m -> (forall x y, In x l -> In y m -> R x y) -> StronglySorted R (l ++ m).
Proof.
  intros A R l m Hl Hm H. induction Hl as [|x l Hl IH F]; cbn; auto. constructor.
  - apply IH. intros; apply H; cbn; auto.
  - apply Forall_app. split; auto. apply Forall_forall. intros y Hy. apply H; cbn; auto.
Qed.
Lemma ssorted_impl : forall A (R S : A -> A -> Prop) l, (forall x y, In x l -> In y l -> R x y -> S x y) -> StronglySorted R l -> StronglySorted S l.
Proof.
  intros A R S l H Hl. induction Hl as [|x l Hl IH F]; constructor; [apply IH; intros; apply H; cbn; auto|].
  rewrite Forall_forall in *. intros y Hy. apply H; cbn; auto.
Qed.
Lemma rows_before : forall obs s, StronglySorted before (rows_of obs s).
Proof.
  intros obs s. eapply ssorted_impl; [|apply (sort_sorted obs_leb obs_leb_total obs_leb_trans)].
  intros x y Ix Iy H. change (obs_leb x y = true) in H. apply obs_leb_before; auto. fold (rows_of obs s) in Ix, Iy. apply rows_of_In in Ix, Iy. destruct Ix, Iy. congruence.
Qed.
Lemma arrangement_sorted : forall obs, StronglySorted before (arrangement obs).
Proof.
  intros obs. unfold arrangement.
  assert (SS : StronglySorted (fun a b => sleb a b = true) (stations obs)).
  { unfold stations. eapply ssorted_impl; [|apply (sort_sorted sleb sleb_total sleb_trans)]. intros x y _ _ H. exact H. }
  pose proof (stations_NoDup obs) as ND. revert SS ND. generalize (stations obs). intros ks SS. induction SS as [|k ks SS IH F]; intros ND; cbn; [constructor|].
  inversion ND; subst. apply ssorted_app; [apply rows_before|apply IH; auto|]. intros x y Ix Iy. apply in_flat_map in Iy. destruct Iy as [k' [Ik' Iy]].
  apply rows_of_In in Ix, Iy. destruct Ix as [_ <-], Iy as [_ <-]. rewrite Forall_forall in F. specialize (F _ Ik'). destruct (sleb_slt _ _ F) as [X|X]; [congruence|]. left. exact X.
Qed.

(* ---- the lines of a file ---- *)
Definition has_id (a : ades) : Prop := a_perm a <> None \/ a_prov a <> None \/ a_trk a <> None.
Section Lines.
Variables (show : row -> str) (prec : list (str * nat)).
Definition station_lines (obs : list ades) (ctxs : list (str * context)) (s : str) : list str :=
  match dget str_eqb s ctxs with Some c => context_lines c | None => [] end ++ block_lines show prec (rows_of obs s).
Lemma forallb_none : forall (f : ades -> option str) rows, forallb (fun a => isnone (f a)) rows = true <-> forall a, In a rows -> f a = None.
Proof. intros f rows. rewrite forallb_forall. split; intros H a Ia; specialize (H a Ia); destruct (f a); cbn in *; congruence. Qed.
Lemma station_ok : forall obs ctxs s b, station show prec obs ctxs s = Ok b <->
  (exists c, dget str_eqb s ctxs = Some c) /\ (exists a, In a obs /\ a_stn a = s /\ has_id a) /\ b = unlines (station_lines obs ctxs s).
Proof.
  intros obs ctxs s b. unfold station, station_lines. destruct (dget str_eqb s ctxs) as [c|] eqn:D; [|split; [discriminate|intros [[c X] _]; discriminate]].
  fold (rows_of obs s). cbv zeta. destruct (forallb _ _ && forallb _ _ && forallb _ _) eqn:F.
  - split; [discriminate|]. intros [_ [[a [Ia [Sa H]]] _]]. exfalso. rewrite !Bool.andb_true_iff, !forallb_none in F. destruct F as [[F1 F2] F3].
    assert (I : In a (rows_of obs s)) by (apply rows_of_In; auto). destruct H as [H|[H|H]]; apply H; auto.
  - assert (X : exists a, In a obs /\ a_stn a = s /\ has_id a).
    { assert (Y : existsb (fun a => negb (isnone (a_perm a)) || negb (isnone (a_prov a)) || negb (isnone (a_trk a))) (rows_of obs s) = true).
      { destruct (existsb _ _) eqn:E; auto. rewrite <- F.
        assert (Z : forall a, In a (rows_of obs s) -> isnone (a_perm a) = true /\ isnone (a_prov a) = true /\ isnone (a_trk a) = true).
        { intros a Ia. destruct (negb (isnone (a_perm a)) || negb (isnone (a_prov a)) || negb (isnone (a_trk a))) eqn:G.
          - assert (existsb (fun a => negb (isnone (a_perm a)) || negb (isnone (a_prov a)) || negb (isnone (a_trk a))) (rows_of obs s) = true) by (apply existsb_exists; exists a; auto). congruence.
          - apply Bool.orb_false_iff in G. destruct G as [G G3]. apply Bool.orb_false_iff in G. destruct G as [G1 G2]. apply Bool.negb_false_iff in G1, G2, G3. auto. }
        rewrite !Bool.andb_true_iff, !forallb_forall. split; [split|]; intros a Ia; apply (Z a Ia). }
      apply existsb_exists in Y. destruct Y as [a [Ia Y]]. exists a. apply rows_of_In in Ia. destruct Ia as [I1 I2]. split; auto. split; auto. unfold has_id.
      rewrite !Bool.orb_true_iff in Y. destruct Y as [[Y|Y]|Y]; [left|right; left|right; right]; intros N; rewrite N in Y; discriminate Y. }
    rewrite unlines_app. unfold to_string. rewrite join_unlines by (unfold context_lines; discriminate).
    set (t := unlines (context_lines c) ++ unlines _). clearbody t.
    split; [intros E; injection E as <-; split; [exists c; reflexivity|split; [exact X|reflexivity]]|]. intros [_ [_ ->]]. reflexivity.
Qed.
Lemma station_err : forall obs ctxs s e, station show prec obs ctxs s = Err e -> e = ValueError.
Proof. intros obs ctxs s e. unfold station. destruct (dget _ _ _); [|congruence]. cbv zeta. destruct (_ && _); congruence. Qed.
Lemma write_lines : forall obs ctxs text, write show prec obs ctxs = Ok text <->
  (forall s, In s (stations obs) -> (exists c, dget str_eqb s ctxs = Some c) /\ (exists a, In a obs /\ a_stn a = s /\ has_id a)) /\
  text = unlines (s_ "# version=2022" :: flat_map (station_lines obs ctxs) (stations obs)).
Proof.
  intros obs ctxs text. unfold write. generalize (stations obs). intros ss.
  assert (G : forall bs, mapM (station show prec obs ctxs) ss = Ok bs <->
    (forall s, In s ss -> (exists c, dget str_eqb s ctxs = Some c) /\ (exists a, In a obs /\ a_stn a = s /\ has_id a)) /\ bs = map (fun s => unlines (station_lines obs ctxs s)) ss).
  { induction ss as [|s ss IH]; intros bs; cbn [mapM].
    - split; [intros E; injection E as <-; split; [intros s []|reflexivity]|intros [_ ->]; reflexivity].
    - destruct (station show prec obs ctxs s) as [b|e] eqn:E; cbn [bind].
      + apply station_ok in E. destruct E as [C [D ->]]. destruct (mapM (station show prec obs ctxs) ss) as [bs'|e'] eqn:M; cbn [bind].
        * destruct (proj1 (IH bs') eq_refl) as [H ->]. split; [intros X; injection X as <-; split; auto; intros t [<-|It]; auto|]. intros [_ ->]. reflexivity.
        * split; [discriminate|]. intros [H ->]. exfalso. destruct (IH (map (fun s => unlines (station_lines obs ctxs s)) ss)) as [_ K]. discriminate (K (conj (fun t It => H t (or_intror It)) eq_refl)).
      + split; [discriminate|]. intros [H _]. destruct (H s (or_introl eq_refl)) as [C D]. pose proof (proj2 (station_ok obs ctxs s _) (conj C (conj D eq_refl))). congruence. }
  assert (L : forall l, concat (map (fun s => unlines (station_lines obs ctxs s)) l) = unlines (flat_map (station_lines obs ctxs) l)).
  { induction l as [|s l IH]; auto. cbn. rewrite unlines_app, IH. reflexivity. }
  destruct (mapM _ ss) as [bs|e]; cbn [bind].
  - destruct (proj1 (G bs) eq_refl) as [H ->]. rewrite L. split; [intros E; injection E as <-; split; auto|]. intros [_ ->]. reflexivity.
  - split; [discriminate|]. intros [H ->]. pose proof (proj2 (G _) (conj H eq_refl)). discriminate.
Qed.
Lemma write_err : forall obs ctxs e, write show prec obs ctxs = Err e -> e = ValueError.
Proof.
  intros obs ctxs e. unfold write. generalize (stations obs). intros ss. assert (G : forall e, mapM (station show prec obs ctxs) ss = Err e -> e = ValueError).
  { induction ss as [|s ss IH]; cbn; [discriminate|]. intros e0. destruct (station show prec obs ctxs s) eqn:E; cbn; [|intros X; injection X as <-; eapply station_err; eauto].
    destruct (mapM _ ss); cbn; [discriminate|]. intros X. injection X as <-. auto. }
  destruct (mapM _ ss); cbn; [discriminate|]. intros X. injection X as <-. auto.
Qed.
End Lines.

Lemma text_lines_unlines : forall ls, Forall (fun l => ~ In NL l /\ strip l <> []) ls -> text_lines (unlines ls) = map strip ls.
Proof.
  intros ls F. unfold text_lines. rewrite <- (app_nil_r (unlines ls)), split_unlines by (eapply Forall_impl; [|exact F]; intros l [H _]; exact H).
  cbn [split_on]. rewrite map_app, filter_app. cbn. rewrite app_nil_r. induction F as [|l ls [_ H] F IH]; auto. cbn. rewrite IH. destruct (strip l); [congruence|reflexivity].
Qed.
(* a context line *)
Definition metaish (l : str) : Prop := exists ch r, l = ch :: r /\ (ch = "#"%char \/ ch = "!"%char).
Lemma strip_cons : forall c r, ~ white c -> exists r', strip (c :: r) = c :: r'.
Proof.
  intros c r H. apply white_not in H. unfold strip. cbn [lstrip]. rewrite H. cbn [rev].
  assert (G : forall l, exists l', lstrip (l ++ [c]) = l' ++ [c]).
  { induction l as [|x l [l' IH]]; cbn; [rewrite H; exists []; reflexivity|]. destruct (is_space x); [exists l'; exact IH|exists (x :: l); reflexivity]. }
  destruct (G (rev r)) as [l' E]. rewrite E, rev_app_distr. cbn. eauto.
Qed.
Lemma metaish_strip : forall l, metaish l -> is_meta (strip l) = true /\ strip l <> [].
Proof.
  intros l [ch [r [-> C]]]. assert (W : ~ white ch) by (destruct C as [-> | ->]; apply white_not; reflexivity).
  destruct (strip_cons ch r W) as [r' E]. rewrite E. split; [|discriminate]. apply is_meta_iff. exists r'. destruct C as [-> | ->]; auto.
Qed.
Lemma s_of : forall s, s_ s = list_ascii_of_string s.
Proof. reflexivity. Qed.
Lemma bang_meta_ish : forall k v, metaish (bang k v).
Proof. intros k v. unfold bang. cbn. eexists _, _. split; [reflexivity|auto]. Qed.
Lemma hash_meta_ish : forall k, metaish (hash k).
Proof. intros k. unfold hash. cbn. eexists _, _. split; [reflexivity|auto]. Qed.
Lemma bang_opt_ish : forall k v, Forall metaish (bang_opt k v).
Proof. intros k [v|]; constructor; [apply bang_meta_ish|constructor]. Qed.
Lemma names_ish : forall k l, Forall metaish (names k l).
Proof. intros k l. constructor; [apply hash_meta_ish|]. apply Forall_forall. intros x H. apply in_map_iff in H. destruct H as [y [<- _]]. apply bang_meta_ish. Qed.
Lemma context_ish : forall c, Forall metaish (context_lines c).
Proof.
  intros c. unfold context_lines.
  repeat match goal with
         | |- Forall _ (_ :: _) => apply Forall_cons; [first [apply hash_meta_ish|apply bang_meta_ish]|]
         | |- Forall _ (_ ++ _) => apply Forall_app; split; [first [apply bang_opt_ish|apply names_ish|idtac]|]
         end.
  - destruct (c_software c); [|constructor]. constructor; [apply hash_meta_ish|]. repeat (apply Forall_app; split; [apply bang_opt_ish|]). apply bang_opt_ish.
  - destruct (c_coinvestigators c); [apply names_ish|constructor].
  - destruct (c_collaborators c); [apply names_ish|constructor].
  - destruct (c_funding c); [|constructor]. constructor; [|constructor]. eexists _, _. split; [reflexivity|auto].
  - destruct (c_comments c) as [[|x l]|]; try constructor; [apply hash_meta_ish|]. apply Forall_forall. intros y H. apply in_map_iff in H. destruct H as [z [<- _]]. apply bang_meta_ish.
Qed.
Definition nonl (l : str) : Prop := ~ In NL l.
Lemma nonl_app : forall a b, nonl a -> nonl b -> nonl (a ++ b).
Proof. intros a b A B I. apply in_app_or in I. destruct I; [apply A|apply B]; auto. Qed.
Lemma nonl_dec : forall s, existsb (Ascii.eqb NL) s = false -> nonl s.
Proof. intros s H I. assert (existsb (Ascii.eqb NL) s = true) by (apply existsb_exists; exists NL; split; auto; apply Ascii.eqb_refl). congruence. Qed.
Lemma bang_nonl : forall k v, nonl (s_ k) -> nonl v -> nonl (bang k v).
Proof. intros k v K V. unfold bang. repeat apply nonl_app; auto; apply nonl_dec; reflexivity. Qed.
Lemma bang_opt_nonl : forall k v, nonl (s_ k) -> (forall x, v = Some x -> nonl x) -> Forall nonl (bang_opt k v).
Proof. intros k [v|] K V; constructor; [apply bang_nonl; auto|constructor]. Qed.
Lemma hash_nonl : forall k, nonl (s_ k) -> nonl (hash k).
Proof. intros k K. apply nonl_app; auto. apply nonl_dec. reflexivity. Qed.
Lemma map_bang_nonl : forall k l, nonl (s_ k) -> Forall nonl l -> Forall nonl (map (bang k) l).
Proof. intros k l K L. apply Forall_forall. intros x H. apply in_map_iff in H. destruct H as [y [<- Y]]. rewrite Forall_forall in L. apply bang_nonl; auto. Qed.
Lemma names_nonl : forall k l, nonl (s_ k) -> Forall nonl l -> Forall nonl (names k l).
Proof. intros k l K L. constructor; [apply hash_nonl; auto|]. apply map_bang_nonl; auto. apply nonl_dec. reflexivity. Qed.
Lemma context_nonl : forall c, one_line c -> Forall nonl (context_lines c).
Proof.
  intros c (H1 & H2 & H3 & H4 & H5 & H6 & H7 & H8 & H9 & H10 & H11 & H12 & H13 & H14 & H15 & H16 & H17 & H18 & H19). unfold context_lines.
  repeat match goal with
         | |- Forall _ (_ :: _) => apply Forall_cons; [first [apply hash_nonl; apply nonl_dec; reflexivity|apply bang_nonl; [apply nonl_dec; reflexivity|assumption]]|]
         | |- Forall _ (_ ++ _) => apply Forall_app; split; [first [apply bang_opt_nonl; [apply nonl_dec; reflexivity|assumption]|apply names_nonl; [apply nonl_dec; reflexivity|assumption]|idtac]|]
         end.
  - destruct (c_software c) as [w|]; [|constructor]. destruct (H15 w eq_refl) as (W1 & W2 & W3 & W4). constructor; [apply hash_nonl; apply nonl_dec; reflexivity|].
    repeat (apply Forall_app; split; [apply bang_opt_nonl; [apply nonl_dec; reflexivity|assumption]|]). apply bang_opt_nonl; [apply nonl_dec; reflexivity|assumption].
  - destruct (c_coinvestigators c); [apply names_nonl; [apply nonl_dec; reflexivity|auto]|constructor].
  - destruct (c_collaborators c); [apply names_nonl; [apply nonl_dec; reflexivity|auto]|constructor].
  - destruct (c_funding c); [|constructor]. constructor; [|constructor]. apply nonl_app; [apply nonl_dec; reflexivity|]. exact (H18 _ eq_refl).
  - destruct (c_comments c) as [[|x l]|]; try constructor; [apply hash_nonl; apply nonl_dec; reflexivity|]. apply (map_bang_nonl "line" (x :: l)); [apply nonl_dec; reflexivity|]. exact (H19 _ eq_refl).
Qed.

Section Read.
Variables (show : row -> str) (read : str -> result row) (again : row -> row).
Hypothesis ST : stamps show read again.

Lemma read_meta : forall ls h r, Forall (fun l => is_meta l = true) ls -> read_lines read h (ls ++ r) = read_lines read h r.
Proof. intros ls h r F. induction F as [|l ls H F IH]; auto. cbn [app read_lines]. rewrite H. exact IH. Qed.

Lemma block_shape : forall rows, block_lines show default_precision rows = header_line rows :: map (row_line show default_precision (present rows)) rows.
Proof. intros rows. unfold block_lines, header_line. cbv zeta. reflexivity. Qed.

Definition good_rows (rows : list ades) : Prop :=
  (exists a, In a rows /\ has_id a) /\ (forall a, In a rows -> safe_row a /\ numbers_ok a) /\
  (forall f, In f [a_rmsra; a_rmsdec; a_corr; a_mag; a_rmsmag; a_snr; a_seeing; a_exp] -> forall a b, In a rows -> In b rows -> (f a = None <-> f b = None)).

Lemma read_block : forall rows, good_rows rows -> forall h rest l, (forall h, read_lines read h rest = Ok l) ->
  exists l', read_lines read h (block_lines show default_precision rows ++ rest) = Ok (l' ++ l) /\ Forall2 (reread again) rows l'.
Proof.
  intros rows (ID & OK & U) h rest l R. rewrite block_shape.
  assert (NE : rows <> []) by (intros E; rewrite E in ID; destruct ID as [a [[] _]]).
  destruct (header_facts rows NE ID) as (_ & _ & _ & M & H & NS). cbn [app read_lines]. rewrite M, H, NS.
  assert (G : forall sub, (forall a, In a sub -> In a rows) -> exists l',
    read_lines read (Some (pick (present rows) (map k_name schema))) (map (row_line show default_precision (present rows)) sub ++ rest) = Ok (l' ++ l) /\ Forall2 (reread again) sub l').
  { induction sub as [|a sub IH]; intros I; [exists []; split; [apply R|constructor]|].
    destruct IH as [l' [E F]]; [intros; apply I; cbn; auto|]. pose proof (I a (or_introl eq_refl)) as Ia. destruct (OK a Ia) as [S N].
    destruct (row_facts show read again ST rows a Ia ID S) as (_ & _ & _ & M2 & H2 & SP). cbn [map app read_lines]. rewrite M2, H2, SP.
    destruct (read_row_ok show read again ST rows a Ia S) as [a' [RR RE]].
    - intros b Ib. apply OK. auto.
    - intros f Hf b Ib. apply U; auto.
    - rewrite RR. cbn [bind]. rewrite E. cbn [bind]. exists (a' :: l'). split; auto. }
  exact (G rows (fun a X => X)).
Qed.
Lemma block_clean : forall rows, good_rows rows -> Forall (fun l => ~ In NL l /\ strip l <> [] /\ strip l = l /\ is_meta l = false) (block_lines show default_precision rows).
Proof.
  intros rows (ID & OK & U). assert (NE : rows <> []) by (intros E; rewrite E in ID; destruct ID as [a [[] _]]).
  rewrite block_shape. destruct (header_facts rows NE ID) as (T & N & L & M & _ & _). constructor.
  - rewrite (strip_trimmed _ T). auto.
  - apply Forall_forall. intros l H. apply in_map_iff in H. destruct H as [a [<- Ia]]. destruct (OK a Ia) as [S _].
    destruct (row_facts show read again ST rows a Ia ID S) as (T2 & N2 & L2 & M2 & _ & _). rewrite (strip_trimmed _ T2). auto.
Qed.
Lemma map_id_F : forall ls, Forall (fun l => ~ In NL l /\ strip l <> [] /\ strip l = l /\ is_meta l = false) ls -> map strip ls = ls.
Proof. intros ls F. induction F as [|l ls (_ & _ & E & _) F IH]; auto. cbn. rewrite E, IH. reflexivity. Qed.

Definition file_lines (obs : list ades) (ctxs : list (str * context)) (ss : list str) : list str :=
  flat_map (fun s => map strip match dget str_eqb s ctxs with Some c => context_lines c | None => [] end ++ block_lines show default_precision (rows_of obs s)) ss.

Definition ctx_lines (ctxs : list (str * context)) (s : str) : list str := match dget str_eqb s ctxs with Some c => context_lines c | None => [] end.
Lemma file_cons : forall obs ctxs s ss, file_lines obs ctxs (s :: ss) = map strip (ctx_lines ctxs s) ++ block_lines show default_precision (rows_of obs s) ++ file_lines obs ctxs ss.
Proof. intros obs ctxs s ss. unfold file_lines. cbn [flat_map]. rewrite <- app_assoc. reflexivity. Qed.
Lemma ctx_meta : forall ctxs s, Forall (fun l => is_meta l = true) (map strip (ctx_lines ctxs s)).
Proof.
  intros ctxs s. apply Forall_forall. intros x Hx. apply in_map_iff in Hx. destruct Hx as [y [<- Hy]]. apply metaish_strip. unfold ctx_lines in Hy. destruct (dget _ _ _); [|destruct Hy].
  pose proof (context_ish c) as CI. rewrite Forall_forall in CI. auto.
Qed.
Lemma read_header_state : forall rows rest h h', good_rows rows ->
  read_lines read h (block_lines show default_precision rows ++ rest) = read_lines read h' (block_lines show default_precision rows ++ rest).
Proof.
  intros rows rest h h' (ID & OK & U). rewrite block_shape. assert (NE : rows <> []) by (intros X; rewrite X in ID; destruct ID as [a [[] _]]).
  destruct (header_facts _ NE ID) as (_ & _ & _ & M & H & _). cbn [app read_lines]. rewrite M, H. reflexivity.
Qed.
Lemma read_stations : forall obs ctxs ss, (forall s, In s ss -> good_rows (rows_of obs s)) ->
  exists l, (forall h, read_lines read h (file_lines obs ctxs ss) = Ok l) /\ Forall2 (reread again) (flat_map (rows_of obs) ss) l.
Proof.
  intros obs ctxs ss. induction ss as [|s ss IH]; intros G; [exists []; split; [reflexivity|constructor]|].
  destruct IH as [l [E F]]; [intros; apply G; cbn; auto|]. pose proof (G s (or_introl eq_refl)) as GR.
  destruct (read_block _ GR None _ _ E) as [l' [E1 F1]]. exists (l' ++ l). split; [|cbn [flat_map]; apply Forall2_app; auto].
  intros h. rewrite file_cons. rewrite read_meta by apply ctx_meta. rewrite (read_header_state _ _ h None GR). exact E1.
Qed.

Lemma text_lines_file : forall obs ctxs, (forall s, In s (stations obs) -> good_rows (rows_of obs s)) -> (forall s c, dget str_eqb s ctxs = Some c -> one_line c) ->
  text_lines (unlines (s_ "# version=2022" :: flat_map (station_lines show default_precision obs ctxs) (stations obs))) =
  s_ "# version=2022" :: file_lines obs ctxs (stations obs).
Proof.
  intros obs ctxs G C. rewrite text_lines_unlines.
  - cbn [map]. f_equal. generalize (stations obs) G. intros ss. induction ss as [|s ss IH]; intros GS; [reflexivity|]. rewrite file_cons. cbn [flat_map]. rewrite map_app, IH by (intros; apply GS; cbn; auto).
    change (station_lines show default_precision obs ctxs s) with (ctx_lines ctxs s ++ block_lines show default_precision (rows_of obs s)).
    rewrite map_app, <- app_assoc. rewrite (map_id_F _ (block_clean _ (GS s (or_introl eq_refl)))). reflexivity.
  - constructor; [split; [apply nonl_dec; reflexivity|vm_compute; discriminate]|]. apply Forall_forall. intros x Hx. apply in_flat_map in Hx. destruct Hx as [s [Is Hx]].
    unfold station_lines in Hx. apply in_app_or in Hx. destruct Hx as [Hx|Hx].
    + destruct (dget str_eqb s ctxs) as [c|] eqn:D; [|destruct Hx]. split.
      * pose proof (context_nonl c (C s c D)) as F. rewrite Forall_forall in F. apply F. exact Hx.
      * apply metaish_strip. pose proof (context_ish c) as F. rewrite Forall_forall in F. auto.
    + pose proof (block_clean _ (G s Is)) as F. rewrite Forall_forall in F. destruct (F x Hx) as (F1 & F2 & _). auto.
Qed.

Lemma obs_good : forall obs s, (forall a, In a obs -> safe_row a /\ numbers_ok a) -> uniform_numbers obs -> (exists a, In a obs /\ a_stn a = s /\ has_id a) -> good_rows (rows_of obs s).
Proof.
  intros obs s A U [a [Ia [Sa H]]]. split; [exists a; split; auto; apply rows_of_In; auto|]. split; [intros b Hb; apply rows_of_In in Hb; apply A; tauto|].
  intros f F b c Hb Hc. apply rows_of_In in Hb, Hc. apply (U f F); try tauto. destruct Hb, Hc. congruence.
Qed.
Lemma written_read_back : forall obs ctxs text, (forall a, In a obs -> safe_row a /\ numbers_ok a) -> uniform_numbers obs ->
  (forall s c, dget str_eqb s ctxs = Some c -> one_line c) -> write show default_precision obs ctxs = Ok text ->
  exists l, read_observations read text = Ok l /\ Forall2 (reread again) (arrangement obs) l.
Proof.
  intros obs ctxs text A U C W. apply write_lines in W. destruct W as [W ->].
  assert (G : forall s, In s (stations obs) -> good_rows (rows_of obs s)) by (intros s Is; apply obs_good; auto; apply W; auto).
  unfold read_observations. rewrite text_lines_file by auto.
  destruct (read_stations obs ctxs (stations obs) G) as [l [E F]]. exists l. split; auto.
  change (s_ "# version=2022" :: file_lines obs ctxs (stations obs)) with ([s_ "# version=2022"] ++ file_lines obs ctxs (stations obs)). rewrite read_meta; [apply E|].
  constructor; [reflexivity|constructor].
Qed.
End Read.
