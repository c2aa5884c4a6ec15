(* Proofs for AdesModel: text. *)
From Coq Require Import Ascii String QArith Qround Lqa Lia ZArith Permutation Sorted.
From Verif Require Import Base ListLemmas TimeModel TimeSpec TimeQProofs MpcModel MpcSpec MpcProofs ObsModel ObsSpec ObsProofs AdesModel AdesSpec.
Open Scope string_scope.
Open Scope Z_scope.
Open Scope list_scope.

(* ---- splitting and joining ---- *)
Lemma split_app : forall c a b, ~ In c a -> split_on c (a ++ c :: b) = a :: split_on c b.
Proof.
  intros c a b. induction a as [|x a IH]; intros H.
  - cbn. rewrite Ascii.eqb_refl. reflexivity.
  - cbn [app split_on]. destruct (Ascii.eqb x c) eqn:E; [apply Ascii.eqb_eq in E; subst; exfalso; apply H; cbn; auto|].
    rewrite IH by (intros X; apply H; cbn; auto). reflexivity.
Qed.
Lemma split_none : forall c a, ~ In c a -> split_on c a = [a].
Proof.
  intros c a. induction a as [|x a IH]; intros H; auto. cbn [split_on].
  destruct (Ascii.eqb x c) eqn:E; [apply Ascii.eqb_eq in E; subst; exfalso; apply H; cbn; auto|].
  rewrite IH by (intros X; apply H; cbn; auto). reflexivity.
Qed.
Lemma split_nonempty : forall c s, split_on c s <> [].
Proof. intros c s. destruct s as [|x s]; cbn; [discriminate|]. destruct (Ascii.eqb x c); [discriminate|]. destruct (split_on c s); discriminate. Qed.
Lemma split_unlines : forall ls rest, Forall (fun l => ~ In NL l) ls -> split_on NL (unlines ls ++ rest) = ls ++ split_on NL rest.
Proof.
  induction ls as [|l ls IH]; intros rest H; auto. inversion H; subst. cbn [unlines flat_map]. unfold unlines in IH.
  rewrite <- !app_assoc. cbn [app]. rewrite split_app by auto. rewrite IH by auto. reflexivity.
Qed.
Lemma split_join : forall c l, l <> [] -> Forall (fun x => ~ In c x) l -> split_on c (join c l) = l.
Proof.
  intros c l. induction l as [|x l IH]; intros N H; [congruence|]. inversion H; subst. destruct l as [|y l].
  - cbn. apply split_none. auto.
  - change (join c (x :: y :: l)) with (x ++ c :: join c (y :: l)). rewrite split_app by auto. rewrite IH by (auto; discriminate). reflexivity.
Qed.
Lemma join_split : forall c s, join c (split_on c s) = s.
Proof.
  intros c s. induction s as [|x s IH]; auto. cbn [split_on]. destruct (Ascii.eqb x c) eqn:E.
  - apply Ascii.eqb_eq in E. subst. pose proof (split_nonempty c s). destruct (split_on c s) as [|h t] eqn:S; [congruence|].
    change (join c ([] :: h :: t)) with ([] ++ c :: join c (h :: t)). rewrite IH. reflexivity.
  - pose proof (split_nonempty c s). destruct (split_on c s) as [|h t] eqn:S; [congruence|]. destruct t as [|h2 t].
    + cbn in IH. cbn. f_equal. auto.
    + change (join c ((x :: h) :: h2 :: t)) with (x :: (h ++ c :: join c (h2 :: t))). f_equal. exact IH.
Qed.
Lemma split_In : forall c s w x, In w (split_on c s) -> In x w -> In x s /\ x <> c.
Proof.
  intros c s. induction s as [|y s IH]; intros w x Hw Hx.
  - cbn in Hw. destruct Hw as [<-|[]]. destruct Hx.
  - cbn [split_on] in Hw. destruct (Ascii.eqb y c) eqn:E.
    + destruct Hw as [<-|Hw]; [destruct Hx|]. destruct (IH w x Hw Hx). cbn. auto.
    + pose proof (split_nonempty c s). destruct (split_on c s) as [|h t]; [congruence|]. destruct Hw as [<-|Hw].
      * destruct Hx as [<-|Hx]; [split; [cbn; auto|intros ->; rewrite Ascii.eqb_refl in E; discriminate]|]. destruct (IH h x (or_introl eq_refl) Hx). cbn. auto.
      * destruct (IH w x (or_intror Hw) Hx). cbn. auto.
Qed.
Lemma join_unlines : forall l, l <> [] -> join NL l ++ [NL] = unlines l.
Proof.
  intros l. induction l as [|x l IH]; intros N; [congruence|]. destruct l as [|y l].
  - cbn. rewrite app_nil_r. reflexivity.
  - change (join NL (x :: y :: l)) with (x ++ NL :: join NL (y :: l)). change (unlines (x :: y :: l)) with ((x ++ [NL]) ++ unlines (y :: l)).
    rewrite <- IH by discriminate. rewrite <- !app_assoc. reflexivity.
Qed.
Lemma unlines_app : forall a b, unlines (a ++ b) = unlines a ++ unlines b.
Proof. intros a b. apply flat_map_app. Qed.

(* ---- whitespace ---- *)
Lemma white_is : forall c, white c <-> is_space c = true.
Proof. intros c. unfold white, is_space, code. rewrite !Bool.orb_true_iff, !Bool.andb_true_iff. lia. Qed.
Lemma white_not : forall c, ~ white c <-> is_space c = false.
Proof. intros c. rewrite white_is. destruct (is_space c); split; congruence. Qed.
Lemma lstrip_id : forall s, (forall c r, s = c :: r -> ~ white c) -> lstrip s = s.
Proof. intros [|c s] H; auto. cbn. specialize (H c s eq_refl). apply white_not in H. rewrite H. reflexivity. Qed.
Lemma rev_head : forall (s : str) c r, rev s = c :: r -> s = rev r ++ [c].
Proof. intros s c r H. apply (f_equal (@rev ascii)) in H. rewrite rev_involutive in H. exact H. Qed.
Lemma strip_trimmed : forall s, trimmed s -> strip s = s.
Proof.
  intros s [A B]. unfold strip. rewrite (lstrip_id s A). rewrite lstrip_id; [apply rev_involutive|].
  intros c r H. apply rev_head in H. exact (B c _ H).
Qed.
Lemma trimmed_app : forall a b, trimmed a -> trimmed b -> a <> [] -> b <> [] -> forall m, trimmed (a ++ m ++ b).
Proof.
  intros a b [A _] [_ B] Na Nb m. split.
  - intros c r H. destruct a as [|x a]; [congruence|]. cbn in H. injection H as <- _. exact (A x a eq_refl).
  - intros c r H. destruct (exists_last Nb) as [b' [y ->]]. rewrite !app_assoc in H. apply app_inj_tail in H. destruct H as [_ <-]. exact (B y b' eq_refl).
Qed.
Lemma trimmed_edges : forall c m d, ~ white c -> ~ white d -> trimmed (c :: m ++ [d]).
Proof.
  intros c m d C D. split.
  - intros x r H. injection H as <- _. auto.
  - intros x r H. change (c :: m ++ [d]) with ((c :: m) ++ [d]) in H. apply app_inj_tail in H. destruct H as [_ <-]. auto.
Qed.
Lemma trimmed_one : forall c, ~ white c -> trimmed [c].
Proof. intros c C. split; intros x r H; [injection H as <- _; auto|]. destruct r as [|y [|]]; cbn in H; injection H; intros; subst; auto; discriminate. Qed.
Lemma trimmed_nil : trimmed [].
Proof. split; intros c r H; [discriminate|]. destruct r; discriminate. Qed.
Lemma trimmed_hd : forall s, trimmed s <-> (forall c, hd_error s = Some c -> ~ white c) /\ (forall c, hd_error (rev s) = Some c -> ~ white c).
Proof.
  intros s. split; intros [A B]; split.
  - intros c H. destruct s as [|x s]; [discriminate|]. injection H as <-. exact (A x s eq_refl).
  - intros c H. destruct (rev s) as [|x r] eqn:R; [discriminate|]. injection H as <-. apply rev_head in R. exact (B x _ R).
  - intros c r ->. apply A. reflexivity.
  - intros c r ->. apply B. rewrite rev_app_distr. reflexivity.
Qed.
(* texts joined by a visible separator *)
Lemma trimmed_join : forall c l, ~ white c -> Forall trimmed l -> trimmed (join c l).
Proof.
  intros c l C H. induction H as [|x l Hx H IH]; [apply trimmed_nil|]. destruct l as [|y l]; [auto|].
  change (join c (x :: y :: l)) with (x ++ c :: join c (y :: l)). set (J := join c (y :: l)) in *. clearbody J.
  rewrite trimmed_hd in *. destruct Hx as [A1 A2], IH as [B1 B2]. split; intros d E.
  - destruct x as [|a x]; cbn in E; injection E as <-; auto.
  - rewrite rev_app_distr in E. cbn [rev] in E. rewrite <- app_assoc in E. destruct (rev J) as [|a r]; cbn in E; injection E as <-; auto.
Qed.

(* ---- substrings ---- *)
Lemma startswith_iff : forall p s, startswith p s = true <-> exists b, s = p ++ b.
Proof.
  intros p s. unfold startswith. rewrite str_eqb_eq. split.
  - intros H. exists (skipn (List.length p) s). rewrite <- H at 1. symmetry. apply firstn_skipn.
  - intros [b ->]. rewrite firstn_app, firstn_all, Nat.sub_diag. cbn. apply app_nil_r.
Qed.
Lemma contains_iff : forall p s, contains p s = true <-> occurs p s.
Proof.
  intros p s. induction s as [|x s IH]; cbn [contains].
  - rewrite Bool.orb_false_r, startswith_iff. split.
    + intros [b E]. exists [], b. exact E.
    + intros [a [b E]]. destruct a; [exists b; exact E|discriminate].
  - rewrite Bool.orb_true_iff, startswith_iff, IH. split.
    + intros [[b E]|[a [b E]]]; [exists [], b; exact E|exists (x :: a), b; rewrite E; reflexivity].
    + intros [[|y a] [b E]]; [left; exists b; exact E|]. injection E as <- E. right. exists a, b. exact E.
Qed.
Lemma occurs_app : forall k c x J, k <> [] -> ~ In c k -> occurs k (x ++ c :: J) -> occurs k x \/ occurs k J.
Proof.
  intros k c x J K N [a [b E]]. apply app_eq_app in E. destruct E as [l [[E1 E2]|[E1 E2]]].
  - apply app_eq_app in E2. destruct E2 as [m [[F1 F2]|[F1 F2]]].
    + destruct m as [|y m].
      * rewrite app_nil_r in F1. subst. left. exists a, []. rewrite app_nil_r. reflexivity.
      * injection F2 as <- _. exfalso. apply N. rewrite F1. apply in_or_app. right. cbn. auto.
    + left. exists a, m. rewrite E1, F1. reflexivity.
  - destruct l as [|z l]; cbn in E2.
    + destruct k as [|y k]; [congruence|]. cbn in E2. injection E2 as <- _. exfalso. apply N. cbn. auto.
    + injection E2 as <- E2. right. exists l, b. exact E2.
Qed.
Lemma occurs_join : forall k c l, k <> [] -> ~ In c k -> occurs k (join c l) -> exists t, In t l /\ occurs k t.
Proof.
  intros k c l K N. induction l as [|x l IH]; intros H.
  - destruct H as [a [b E]]. destruct a; [destruct k; [congruence|discriminate]|discriminate].
  - destruct l as [|y l]; [exists x; cbn; auto|]. change (join c (x :: y :: l)) with (x ++ c :: join c (y :: l)) in H.
    apply occurs_app in H; auto. destruct H as [H|H]; [exists x; cbn; auto|]. destruct (IH H) as [t [I O]]. exists t. cbn in *. auto.
Qed.
Lemma occurs_In : forall k s c, occurs k s -> In c k -> In c s.
Proof. intros k s c [a [b ->]] H. apply in_or_app. right. apply in_or_app. auto. Qed.
Lemma is_header_iff : forall l, is_header l = true <-> exists k, In k keywords /\ occurs k l.
Proof.
  intros l. unfold is_header, keywords. rewrite !Bool.orb_true_iff, !contains_iff. split.
  - intros [[H|H]|H]; eexists; (split; [|exact H]); cbn; auto.
  - intros [k [[<-|[<-|[<-|[]]]] H]]; auto.
Qed.
Lemma keyword_facts : forall k, In k keywords -> k <> [] /\ ~ In "|"%char k /\ (In "p"%char k \/ In "t"%char k).
Proof. intros k [<-|[<-|[<-|[]]]]; (split; [discriminate|]); (split; [cbn; intuition discriminate|]); cbn; auto 20. Qed.

(* ---- numbers ---- *)
Definition numc (c : ascii) : bool := plainc c || Ascii.eqb c "-".
Lemma float_minus : forall s, plain s -> py_float ("-"%char :: s) = match unsigned s with Some q => Ok (if Qle_bool MAXF q then FInf true else FNum (- q)) | None => Err ValueError end.
Proof.
  intros s H. unfold py_float. rewrite strip_nospace by (constructor; [reflexivity|apply plain_nospace; auto]).
  change (underscores false ("-"%char :: s)) with (underscores false s). rewrite plain_underscores by auto. cbn [negb].
  change (filter (fun c => negb (Ascii.eqb c "_")) ("-"%char :: s)) with ("-"%char :: filter (fun c => negb (Ascii.eqb c "_")) s). rewrite plain_filter by auto.
  change (signed ("-"%char :: s)) with (true, s). cbv iota. rewrite plain_lower by auto.
  change (s_ "inf") with ("i"%char :: s_ "nf"). change (s_ "infinity") with ("i"%char :: s_ "nfinity").
  change (s_ "nan") with ("n"%char :: s_ "an").
  rewrite !plain_str_eqb by auto. reflexivity.
Qed.
Lemma zfill_digits : forall p n, 0 <= n < 10 ^ Z.of_nat p -> (1 <= p)%nat ->
  alld (zfill p (str_of n)) /\ svalue 0 (zfill p (str_of n)) = n /\ List.length (zfill p (str_of n)) = p.
Proof.
  intros p n H P. destruct (str_of_alld n ltac:(lia)) as [A [B C]]. pose proof (str_of_len n p P H) as L. rewrite zfill_alld by auto.
  split; [apply alld_app; auto using repeat0_alld|]. split; [rewrite svalue_repeat0; auto|]. rewrite app_length, repeat_length. lia.
Qed.
Lemma fixed_body : forall p n, 0 <= n -> exists w ip fp,
  str_of (n / 10 ^ Z.of_nat p) ++ match p with O => [] | _ => "."%char :: zfill p (str_of (n mod 10 ^ Z.of_nat p)) end = w /\
  decimal_text w ip fp /\ (decimal_value ip fp == inject_Z n / inject_Z (10 ^ Z.of_nat p))%Q.
Proof.
  intros p n N. assert (P0 : 0 < 10 ^ Z.of_nat p) by (apply Z.pow_pos_nonneg; lia).
  assert (D0 : 0 <= n / 10 ^ Z.of_nat p) by (apply Z.div_pos; lia).
  destruct (str_of_alld _ D0) as [A [B C]]. destruct p as [|p].
  - exists (str_of (n / 10 ^ Z.of_nat 0)), (str_of (n / 10 ^ Z.of_nat 0)), []. split; [apply app_nil_r|]. split.
    + split; [apply alld_sdigit; auto|]. split; [auto|]. split; [constructor|]. left. auto.
    + unfold decimal_value. rewrite B. cbn [svalue List.length]. change (10 ^ Z.of_nat 0) with 1. rewrite Z.div_1_r. field.
  - pose proof (Z.mod_pos_bound n _ P0) as M. destruct (zfill_digits (Datatypes.S p) _ M ltac:(lia)) as [A2 [B2 C2]].
    exists (str_of (n / 10 ^ Z.of_nat (Datatypes.S p)) ++ "."%char :: zfill (Datatypes.S p) (str_of (n mod 10 ^ Z.of_nat (Datatypes.S p)))), (str_of (n / 10 ^ Z.of_nat (Datatypes.S p))), (zfill (Datatypes.S p) (str_of (n mod 10 ^ Z.of_nat (Datatypes.S p)))).
    split; [reflexivity|]. split.
    + split; [apply alld_sdigit; auto|]. split; [auto|]. split; [apply alld_sdigit; auto|]. right. reflexivity.
    + unfold decimal_value. rewrite B, B2, C2. set (P := 10 ^ Z.of_nat (Datatypes.S p)) in *. pose proof (Z.div_mod n P ltac:(lia)) as E.
      assert (X : (inject_Z P * inject_Z (n / P) + inject_Z (n mod P) == inject_Z n)%Q) by (rewrite <- inject_Z_mult, <- inject_Z_plus, <- E; reflexivity).
      assert (Y : ~ (inject_Z P == 0)%Q) by (change 0%Q with (inject_Z 0); rewrite inject_Z_injective; lia).
      rewrite <- X. field. auto.
Qed.
Lemma fixed_read : forall p q, (- inject_Z (10 ^ 300) <= q <= inject_Z (10 ^ 300))%Q ->
  exists r, py_float (fixed p q) = Ok (FNum r) /\ (- (1 # 2) <= (r - q) * inject_Z (10 ^ Z.of_nat p) <= 1 # 2)%Q /\
    Forall (fun c => numc c = true) (fixed p q) /\ fixed p q <> [].
Proof.
  intros p q [L U]. unfold fixed. set (P := inject_Z (10 ^ Z.of_nat p)).
  assert (P0 : (1 <= P)%Q). { unfold P. change 1%Q with (inject_Z 1). rewrite <- Zle_Qle. assert (0 < 10 ^ Z.of_nat p) by (apply Z.pow_pos_nonneg; lia). lia. }
  set (a := if Qle_bool 0 q then q else (- q)%Q).
  assert (A : (0 <= a)%Q /\ (a <= inject_Z (10 ^ 300))%Q).
  { unfold a. destruct (Qle_bool 0 q) eqn:E; [apply Qle_bool_iff in E; auto|]. split; [|lra].
    destruct (Qlt_le_dec q 0) as [X|X]; [lra|]. apply Qle_bool_iff in X. congruence. }
  set (n := round_he (a * P)). destruct (round_he_near (a * P)%Q) as [R1 R2]. fold n in R1, R2.
  assert (AP : (0 <= a * P)%Q) by (apply Qmult_le_0_compat; lra).
  assert (N : 0 <= n). { assert (X : (-1 < inject_Z n)%Q) by lra. change (-1)%Q with (inject_Z (-1)) in X. rewrite <- Zlt_Qlt in X. lia. }
  destruct (fixed_body p n N) as [w [ip [fp [-> [T V]]]]].
  destruct (text_plain _ _ _ T) as [PL _]. destruct (unsigned_text _ _ _ T) as [v [Hu Hv]].
  assert (E : (v * P == inject_Z n)%Q). { rewrite Hv, V. fold P. field. intros X. rewrite X in P0. lra. }
  assert (B : Qle_bool MAXF v = false).
  { destruct (Qle_bool MAXF v) eqn:X; auto. apply Qle_bool_iff in X. exfalso.
    assert (M : (inject_Z (10 ^ 300) + 1 < MAXF)%Q). { unfold MAXF. change 1%Q with (inject_Z 1). rewrite <- inject_Z_plus, <- Zlt_Qlt. vm_compute. reflexivity. }
    assert (Y : ((inject_Z (10 ^ 300) + 1) * P <= v * P)%Q) by (apply Qmult_le_compat_r; lra).
    assert (Z0 : (a * P <= inject_Z (10 ^ 300) * P)%Q) by (apply Qmult_le_compat_r; lra). lra. }
  assert (PN : Forall (fun c => numc c = true) w) by (eapply Forall_impl; [|exact PL]; intros c Hc; unfold numc; rewrite Hc; auto).
  assert (WN := text_nonempty _ _ _ T).
  unfold a in *. destruct (Qle_bool 0 q) eqn:S.
  - exists v. cbn [app]. rewrite float_plain by auto. rewrite Hu, B. split; [auto|]. split; [|split; auto]. split; lra.
  - exists (- v)%Q. cbn [app]. rewrite float_minus by auto. rewrite Hu, B. split; [auto|]. split; [|split; [constructor; auto|discriminate]]. split; lra.
Qed.
