(* Proofs for ObsModel. *)
From Coq Require Import Ascii String QArith Qround Qpower Lqa Lia ZArith.
From Verif Require Import Base ListLemmas TimeModel TimeSpec TimeQProofs MpcModel MpcSpec MpcProofs ObsModel ObsSpec.
Open Scope Z_scope.
Open Scope list_scope.
Ltac Zify.zify_post_hook ::= Z.div_mod_to_equations.

(* ---- calendar ---- *)
Lemma leap_iff : forall y, leap y = true <-> leap_year y.
Proof.
  intros y. unfold leap, leap_year. rewrite <- !Z.mod_divide by lia.
  destruct (y mod 4 =? 0) eqn:A, (y mod 100 =? 0) eqn:B, (y mod 400 =? 0) eqn:C; cbn; lia.
Qed.
Lemma month_length_iff : forall y m n, month_length y m n <-> 1 <= m <= 12 /\ n = days_in_month y m.
Proof.
  intros y m n. split.
  - intros H. inversion H as [m' I|m' I|L|L]; subst.
    + cbn in I. repeat (destruct I as [<-|I]; [split; [lia|reflexivity]|]). destruct I.
    + cbn in I. repeat (destruct I as [<-|I]; [split; [lia|reflexivity]|]). destruct I.
    + split; [lia|]. unfold days_in_month. cbn. rewrite (proj2 (leap_iff y) L). reflexivity.
    + split; [lia|]. unfold days_in_month. cbn. destruct (leap y) eqn:E; auto. apply leap_iff in E. contradiction.
  - intros [R ->].
    assert (C : m = 1 \/ m = 2 \/ m = 3 \/ m = 4 \/ m = 5 \/ m = 6 \/ m = 7 \/ m = 8 \/ m = 9 \/ m = 10 \/ m = 11 \/ m = 12) by lia.
    repeat (destruct C as [->|C]); [..|subst m]; unfold days_in_month; cbn [Z.eqb Pos.eqb orb];
      try (apply long_month; cbn; tauto); try (apply short_month; cbn; tauto).
    destruct (leap y) eqn:E; [apply february_leap; apply leap_iff; auto|apply february; intros L; apply leap_iff in L; congruence].
Qed.
Lemma valid_iff : forall y m d, valid_date y m d <-> 1 <= y <= 9999 /\ 1 <= m <= 12 /\ 1 <= d <= days_in_month y m.
Proof.
  intros y m d. unfold valid_date. split.
  - intros [Y [n [M D]]]. apply month_length_iff in M. destruct M as [M ->]. auto.
  - intros [Y [M D]]. split; auto. exists (days_in_month y m). split; auto. apply month_length_iff. auto.
Qed.
Lemma year_step : forall y, days_before_year (y + 1) = days_before_year y + 365 + (if leap y then 1 else 0).
Proof. intros y. unfold days_before_year, leap. destruct (y mod 4 =? 0) eqn:A, (y mod 100 =? 0) eqn:B, (y mod 400 =? 0) eqn:C; cbn; lia. Qed.
Lemma ordinal_next : forall y m d y' m' d', next_day (y, m, d) (y', m', d') -> toordinal y' m' d' = toordinal y m d + 1.
Proof.
  intros y m d y' m' d' H. remember (y, m, d) as a eqn:Ea. remember (y', m', d') as b eqn:Eb.
  destruct H as [y0 m0 d0 n M R|y0 m0 n M R|y0]; injection Ea; injection Eb; clear Ea Eb; intros; subst; unfold toordinal.
  - lia.
  - apply month_length_iff in M; destruct M as [R' ->].
    assert (C : m = 1 \/ m = 2 \/ m = 3 \/ m = 4 \/ m = 5 \/ m = 6 \/ m = 7 \/ m = 8 \/ m = 9 \/ m = 10 \/ m = 11) by lia.
    repeat (destruct C as [->|C]); [..|subst m]; unfold days_before_month, days_in_month; cbn; unfold Pos.to_nat; cbn; try destruct (leap y); lia.
  - rewrite year_step. unfold days_before_month. cbn. unfold Pos.to_nat. cbn. match goal with |- context [leap ?v] => destruct (leap v) end; lia.
Qed.
Definition ord3 (a : Z * Z * Z) : Z := let '(y, m, d) := a in toordinal y m d - MJD_EPOCH.
Lemma ord3_count : mjd_count ord3.
Proof.
  split; [reflexivity|]. intros [[y m] d] [[y' m'] d'] H. cbn. rewrite (ordinal_next _ _ _ _ _ _ H). lia.
Qed.
Lemma count_unique : forall cal, mjd_count cal -> forall y m d, valid_date y m d -> cal (y, m, d) = ord3 (y, m, d).
Proof.
  intros cal [E0 S] y m d V.
  set (D := fun a => cal a - ord3 a).
  assert (ST : forall a b, next_day a b -> D b = D a). { intros a b N. unfold D. rewrite (S a b N), (proj2 ord3_count a b N). lia. }
  assert (L1 : forall y m, 1 <= m <= 12 -> forall k, (0 <= Z.of_nat k < days_in_month y m) -> D (y, m, Z.of_nat k + 1) = D (y, m, 1)).
  { intros y1 m1 M k. induction k as [|k IH]; intros K; [reflexivity|]. rewrite <- IH by lia.
    replace (Z.of_nat (Datatypes.S k) + 1) with ((Z.of_nat k + 1) + 1) by lia. apply ST. apply (same_month y1 m1 _ (days_in_month y1 m1)); [apply month_length_iff; auto|lia]. }
  assert (DM : forall y m, 28 <= days_in_month y m) by (intros y1 m1; unfold days_in_month; destruct (m1 =? 2); [destruct (leap y1)|destruct (_ || _)]; lia).
  assert (L1' : forall y m d, 1 <= m <= 12 -> 1 <= d <= days_in_month y m -> D (y, m, d) = D (y, m, 1)).
  { intros y1 m1 d1 M K. rewrite <- (L1 y1 m1 M (Z.to_nat (d1 - 1))) by lia. f_equal. f_equal. lia. }
  assert (L2 : forall y m, 1 <= m < 12 -> D (y, m + 1, 1) = D (y, m, 1)).
  { intros y1 m1 M. pose proof (DM y1 m1). rewrite <- (L1' y1 m1 (days_in_month y1 m1)) by lia. apply ST.
    apply same_year; [apply month_length_iff; split; [lia|auto]|lia]. }
  assert (L3 : forall y k, (k <= 11)%nat -> D (y, Z.of_nat k + 1, 1) = D (y, 1, 1)).
  { intros y1 k. induction k as [|k IH]; intros K; [reflexivity|]. rewrite <- IH by lia.
    replace (Z.of_nat (Datatypes.S k) + 1) with ((Z.of_nat k + 1) + 1) by lia. apply L2. lia. }
  assert (L3' : forall y m, 1 <= m <= 12 -> D (y, m, 1) = D (y, 1, 1)).
  { intros y1 m1 M. rewrite <- (L3 y1 (Z.to_nat (m1 - 1))) by lia. f_equal. f_equal. f_equal. lia. }
  assert (L4 : forall y, D (y + 1, 1, 1) = D (y, 1, 1)).
  { intros y1. rewrite (ST (y1, 12, 31) (y1 + 1, 1, 1)) by constructor. rewrite (L1' y1 12 31), L3'; try lia. unfold days_in_month. cbn. lia. }
  assert (L5 : forall y k, D (y + Z.of_nat k, 1, 1) = D (y, 1, 1)).
  { intros y1 k. induction k as [|k IH]; [f_equal; f_equal; f_equal; lia|]. rewrite <- IH.
    replace (y1 + Z.of_nat (Datatypes.S k)) with ((y1 + Z.of_nat k) + 1) by lia. apply L4. }
  assert (L6 : forall y, D (y, 1, 1) = D (1858, 1, 1)).
  { intros y1. destruct (Z_le_gt_dec 1858 y1).
    - rewrite <- (L5 1858 (Z.to_nat (y1 - 1858))). f_equal. f_equal. f_equal. lia.
    - rewrite <- (L5 y1 (Z.to_nat (1858 - y1))). f_equal. f_equal. f_equal. lia. }
  apply valid_iff in V. destruct V as [Y [M Dd]].
  assert (Z1 : D (y, m, d) = D (1858, 11, 17)).
  { rewrite (L1' y m d M Dd), (L3' y m M), (L6 y). rewrite (L1' 1858 11 17), (L3' 1858 11); try lia. unfold days_in_month. cbn. lia. }
  unfold D in Z1. rewrite E0 in Z1. rewrite (proj1 ord3_count) in Z1. lia.
Qed.
Lemma py_date_ok : forall y m d, valid_date y m d -> py_date y m d = Ok (y, m, d).
Proof.
  intros y m d V. apply valid_iff in V. destruct V as [Y [M D]]. unfold py_date, c_int.
  assert (B : days_in_month y m <= 31) by (unfold days_in_month; destruct (m =? 2); [destruct (leap y)|destruct (_ || _)]; lia).
  destruct (negb _) eqn:E; [lia|]. destruct (_ && (d <=? _)) eqn:E2; [auto|lia].
Qed.
Lemma py_date_valid : forall y m d r, py_date y m d = Ok r -> r = (y, m, d) /\ valid_date y m d.
Proof.
  intros y m d r H. unfold py_date in H. destruct (negb _); [discriminate|]. destruct (_ && (d <=? _)) eqn:E; [|discriminate].
  injection H as <-. split; auto. apply valid_iff. lia.
Qed.
Lemma py_date_bad : forall y m d, ~ valid_date y m d -> - 2 ^ 31 <= y < 2 ^ 31 -> - 2 ^ 31 <= m < 2 ^ 31 -> - 2 ^ 31 <= d < 2 ^ 31 ->
  py_date y m d = Err ValueError.
Proof.
  intros y m d V A B C. unfold py_date, c_int. destruct (negb _) eqn:E; [lia|].
  destruct (_ && (d <=? _)) eqn:E2; auto. exfalso. apply V. apply valid_iff. lia.
Qed.

(* ---- words ---- *)
Definition nospace (s : str) := Forall (fun c => is_space c = false) s.
Definition allspace (s : str) := Forall (fun c => is_space c = true) s.
Lemma words_lead : forall p s, allspace p -> words (p ++ s) = words s.
Proof. unfold words. induction p as [|c p IH]; intros s H; auto. inversion H; subst. cbn. rewrite H2. auto. Qed.
Lemma words_aux_word : forall w s cur, nospace w -> words_aux (w ++ s) cur = words_aux s (rev w ++ cur).
Proof.
  induction w as [|c w IH]; intros s cur H; auto. inversion H; subst. cbn [app words_aux]. rewrite H2, IH by auto. cbn [rev]. rewrite <- app_assoc. reflexivity.
Qed.
Lemma words_cons : forall w p s, nospace w -> w <> [] -> allspace p -> p <> [] -> words (w ++ p ++ s) = w :: words s.
Proof.
  intros w p s W N P Q. unfold words. rewrite words_aux_word by auto. rewrite app_nil_r.
  destruct p as [|c p]; [congruence|]. inversion P; subst. cbn [app words_aux]. rewrite H1.
  assert (E : rev w <> []) by (intros E; apply N; rewrite <- (rev_involutive w), E; auto).
  destruct (rev w) eqn:Er; [congruence|]. rewrite <- Er, rev_involutive. f_equal. apply (words_lead p s). auto.
Qed.
Lemma words_last : forall w p, nospace w -> w <> [] -> allspace p -> words (w ++ p) = [w].
Proof.
  intros w p W N P. destruct p as [|c p].
  - rewrite app_nil_r. unfold words. rewrite <- (app_nil_r w) at 1. rewrite words_aux_word by auto. rewrite app_nil_r. cbn.
    assert (E : rev w <> []) by (intros E; apply N; rewrite <- (rev_involutive w), E; auto).
    destruct (rev w) eqn:Er; [congruence|]. rewrite <- Er, rev_involutive. auto.
  - rewrite <- (app_nil_r (c :: p)). rewrite words_cons by (auto; discriminate). reflexivity.
Qed.
Lemma lstrip_split : forall s, exists p, allspace p /\ s = p ++ lstrip s.
Proof.
  induction s as [|c s [p [A E]]]; [exists []; split; [constructor|auto]|]. cbn. destruct (is_space c) eqn:H.
  - exists (c :: p). split; [constructor; auto|cbn; congruence].
  - exists []. split; [constructor|auto].
Qed.
Lemma allspace_rev : forall p, allspace p -> allspace (rev p).
Proof. intros p H. apply Forall_rev. auto. Qed.
Lemma strip_split : forall s, exists p q, allspace p /\ allspace q /\ s = p ++ strip s ++ q.
Proof.
  intros s. destruct (lstrip_split s) as [p [P E]]. destruct (lstrip_split (rev (lstrip s))) as [q [Q F]].
  exists p, (rev q). split; auto. split; [apply allspace_rev; auto|]. unfold strip. rewrite <- rev_app_distr, <- F, rev_involutive. auto.
Qed.
Lemma words_trail : forall s p, allspace p -> words (s ++ p) = words s.
Proof.
  intros s p P. unfold words. generalize (@nil ascii) as cur. induction s as [|c s IH]; intros cur.
  - cbn [app]. assert (G : forall cur, words_aux p cur = words_aux [] cur).
    { clear cur. induction P as [|c p Hc P IHp]; intros cur; auto. cbn. rewrite Hc. destruct cur; [rewrite (IHp []); reflexivity|]. rewrite (IHp []). reflexivity. }
    apply G.
  - cbn [app words_aux]. destruct (is_space c); [destruct cur; rewrite IH; reflexivity|apply IH].
Qed.
Lemma words_strip : forall s, words (strip s) = words s.
Proof.
  intros s. destruct (strip_split s) as [p [q [P [Q E]]]]. rewrite E at 2. rewrite words_lead by auto. rewrite words_trail by auto. auto.
Qed.
Lemma words_nospace : forall s w, In w (words s) -> nospace w /\ w <> [].
Proof.
  intros s. unfold words. assert (G : forall s cur, nospace cur -> forall w, In w (words_aux s cur) -> nospace w /\ w <> []).
  { clear s. induction s as [|c s IH]; intros cur C w H.
    - cbn in H. destruct cur as [|a cur]; [destruct H|]. destruct H as [<-|[]]. split; [apply Forall_rev; auto|]. intros E. apply (f_equal (@rev ascii)) in E. rewrite rev_involutive in E. discriminate.
    - cbn in H. destruct (is_space c) eqn:Hc.
      + destruct cur as [|a cur]; [apply (IH []); auto; constructor|]. destruct H as [<-|H]; [|apply (IH []); auto; constructor].
        split; [apply Forall_rev; auto|]. intros E. apply (f_equal (@rev ascii)) in E. rewrite rev_involutive in E. discriminate.
      + apply (IH (c :: cur)); auto. constructor; auto. }
  apply G. constructor.
Qed.
Lemma strip_nospace : forall s, nospace s -> strip s = s.
Proof.
  assert (L : forall s, nospace s -> lstrip s = s). { intros s H. destruct H as [|c s Hc H]; auto. cbn. rewrite Hc. auto. }
  intros s H. unfold strip. rewrite (L s), (L (rev s)), rev_involutive; auto. apply Forall_rev. auto.
Qed.
Lemma words_In : forall s w, In w (words s) -> forall c, In c w -> In c s.
Proof.
  assert (G : forall s cur w, In w (words_aux s cur) -> forall c, In c w -> In c s \/ In c cur).
  { induction s as [|c s IH]; intros cur w H x Hx.
    - cbn in H. destruct cur; [destruct H|]. destruct H as [<-|[]]. right. apply in_rev. auto.
    - cbn in H. destruct (is_space c).
      + destruct cur as [|a cur].
        * destruct (IH _ _ H _ Hx) as [X|[]]. cbn. auto.
        * destruct H as [<-|H]; [right; apply in_rev; auto|]. destruct (IH _ _ H _ Hx) as [X|[]]. cbn. auto.
      + destruct (IH _ _ H _ Hx) as [X|X]; [cbn; auto|]. cbn in X. cbn. tauto. }
  intros s w H c Hc. destruct (G s [] w H c Hc) as [X|[]]. auto.
Qed.

Lemma spaces_allspace : forall s, spaces s -> allspace s.
Proof. intros s H. eapply Forall_impl; [|exact H]. intros c ->. reflexivity. Qed.
Lemma three_words : forall raw a b c, three_fields raw a b c -> nospace a -> a <> [] -> nospace b -> b <> [] -> nospace c -> c <> [] ->
  words (strip raw) = [a; b; c].
Proof.
  intros raw a b c [p0 [p1 [p2 [p3 [P0 [P1 [N1 [P2 [N2 [P3 ->]]]]]]]]]] A A0 B B0 C C0.
  apply spaces_allspace in P0, P1, P2, P3. rewrite words_strip, words_lead, words_cons, words_cons, words_last; auto.
Qed.

(* ---- numerals ---- *)
Lemma alld_of : forall s, Forall sdigit s -> alld s. Proof. intros s H. apply alld_sdigit. auto. Qed.
Lemma dig_svalue : forall s, alld s -> dig s = svalue 0 s.
Proof.
  intros s H. unfold dig. generalize 0 as a. induction H as [|c s Hc H IH]; intros a; auto. cbn [fold_left svalue]. rewrite IH. f_equal. change (sval c) with (digit_val c). lia.
Qed.
Lemma span_alld : forall s r, alld s -> match r with c :: _ => is_digit c = false | [] => True end -> span (s ++ r) = (s, r).
Proof.
  induction s as [|c s IH]; intros r H R.
  - cbn. destruct r as [|c r]; auto. cbn. rewrite R. auto.
  - inversion H; subst. cbn. rewrite H2, IH by auto. auto.
Qed.
Lemma svalue_nonneg : forall s, alld s -> 0 <= svalue 0 s < 10 ^ Z.of_nat (List.length s).
Proof. intros s H. rewrite svalue_hval. pose proof (hval_bound 10 (map digit_val s)) as B. rewrite map_length in B. apply B; [lia|apply alld_dok; auto]. Qed.
Lemma svalue_app : forall a b, svalue 0 (a ++ b) = svalue 0 a * 10 ^ Z.of_nat (List.length b) + svalue 0 b.
Proof. intros a b. rewrite !svalue_hval, map_app, hval_app, hval_acc, map_length. reflexivity. Qed.
Lemma pow10_neg : forall k, (0 <= k)%Z -> (pow10 (0 - k) == / inject_Z (10 ^ k))%Q.
Proof.
  intros k K. unfold pow10. replace (0 - k) with (- k) by lia. rewrite Qpower_opp. apply Qinv_comp.
  change (10 # 1)%Q with (inject_Z 10). symmetry. apply Zpower_Qpower. auto.
Qed.
Lemma pow_pos : forall k, (0 < inject_Z (10 ^ Z.of_nat k))%Q.
Proof. intros k. change 0%Q with (inject_Z 0). rewrite <- Zlt_Qlt. apply Z.pow_pos_nonneg; lia. Qed.

Lemma unsigned_text : forall w ip fp, decimal_text w ip fp -> exists q, unsigned w = Some q /\ (q == decimal_value ip fp)%Q.
Proof.
  intros w ip fp [I [N [F W]]]. apply alld_of in I, F. unfold unsigned.
  assert (E : exists r', (let '(ip, r) := span w in let '(fp, r') := match r with c :: q => if Ascii.eqb c "." then span q else ([], r) | [] => ([], r) end in (ip, fp, r')) = (ip, fp, r') /\ r' = []).
  { exists []. split; auto. destruct W as [[-> ->]| ->].
    - rewrite <- (app_nil_r ip) at 1. rewrite span_alld by (auto; exact Logic.I). auto.
    - rewrite span_alld by (auto; reflexivity). change (Ascii.eqb "."%char ".") with true. cbn iota. rewrite <- (app_nil_r fp) at 1. rewrite span_alld by (auto; exact Logic.I). auto. }
  destruct E as [r' [E ->]]. destruct (span w) as [a b] eqn:S. destruct (match b with [] => _ | _ => _ end) as [f r] eqn:T.
  injection E as -> -> ->. cbn [exponent].
  destruct (ip ++ fp) as [|d ds] eqn:X; [destruct ip; [congruence|discriminate]|]. rewrite <- X.
  eexists. split; [reflexivity|]. rewrite dig_svalue by (apply alld_app; auto). rewrite svalue_app.
  rewrite pow10_neg by lia. unfold decimal_value. rewrite inject_Z_plus, inject_Z_mult. pose proof (pow_pos (List.length fp)). field. lra.
Qed.
Definition plainc (c : ascii) : bool := is_digit c || Ascii.eqb c ".".
Lemma text_plain : forall w ip fp, decimal_text w ip fp -> Forall (fun c => plainc c = true) w /\ exists d r, w = d :: r /\ is_digit d = true.
Proof.
  intros w ip fp [I [N [F W]]]. apply alld_of in I, F. split.
  - assert (G : forall s, alld s -> Forall (fun c => plainc c = true) s) by (intros s H; eapply Forall_impl; [|exact H]; intros c Hc; unfold plainc; rewrite Hc; auto).
    destruct W as [[-> _]| ->]; auto. apply Forall_app. split; auto.
  - destruct ip as [|d ip]; [congruence|]. inversion I; subst. destruct W as [[-> _]| ->]; cbn; eauto.
Qed.
Lemma plainc_facts : forall c, plainc c = true -> is_space c = false /\ Ascii.eqb c "_" = false /\ Ascii.eqb c "-" = false /\ Ascii.eqb c "+" = false /\ lower_char c = c /\
  Ascii.eqb c "i" = false /\ Ascii.eqb c "n" = false /\ Ascii.eqb c "s" = false.
Proof.
  intros c H.
  assert (G : forall c, implb (plainc c) (negb (is_space c) && negb (Ascii.eqb c "_") && negb (Ascii.eqb c "-") && negb (Ascii.eqb c "+") && Ascii.eqb (lower_char c) c &&
    negb (Ascii.eqb c "i") && negb (Ascii.eqb c "n") && negb (Ascii.eqb c "s")) = true).
  { match goal with |- forall c, @?P c = true => apply (ascii_all P) end. vm_compute. reflexivity. }
  specialize (G c). rewrite H in G. cbn in G. rewrite !Bool.andb_true_iff, !Bool.negb_true_iff in G.
  destruct G as [[[[[[[G1 G2] G3] G4] G5] G6] G7] G8]. apply Ascii.eqb_eq in G5. auto 10.
Qed.
Definition plain (s : str) := Forall (fun c => plainc c = true) s.
Lemma plain_nospace : forall s, plain s -> nospace s.
Proof. intros s H. eapply Forall_impl; [|exact H]. intros c Hc. apply plainc_facts in Hc. tauto. Qed.
Lemma plain_filter : forall s, plain s -> filter (fun c => negb (Ascii.eqb c "_")) s = s.
Proof. intros s H. induction H as [|c s Hc H IH]; auto. cbn. apply plainc_facts in Hc. destruct Hc as [_ [-> _]]. cbn. congruence. Qed.
Lemma plain_lower : forall s, plain s -> lower s = s.
Proof. intros s H. unfold lower. induction H as [|c s Hc H IH]; auto. cbn. apply plainc_facts in Hc. destruct Hc as [_ [_ [_ [_ [-> _]]]]]. congruence. Qed.
Lemma plain_signed : forall s, plain s -> signed s = (false, s).
Proof. intros s H. destruct H as [|c s Hc H]; auto. cbn. apply plainc_facts in Hc. destruct Hc as [_ [_ [-> [-> _]]]]. auto. Qed.
Lemma plain_underscores : forall s, plain s -> forall b, underscores b s = true.
Proof. intros s H. induction H as [|c s Hc H IH]; intros b; auto. cbn. apply plainc_facts in Hc. destruct Hc as [_ [-> _]]. auto. Qed.
Lemma plain_str_eqb : forall s c p, plain s -> plainc c = false -> str_eqb s (c :: p) = false.
Proof.
  intros s c p H N. destruct (str_eqb s (c :: p)) eqn:E; auto. apply str_eqb_eq in E. subst s. inversion H; subst. congruence.
Qed.
Lemma plain_starts : forall s c p, plain s -> plainc c = false -> starts (c :: p) s = None.
Proof.
  intros s c p H N. unfold starts. rewrite plain_str_eqb; auto.
  unfold plain. apply Forall_forall. intros x Hx. apply In_firstn in Hx. revert x Hx. apply Forall_forall. auto.
Qed.
Lemma decimal_plain : forall s, plain s -> py_decimal s = match unsigned s with Some q => Ok (DNum q) | None => Err InvalidOperation end.
Proof.
  intros s H. unfold py_decimal. rewrite strip_nospace by (apply plain_nospace; auto). rewrite plain_filter, plain_signed, plain_lower by auto.
  change (s_ "inf") with ("i"%char :: s_ "nf"). change (s_ "infinity") with ("i"%char :: s_ "nfinity").
  change (s_ "snan") with ("s"%char :: s_ "nan"). change (s_ "nan") with ("n"%char :: s_ "an") at 2.
  rewrite !plain_str_eqb by auto. cbn [orb]. rewrite !plain_starts by auto. reflexivity.
Qed.
Lemma float_plain : forall s, plain s -> py_float s = match unsigned s with Some q => Ok (if Qle_bool MAXF q then FInf false else FNum q) | None => Err ValueError end.
Proof.
  intros s H. unfold py_float. rewrite strip_nospace by (apply plain_nospace; auto). rewrite plain_underscores by auto. cbn [negb].
  rewrite plain_filter, plain_signed, plain_lower by auto.
  change (s_ "inf") with ("i"%char :: s_ "nf"). change (s_ "infinity") with ("i"%char :: s_ "nfinity").
  change (s_ "nan") with ("n"%char :: s_ "an").
  rewrite !plain_str_eqb by auto. reflexivity.
Qed.

Lemma span_spec : forall s a b, span s = (a, b) -> s = a ++ b /\ alld a.
Proof.
  induction s as [|c s IH]; intros a b H; cbn in H; [injection H as <- <-; split; [auto|constructor]|].
  destruct (is_digit c) eqn:E.
  - destruct (span s) as [a' b'] eqn:F. injection H as <- <-. destruct (IH a' b' eq_refl) as [-> A]. split; [auto|constructor; auto].
  - injection H as <- <-. split; [auto|constructor].
Qed.
Lemma plain_exponent : forall r e, plain r -> exponent r = Some e -> r = [] /\ e = 0.
Proof.
  intros r e P H. destruct P as [|c r Hc P]; [injection H as <-; auto|]. exfalso. cbn in H.
  assert (G : forall c, implb (plainc c) (negb (Ascii.eqb c "e" || Ascii.eqb c "E")) = true).
  { match goal with |- forall c, @?P c = true => apply (ascii_all P) end. vm_compute. reflexivity. }
  specialize (G c). rewrite Hc in G. cbn in G. apply Bool.negb_true_iff in G. rewrite G in H. discriminate.
Qed.
Lemma unsigned_plain : forall s q, plain s -> unsigned s = Some q ->
  exists N k, 0 <= N < 10 ^ Z.of_nat (List.length s) /\ (k <= List.length s)%nat /\ (q == inject_Z N / inject_Z (10 ^ Z.of_nat k))%Q /\
    ((forall c, In c s -> c <> "."%char) -> k = 0%nat).
Proof.
  intros s q P H. unfold unsigned in H. destruct (span s) as [ip r] eqn:S. destruct (span_spec _ _ _ S) as [Es A].
  destruct (match r with [] => _ | _ => _ end) as [fp r'] eqn:T.
  assert (X : alld fp /\ (r = [] /\ fp = [] /\ r' = [] \/ (r = r' /\ fp = []) \/ r = "."%char :: fp ++ r')).
  { destruct r as [|c r0]; [injection T as <- <-; split; [constructor|auto]|]. destruct (Ascii.eqb c ".") eqn:E.
    - apply Ascii.eqb_eq in E. subst c. destruct (span_spec _ _ _ T) as [-> F]. auto.
    - injection T as <- <-. split; [constructor|auto]. }
  destruct X as [F X]. destruct (ip ++ fp) as [|d ds] eqn:Y; [discriminate|]. rewrite <- Y in H.
  destruct (exponent r') as [e|] eqn:Ex; [|discriminate]. injection H as <-.
  assert (Pr : plain r'). { rewrite Es in P. apply Forall_app in P. destruct P as [_ P]. destruct X as [[-> [-> ->]]|[[-> _]|Er]]; auto. rewrite Er in P. inversion P as [|? ? _ P2]. apply Forall_app in P2. tauto. }
  destruct (plain_exponent _ _ Pr Ex) as [-> ->].
  exists (dig (ip ++ fp)), (List.length fp).
  assert (L : (List.length (ip ++ fp) <= List.length s)%nat /\ (List.length fp <= List.length s)%nat).
  { rewrite Es, !app_length. destruct X as [[-> [-> _]]|[[-> ->]| ->]]; cbn; rewrite ?app_length; cbn; lia. }
  assert (AA : alld (ip ++ fp)) by (apply alld_app; auto).
  split; [|split; [lia|split]].
  - rewrite dig_svalue by auto. pose proof (svalue_nonneg _ AA) as B. split; [lia|]. eapply Z.lt_le_trans; [apply B|]. apply Z.pow_le_mono_r; lia.
  - rewrite pow10_neg by lia. reflexivity.
  - intros ND. destruct X as [[_ [-> _]]|[[_ ->]|E]]; auto. exfalso. apply (ND "."%char); auto. rewrite Es, E. apply in_or_app. right. cbn. auto.
Qed.

(* ---- dates ---- *)
Definition finish (y m : Z) (q : Q) : result row :=
  match py_date y m (Qfloor q) with
  | Err ValueError => Err ParseError
  | Err e => Err e
  | Ok (y, m, d) =>
      let nanos := round_he ((q - inject_Z (Qfloor q)) * inject_Z DAY)%Q in
      if nanos =? DAY then
        (if toordinal y m d + 1 <=? MAX_ORDINAL then Ok (mkrow (toordinal y m d + 1 - MJD_EPOCH) 0) else Err OverflowError)
      else Ok (mkrow (toordinal y m d - MJD_EPOCH) nanos)
  end.
Lemma fraction_range : forall q, (0 <= q - inject_Z (Qfloor q))%Q /\ (q - inject_Z (Qfloor q) < 1)%Q.
Proof.
  intros q. pose proof (Qfloor_le q) as F1. pose proof (Qlt_floor q) as F2. rewrite inject_Z_plus in F2. change (inject_Z 1) with 1%Q in F2. lra.
Qed.
Lemma obstime_finish : forall raw a b c y m q, words (strip raw) = [a; b; c] -> py_int a = Ok y -> py_int b = Ok m -> py_decimal (strip c) = Ok (DNum q) ->
  parse_obstime raw = finish y m q.
Proof.
  intros raw a b c y m q W A B C. unfold parse_obstime. rewrite W, A. cbn [bind]. rewrite B. cbn [bind as_parse]. rewrite C. cbn [as_parse bind fst snd].
  destruct (fraction_range q) as [R1 R2]. rewrite (proj2 (Qle_bool_iff _ _) R1).
  destruct (Qle_bool 1 (q - inject_Z (Qfloor q))) eqn:E; [apply Qle_bool_iff in E; lra|]. reflexivity.
Qed.
(* with at most 13 decimals the fraction never rounds up to a full day *)
Lemma nanos_range : forall q, (0 <= round_he ((q - inject_Z (Qfloor q)) * inject_Z DAY) <= DAY)%Z.
Proof.
  intros q. destruct (fraction_range q) as [R1 R2]. destruct (round_he_near ((q - inject_Z (Qfloor q)) * inject_Z DAY)%Q) as [N1 N2].
  set (f := (q - inject_Z (Qfloor q))%Q) in *. set (n := round_he _) in *.
  assert (D : (0 < inject_Z DAY)%Q) by reflexivity.
  assert (A1 : (0 <= f * inject_Z DAY)%Q) by (apply Qmult_le_0_compat; lra).
  assert (A2 : (f * inject_Z DAY < 1 * inject_Z DAY)%Q) by (apply Qmult_lt_compat_r; auto).
  assert (B1 : (inject_Z (-1) < inject_Z n)%Q) by (change (inject_Z (-1)) with (-1 # 1)%Q; lra).
  assert (B2 : (inject_Z n < inject_Z (DAY + 1))%Q) by (rewrite inject_Z_plus; change (inject_Z 1) with 1%Q; lra).
  rewrite <- Zlt_Qlt in B1, B2. lia.
Qed.
Lemma no_carry : forall q N k, (q == inject_Z N / inject_Z (10 ^ Z.of_nat k))%Q -> (k <= 13)%nat ->
  round_he ((q - inject_Z (Qfloor q)) * inject_Z DAY) <> DAY.
Proof.
  intros q N k E K X. destruct (fraction_range q) as [R1 R2]. destruct (round_he_near ((q - inject_Z (Qfloor q)) * inject_Z DAY)%Q) as [N1 N2].
  rewrite X in *. set (P := 10 ^ Z.of_nat k) in *.
  assert (PP : 0 < P <= 10 ^ 13). { unfold P. split; [apply Z.pow_pos_nonneg; lia|apply Z.pow_le_mono_r; lia]. }
  assert (QP : (0 < inject_Z P)%Q) by (change 0%Q with (inject_Z 0); rewrite <- Zlt_Qlt; lia).
  set (F := Qfloor q) in *.
  assert (EF : ((q - inject_Z F) * inject_Z P == inject_Z (N - F * P))%Q).
  { rewrite E. unfold Z.sub. rewrite inject_Z_plus, inject_Z_opp, inject_Z_mult. field. lra. }
  assert (L : (inject_Z (N - F * P) < inject_Z P)%Q).
  { rewrite <- EF. setoid_replace (inject_Z P) with (1 * inject_Z P)%Q at 2 by ring. apply Qmult_lt_compat_r; auto. }
  rewrite <- Zlt_Qlt in L.
  assert (L2 : (inject_Z (N - F * P) <= inject_Z (P - 1))%Q) by (rewrite <- Zle_Qle; lia).
  rewrite <- EF in L2. unfold Z.sub in L2. rewrite inject_Z_plus in L2. change (inject_Z (-1)) with (-1 # 1)%Q in L2.
  assert (M : ((q - inject_Z F) * inject_Z P * inject_Z DAY <= (inject_Z P + (-1 # 1)) * inject_Z DAY)%Q) by (apply Qmult_le_compat_r; [auto|discriminate]).
  assert (N3 : ((inject_Z DAY - (1 # 2)) * inject_Z P <= (q - inject_Z F) * inject_Z DAY * inject_Z P)%Q) by (apply Qmult_le_compat_r; lra).
  assert (Fin : (inject_Z DAY <= (1 # 2) * inject_Z P)%Q) by lra.
  assert (Hd : (inject_Z P <= inject_Z (10 ^ 13))%Q) by (rewrite <- Zle_Qle; lia).
  change (inject_Z (10 ^ 13)) with (10000000000000 # 1)%Q in Hd. change (inject_Z DAY) with (86400000000000 # 1)%Q in Fin. lra.
Qed.

Lemma svalue_int : forall a, Forall sdigit a -> a <> [] -> py_int a = Ok (svalue 0 a).
Proof. intros a A N. apply py_int_alld; auto. apply alld_of. auto. Qed.
Lemma digits_nospace : forall a, Forall sdigit a -> nospace a.
Proof. intros a A. apply alld_of in A. eapply Forall_impl; [|exact A]. intros c Hc. apply digit_not_space. auto. Qed.
Lemma floor_text : forall w ip fp q, decimal_text w ip fp -> (q == decimal_value ip fp)%Q ->
  Qfloor q = svalue 0 ip /\ (q - inject_Z (Qfloor q) == inject_Z (svalue 0 fp) / inject_Z (10 ^ Z.of_nat (List.length fp)))%Q.
Proof.
  intros w ip fp q [I [N [F W]]] E. apply alld_of in F. pose proof (svalue_nonneg fp F) as B. pose proof (pow_pos (List.length fp)) as PP.
  set (P := 10 ^ Z.of_nat (List.length fp)) in *. unfold decimal_value in E. fold P in E.
  assert (X1 : (0 <= inject_Z (svalue 0 fp) / inject_Z P)%Q).
  { apply Qle_shift_div_l; auto. setoid_replace (0 * inject_Z P)%Q with 0%Q by ring. change 0%Q with (inject_Z 0). rewrite <- Zle_Qle. lia. }
  assert (X2 : (inject_Z (svalue 0 fp) / inject_Z P < 1)%Q).
  { apply Qlt_shift_div_r; auto. setoid_replace (1 * inject_Z P)%Q with (inject_Z P) by ring. rewrite <- Zlt_Qlt. lia. }
  assert (Fl : Qfloor q = svalue 0 ip).
  { apply Qfloor_unique; [lra|]. rewrite inject_Z_plus. change (inject_Z 1) with 1%Q. lra. }
  rewrite Fl. split; auto. rewrite E. ring.
Qed.
Lemma decimal_of_text : forall w ip fp, decimal_text w ip fp -> exists q, py_decimal (strip w) = Ok (DNum q) /\ (q == decimal_value ip fp)%Q.
Proof.
  intros w ip fp H. destruct (text_plain _ _ _ H) as [P _]. destruct (unsigned_text _ _ _ H) as [q [U E]].
  exists q. split; auto. rewrite strip_nospace by (apply plain_nospace; auto). rewrite decimal_plain by auto. rewrite U. auto.
Qed.
Lemma text_nonempty : forall w ip fp, decimal_text w ip fp -> w <> [].
Proof. intros w ip fp H. destruct (text_plain _ _ _ H) as [_ [d [r [-> _]]]]. discriminate. Qed.

Lemma date_text_ok : forall raw ys ms w ds fs, three_fields raw ys ms w ->
  Forall sdigit ys -> ys <> [] -> Forall sdigit ms -> ms <> [] -> decimal_text w ds fs -> (List.length fs <= 13)%nat ->
  valid_date (svalue 0 ys) (svalue 0 ms) (svalue 0 ds) ->
  exists n, parse_obstime raw = Ok (mkrow (ord3 (svalue 0 ys, svalue 0 ms, svalue 0 ds)) n) /\ 0 <= n < DAY /\
    (inject_Z n - (1 # 2) <= inject_Z (svalue 0 fs) / inject_Z (10 ^ Z.of_nat (List.length fs)) * inject_Z DAY)%Q /\
    (inject_Z (svalue 0 fs) / inject_Z (10 ^ Z.of_nat (List.length fs)) * inject_Z DAY <= inject_Z n + (1 # 2))%Q.
Proof.
  intros raw ys ms w ds fs T Y Y0 M M0 W K V. destruct (decimal_of_text _ _ _ W) as [q [Hq Eq]].
  assert (TW : words (strip raw) = [ys; ms; w]).
  { apply three_words; auto using digits_nospace; [|eapply text_nonempty; eauto]. apply plain_nospace. eapply text_plain; eauto. }
  rewrite (obstime_finish raw ys ms w _ _ q TW (svalue_int _ Y Y0) (svalue_int _ M M0) Hq).
  destruct (floor_text _ _ _ _ W Eq) as [Fl Fr]. unfold finish. rewrite Fl in *. rewrite (py_date_ok _ _ _ V).
  set (n := round_he _). assert (R : 0 <= n <= DAY) by (unfold n; rewrite <- Fl; apply nanos_range).
  assert (NC : n <> DAY).
  { unfold n. rewrite <- Fl. apply (no_carry q (svalue 0 ds * 10 ^ Z.of_nat (List.length fs) + svalue 0 fs) (List.length fs)); auto.
    rewrite Eq. unfold decimal_value. rewrite inject_Z_plus, inject_Z_mult. pose proof (pow_pos (List.length fs)). field. lra. }
  destruct (n =? DAY) eqn:E; [lia|]. exists n. split; [reflexivity|]. split; [lia|].
  destruct (round_he_near ((q - inject_Z (svalue 0 ds)) * inject_Z DAY)%Q) as [N1 N2]. fold n in N1, N2. rewrite Fr in N1, N2. auto.
Qed.
Lemma date_text_bad : forall raw ys ms w ds fs, three_fields raw ys ms w ->
  Forall sdigit ys -> ys <> [] -> Forall sdigit ms -> ms <> [] -> decimal_text w ds fs ->
  svalue 0 ys < 2 ^ 31 -> svalue 0 ms < 2 ^ 31 -> svalue 0 ds < 2 ^ 31 ->
  ~ valid_date (svalue 0 ys) (svalue 0 ms) (svalue 0 ds) -> parse_obstime raw = Err ParseError.
Proof.
  intros raw ys ms w ds fs T Y Y0 M M0 W B1 B2 B3 V. destruct (decimal_of_text _ _ _ W) as [q [Hq Eq]].
  assert (TW : words (strip raw) = [ys; ms; w]).
  { apply three_words; auto using digits_nospace; [|eapply text_nonempty; eauto]. apply plain_nospace. eapply text_plain; eauto. }
  rewrite (obstime_finish raw ys ms w _ _ q TW (svalue_int _ Y Y0) (svalue_int _ M M0) Hq).
  destruct (floor_text _ _ _ _ W Eq) as [Fl _]. unfold finish. rewrite Fl.
  destruct W as [W1 _]. pose proof (svalue_nonneg _ (alld_of _ Y)). pose proof (svalue_nonneg _ (alld_of _ M)). pose proof (svalue_nonneg _ (alld_of _ W1)).
  rewrite py_date_bad; auto; lia.
Qed.
(* whatever is accepted is a normalised time on a valid date *)
Lemma obstime_sound : forall raw r, parse_obstime raw = Ok r ->
  exists y m d, valid_date y m d /\ normal r /\ (days r = ord3 (y, m, d) \/ days r = ord3 (y, m, d) + 1 /\ nanos r = 0).
Proof.
  intros raw r H. unfold parse_obstime in H. destruct (words (strip raw)) as [|a [|b [|c [|]]]]; try discriminate.
  destruct (as_parse (bind _ _)) as [[y m]|]; cbn [bind] in H; [|discriminate].
  destruct (as_parse (py_decimal _)) as [dd|]; cbn [bind] in H; [|discriminate].
  destruct dd as [q| | |]; try discriminate. cbn [fst snd] in H. destruct (_ || _); [discriminate|].
  destruct (py_date y m (Qfloor q)) as [[[y' m'] d']|e] eqn:D; [|destruct e; discriminate].
  apply py_date_valid in D. destruct D as [E V]. injection E as -> -> ->.
  exists y, m, (Qfloor q). split; auto. pose proof (nanos_range q) as R. set (n := round_he _) in *.
  destruct (n =? DAY) eqn:En.
  - destruct (_ <=? _); [|discriminate]. injection H as <-. unfold normal. cbn. split; [lia|]. right. split; [lia|auto].
  - injection H as <-. unfold normal. cbn. unfold DAY in *. split; [lia|]. left. reflexivity.
Qed.

(* ---- right ascension and declination ---- *)
Lemma maxf_big : (inject_Z 1000 < MAXF)%Q.
Proof. unfold MAXF. rewrite <- Zlt_Qlt. reflexivity. Qed.
Lemma float_of_text : forall w ip fp, decimal_text w ip fp ->
  exists x, py_float w = Ok x /\ forall hi closed, (hi <= 1000 # 1)%Q ->
    (within x hi closed = None <-> ~ (if closed then decimal_value ip fp <= hi else decimal_value ip fp < hi)%Q) /\
    (forall v, within x hi closed = Some v -> (v == decimal_value ip fp)%Q).
Proof.
  intros w ip fp H. destruct (text_plain _ _ _ H) as [P _]. destruct (unsigned_text _ _ _ H) as [q [U E]].
  rewrite float_plain by auto. rewrite U. eexists. split; [reflexivity|]. intros hi closed B.
  assert (N : (0 <= q)%Q).
  { destruct (unsigned_plain _ _ P U) as [M [k [R [_ [Eq _]]]]]. rewrite Eq. apply Qle_shift_div_l; [apply pow_pos|].
    setoid_replace (0 * inject_Z (10 ^ Z.of_nat k))%Q with 0%Q by ring. change 0%Q with (inject_Z 0). rewrite <- Zle_Qle. lia. }
  pose proof maxf_big as MB. change (inject_Z 1000) with (1000 # 1)%Q in MB.
  destruct (Qle_bool MAXF q) eqn:M.
  - apply Qle_bool_iff in M. cbn [within]. split; [split; auto; intros _|discriminate].
    destruct closed; intros X; lra.
  - cbn [within]. rewrite (proj2 (Qle_bool_iff _ _) N). cbn [andb]. destruct closed.
    + destruct (Qle_bool q hi) eqn:L.
      * apply Qle_bool_iff in L. split; [split; [discriminate|intros X; exfalso; apply X; lra]|]. intros v Hv. injection Hv as <-. auto.
      * split; [|discriminate]. split; auto. intros _ X. assert (Y : (q <= hi)%Q) by lra. apply Qle_bool_iff in Y. congruence.
    + destruct (Qle_bool hi q) eqn:L; cbn [negb].
      * apply Qle_bool_iff in L. split; [|discriminate]. split; auto. intros _ X. lra.
      * split; [split; [discriminate|]|].
        -- intros X. exfalso. apply X. destruct (Qlt_le_dec q hi) as [|Y]; [lra|]. apply Qle_bool_iff in Y. congruence.
        -- intros v Hv. injection Hv as <-. auto.
Qed.
Lemma text_nospace : forall w ip fp, decimal_text w ip fp -> nospace w.
Proof. intros w ip fp H. apply plain_nospace. eapply text_plain; eauto. Qed.

Section Sexagesimal.
Variables (a b c ia fa ib fb ic fc : str).
Hypotheses (A : decimal_text a ia fa) (B : decimal_text b ib fb) (C : decimal_text c ic fc).
Notation h := (decimal_value ia fa).
Notation m := (decimal_value ib fb).
Notation s := (decimal_value ic fc).
Lemma ra_ok : forall raw, three_fields raw a b c -> (h < 24)%Q -> (m < 60)%Q -> (s < 60)%Q ->
  exists v, parse_ra raw = Ok v /\ (v == 15 * (h + m / 60 + s / 3600))%Q.
Proof.
  intros raw T Hh Hm Hs. unfold parse_ra.
  rewrite (three_words raw a b c T); eauto using text_nospace, text_nonempty.
  destruct (float_of_text _ _ _ A) as [xa [-> Wa]]. destruct (float_of_text _ _ _ B) as [xb [-> Wb]]. destruct (float_of_text _ _ _ C) as [xc [-> Wc]].
  cbn [as_parse bind]. destruct (Wa 24%Q false) as [Ga Va]; [lra|]. destruct (Wb 60%Q false) as [Gb Vb]; [lra|]. destruct (Wc 60%Q false) as [Gc Vc]; [lra|].
  destruct (within xa 24 false) as [va|]; [|exfalso; apply (proj1 Ga eq_refl); auto].
  destruct (within xb 60 false) as [vb|]; [|exfalso; apply (proj1 Gb eq_refl); auto].
  destruct (within xc 60 false) as [vc|]; [|exfalso; apply (proj1 Gc eq_refl); auto].
  eexists. split; [reflexivity|]. rewrite (Va va), (Vb vb), (Vc vc) by auto. reflexivity.
Qed.
Lemma ra_bad : forall raw, three_fields raw a b c -> ~ ((h < 24)%Q /\ (m < 60)%Q /\ (s < 60)%Q) -> parse_ra raw = Err ParseError.
Proof.
  intros raw T N. unfold parse_ra. rewrite (three_words raw a b c T); eauto using text_nospace, text_nonempty.
  destruct (float_of_text _ _ _ A) as [xa [-> Wa]]. destruct (float_of_text _ _ _ B) as [xb [-> Wb]]. destruct (float_of_text _ _ _ C) as [xc [-> Wc]].
  cbn [as_parse bind]. destruct (Wa 24%Q false) as [Ga _]; [lra|]. destruct (Wb 60%Q false) as [Gb _]; [lra|]. destruct (Wc 60%Q false) as [Gc _]; [lra|].
  destruct (within xa 24 false) as [va|]; auto. destruct (within xb 60 false) as [vb|]; auto. destruct (within xc 60 false) as [vc|]; auto.
  exfalso. apply N. split; [|split].
  - destruct (Qlt_le_dec h 24) as [|X]; auto. assert (Some va = None) by (apply Ga; lra). discriminate.
  - destruct (Qlt_le_dec m 60) as [|X]; auto. assert (Some vb = None) by (apply Gb; lra). discriminate.
  - destruct (Qlt_le_dec s 60) as [|X]; auto. assert (Some vc = None) by (apply Gc; lra). discriminate.
Qed.
Variable sg : ascii.
Hypothesis SG : sg = "+"%char \/ sg = "-"%char.
Lemma sign_nospace : nospace (sg :: a).
Proof. constructor; [destruct SG as [-> | ->]; reflexivity|exact (text_nospace _ _ _ A)]. Qed.
Lemma dec_ok : forall raw, three_fields raw (sg :: a) b c -> (m < 60)%Q -> (s < 60)%Q -> (h + m / 60 + s / 3600 <= 90)%Q ->
  exists v, parse_dec raw = Ok v /\ (v == (if Ascii.eqb sg "-" then -1 else 1) * (h + m / 60 + s / 3600))%Q.
Proof.
  intros raw T Hm Hs Hv. unfold parse_dec.
  rewrite (three_words raw (sg :: a) b c T); eauto using sign_nospace, text_nospace, text_nonempty; [|discriminate].
  assert (E : negb (Ascii.eqb sg "+" || Ascii.eqb sg "-") = false) by (destruct SG as [-> | ->]; reflexivity). rewrite E.
  assert (NN : forall w ip fp, decimal_text w ip fp -> (0 <= decimal_value ip fp)%Q).
  { intros w ip fp W. destruct (text_plain _ _ _ W) as [P _]. destruct (unsigned_text _ _ _ W) as [q [U Eq]]. rewrite <- Eq.
    destruct (unsigned_plain _ _ P U) as [M [k [R [_ [E2 _]]]]]. rewrite E2. apply Qle_shift_div_l; [apply pow_pos|].
    setoid_replace (0 * inject_Z (10 ^ Z.of_nat k))%Q with 0%Q by ring. change 0%Q with (inject_Z 0). rewrite <- Zle_Qle. lia. }
  pose proof (NN _ _ _ A) as N1. pose proof (NN _ _ _ B) as N2. pose proof (NN _ _ _ C) as N3.
  destruct (float_of_text _ _ _ A) as [xa [-> Wa]]. destruct (float_of_text _ _ _ B) as [xb [-> Wb]]. destruct (float_of_text _ _ _ C) as [xc [-> Wc]].
  cbn [as_parse bind]. destruct (Wa 90%Q true) as [Ga Va]; [lra|]. destruct (Wb 60%Q false) as [Gb Vb]; [lra|]. destruct (Wc 60%Q false) as [Gc Vc]; [lra|].
  assert (D1 : (m / 60 == m * (1 # 60))%Q) by field. assert (D2 : (s / 3600 == s * (1 # 3600))%Q) by field.
  destruct (within xa 90 true) as [va|]; [|exfalso; apply (proj1 Ga eq_refl); lra].
  destruct (within xb 60 false) as [vb|]; [|exfalso; apply (proj1 Gb eq_refl); auto].
  destruct (within xc 60 false) as [vc|]; [|exfalso; apply (proj1 Gc eq_refl); auto].
  specialize (Va va eq_refl). specialize (Vb vb eq_refl). specialize (Vc vc eq_refl). cbv zeta.
  assert (X : (va + vb / 60 + vc / 3600 == h + m / 60 + s / 3600)%Q) by (rewrite Va, Vb, Vc; reflexivity).
  assert (Y : (0 <= h + m / 60 + s / 3600)%Q) by lra.
  set (v := (va + vb / 60 + vc / 3600)%Q) in *.
  destruct (Ascii.eqb sg "-"); cbn [neg_if].
  - assert (B1 : Qle_bool (-90 # 1) (- v) = true) by (apply Qle_bool_iff; lra). assert (B2 : Qle_bool (- v) 90 = true) by (apply Qle_bool_iff; lra).
    rewrite B1, B2. eexists. split; [reflexivity|]. rewrite X. ring.
  - assert (B1 : Qle_bool (-90 # 1) v = true) by (apply Qle_bool_iff; lra). assert (B2 : Qle_bool v 90 = true) by (apply Qle_bool_iff; lra).
    rewrite B1, B2. eexists. split; [reflexivity|]. rewrite X. ring.
Qed.
Lemma dec_bad : forall raw, three_fields raw (sg :: a) b c -> ~ ((m < 60)%Q /\ (s < 60)%Q /\ (h + m / 60 + s / 3600 <= 90)%Q) -> parse_dec raw = Err ParseError.
Proof.
  intros raw T N. unfold parse_dec.
  rewrite (three_words raw (sg :: a) b c T); eauto using sign_nospace, text_nospace, text_nonempty; [|discriminate].
  assert (E : negb (Ascii.eqb sg "+" || Ascii.eqb sg "-") = false) by (destruct SG as [-> | ->]; reflexivity). rewrite E.
  destruct (float_of_text _ _ _ A) as [xa [-> Wa]]. destruct (float_of_text _ _ _ B) as [xb [-> Wb]]. destruct (float_of_text _ _ _ C) as [xc [-> Wc]].
  cbn [as_parse bind]. destruct (Wa 90%Q true) as [Ga Va]; [lra|]. destruct (Wb 60%Q false) as [Gb Vb]; [lra|]. destruct (Wc 60%Q false) as [Gc Vc]; [lra|].
  destruct (within xa 90 true) as [va|]; auto. destruct (within xb 60 false) as [vb|]; auto. destruct (within xc 60 false) as [vc|]; auto.
  specialize (Va va eq_refl). specialize (Vb vb eq_refl). specialize (Vc vc eq_refl). cbv zeta.
  assert (X : (va + vb / 60 + vc / 3600 == h + m / 60 + s / 3600)%Q) by (rewrite Va, Vb, Vc; reflexivity).
  set (v := (va + vb / 60 + vc / 3600)%Q) in *.
  assert (Hm : (m < 60)%Q) by (destruct (Qlt_le_dec m 60) as [|Y]; auto; assert (Some vb = None) by (apply Gb; lra); discriminate).
  assert (Hs : (s < 60)%Q) by (destruct (Qlt_le_dec s 60) as [|Y]; auto; assert (Some vc = None) by (apply Gc; lra); discriminate).
  assert (Y : (90 < v)%Q) by (destruct (Qlt_le_dec 90 v) as [|Y]; auto; exfalso; apply N; split; [auto|split; [auto|lra]]).
  destruct (Ascii.eqb sg "-"); cbn [neg_if].
  - destruct (Qle_bool (-90 # 1) (- v)) eqn:L; auto. apply Qle_bool_iff in L. lra.
  - destruct (Qle_bool v 90) eqn:L; [|rewrite Bool.andb_false_r; auto]. apply Qle_bool_iff in L. lra.
Qed.
End Sexagesimal.

(* ---- errors ---- *)
Lemma as_parse_err : forall A (r : result A) e, as_parse r = Err e -> e = ParseError.
Proof. intros A [x|e'] e H; cbn in H; congruence. Qed.
Lemma ra_err : forall raw e, parse_ra raw = Err e -> e = ParseError.
Proof.
  intros raw e H. unfold parse_ra in H. destruct (words (strip raw)) as [|a [|b [|c [|]]]]; try congruence.
  destruct (as_parse (py_float a)) eqn:E1; cbn [bind] in H; [|injection H as <-; eapply as_parse_err; eauto].
  destruct (as_parse (py_float b)) eqn:E2; cbn [bind] in H; [|injection H as <-; eapply as_parse_err; eauto].
  destruct (as_parse (py_float c)) eqn:E3; cbn [bind] in H; [|injection H as <-; eapply as_parse_err; eauto].
  destruct (within a0 24 false), (within a1 60 false), (within a2 60 false); congruence.
Qed.
Lemma dec_err : forall raw e, parse_dec raw = Err e -> e = ParseError.
Proof.
  intros raw e H. unfold parse_dec in H. destruct (words (strip raw)) as [|[|sg a] [|b [|c [|]]]]; try congruence.
  destruct (negb _); [congruence|].
  destruct (as_parse (py_float a)) eqn:E1; cbn [bind] in H; [|injection H as <-; eapply as_parse_err; eauto].
  destruct (as_parse (py_float b)) eqn:E2; cbn [bind] in H; [|injection H as <-; eapply as_parse_err; eauto].
  destruct (as_parse (py_float c)) eqn:E3; cbn [bind] in H; [|injection H as <-; eapply as_parse_err; eauto].
  destruct (within a0 90 true), (within a1 60 false), (within a2 60 false); try congruence. destruct (_ && _); congruence.
Qed.
Lemma dec_range : forall raw v, parse_dec raw = Ok v -> (-90 <= v)%Q /\ (v <= 90)%Q.
Proof.
  intros raw v H. unfold parse_dec in H. destruct (words (strip raw)) as [|[|sg a] [|b [|c [|]]]]; try congruence.
  destruct (negb _); [congruence|].
  destruct (as_parse (py_float a)) eqn:E1; cbn [bind] in H; [|discriminate].
  destruct (as_parse (py_float b)) eqn:E2; cbn [bind] in H; [|discriminate].
  destruct (as_parse (py_float c)) eqn:E3; cbn [bind] in H; [|discriminate].
  destruct (within a0 90 true), (within a1 60 false), (within a2 60 false); try congruence.
  destruct (_ && _) eqn:X; [|discriminate]. injection H as <-. apply Bool.andb_true_iff in X. rewrite !Qle_bool_iff in X. exact X.
Qed.
Lemma date_err : forall y m d e, py_date y m d = Err e -> e = ValueError \/ e = OverflowError.
Proof. intros y m d e H. unfold py_date in H. destruct (negb _); [injection H as <-; auto|]. destruct (_ && _); [discriminate|injection H as <-; auto]. Qed.
Lemma obstime_err : forall raw e, parse_obstime raw = Err e -> In e [ParseError; ValueError; OverflowError; InvalidOperation].
Proof.
  intros raw e H. unfold parse_obstime in H. destruct (words (strip raw)) as [|a [|b [|c [|]]]]; try (injection H as <-; cbn; auto; fail).
  destruct (as_parse (bind _ _)) as [[y m]|e1] eqn:E1; cbn [bind] in H; [|injection H as <-; apply as_parse_err in E1; cbn; auto].
  destruct (as_parse (py_decimal _)) as [dd|e2] eqn:E2; cbn [bind] in H; [|injection H as <-; apply as_parse_err in E2; cbn; auto].
  destruct dd as [q| | |]; try (injection H as <-; cbn; auto; fail). cbn [fst snd] in H.
  destruct (_ || _); [injection H as <-; cbn; auto|].
  destruct (py_date y m (Qfloor q)) as [[[y' m'] d']|e3] eqn:D.
  - destruct (_ =? DAY); [destruct (_ <=? _)|]; try discriminate. injection H as <-. cbn. auto.
  - apply date_err in D. destruct D as [-> | ->]; injection H as <-; cbn; auto.
Qed.
Lemma optical_err : forall raw e, parse_optical raw = Err e -> In e [ParseError; ValueError; OverflowError; InvalidOperation; RuntimeError].
Proof.
  intros raw e H. unfold parse_optical in H.
  destruct (_ <? 80)%nat; [injection H as <-; cbn; auto|].
  destruct (match or_none _ with Some _ => _ | None => _ end); [injection H as <-; cbn; auto|].
  destruct (cols (firstn 80 raw) 0 12); [injection H as <-; cbn; auto|].
  destruct (negb _); [injection H as <-; cbn; auto|].
  destruct (match cols (firstn 80 raw) 65 70 with [] => _ | _ => _ end) as [mg|e1] eqn:E1; cbn [bind] in H.
  2:{ injection H as <-. destruct (cols (firstn 80 raw) 65 70); [discriminate|]. destruct (as_parse _) eqn:X; cbn in E1; [discriminate|]. injection E1 as <-. apply as_parse_err in X. cbn. auto. }
  destruct (parse_obstime _) as [t|e2] eqn:E2; cbn [bind] in H; [|injection H as <-; apply obstime_err in E2; cbn in *; tauto].
  destruct (parse_ra _) as [ra|e3] eqn:E3; cbn [bind] in H; [|injection H as <-; apply ra_err in E3; cbn; auto].
  destruct (parse_dec _) as [dc|e4] eqn:E4; cbn [bind] in H; [|injection H as <-; apply dec_err in E4; cbn; auto].
  destruct (negb _); [injection H as <-; cbn; auto 6|discriminate].
Qed.

(* ordinary date and right-ascension columns *)
Lemma obstime_plain : forall raw e, (forall w, In w (words raw) -> plain w /\ (List.length w <= 9)%nat) -> parse_obstime raw = Err e -> e = ParseError.
Proof.
  intros raw e P H. unfold parse_obstime in H. rewrite words_strip in H. destruct (words raw) as [|a [|b [|c [|]]]]; try congruence.
  destruct (P a) as [Pa La]; [cbn; auto|]. destruct (P b) as [Pb Lb]; [cbn; auto|]. destruct (P c) as [Pc Lc]; [cbn; auto|].
  assert (PI : forall w z, plain w -> (List.length w <= 9)%nat -> py_int w = Ok z -> 0 <= z < 10 ^ 9).
  { intros w z Pw Lw Hz. unfold py_int in Hz. rewrite strip_nospace in Hz by (apply plain_nospace; auto).
    destruct w as [|x w]; [discriminate|]. inversion Pw; subst.
    match goal with Q : plainc x = true |- _ => pose proof (plainc_facts x Q) as [_ [F1 [F2 [F3 _]]]] end. rewrite F2, F3 in Hz.
    assert (G : forall s, plain s -> forall acc b z, 0 <= acc -> int_digits s acc b = Some z -> 0 <= z < (acc + 1) * 10 ^ Z.of_nat (List.length s)).
    { clear. intros s P. induction P as [|c s Hc P IH]; intros acc b z A E.
      - cbn in E. destruct b; [|discriminate]. injection E as <-. cbn. lia.
      - cbn [int_digits] in E. apply plainc_facts in Hc as F. destruct F as [_ [F1 _]]. rewrite F1 in E. cbn [andb] in E.
        destruct (is_digit c) eqn:D; [|discriminate]. pose proof (digit_range c D). apply IH in E; [|lia].
        cbn [List.length]. rewrite Nat2Z.inj_succ, Z.pow_succ_r by lia. split; [lia|]. eapply Z.lt_le_trans; [apply E|].
        replace ((acc + 1) * (10 * 10 ^ Z.of_nat (List.length s))) with ((acc * 10 + 10) * 10 ^ Z.of_nat (List.length s)) by ring.
        apply Z.mul_le_mono_nonneg_r; [apply Z.pow_nonneg; lia|lia]. }
    destruct (int_digits (x :: w) 0 false) as [z'|] eqn:E; [|discriminate]. injection Hz as <-.
    apply G in E; [|auto|lia]. split; [lia|]. eapply Z.lt_le_trans; [apply E|]. change (0 + 1) with 1. rewrite Z.mul_1_l. apply Z.pow_le_mono_r; lia. }
  destruct (py_int a) as [y|] eqn:Ea; cbn [bind as_parse] in H; [|congruence].
  destruct (py_int b) as [m|] eqn:Eb; cbn [bind as_parse] in H; [|congruence].
  rewrite strip_nospace in H by (apply plain_nospace; auto). rewrite decimal_plain in H by auto.
  destruct (unsigned c) as [q|] eqn:U; cbn [bind as_parse] in H; [|congruence]. cbn [fst snd] in H.
  destruct (_ || _); [congruence|].
  destruct (unsigned_plain c q Pc U) as [N [k [R [K [Eq _]]]]].
  assert (Fb : 0 <= Qfloor q < 10 ^ 9).
  { assert (PK : (0 < inject_Z (10 ^ Z.of_nat k))%Q) by apply pow_pos.
    assert (L0 : (0 <= q)%Q). { rewrite Eq. apply Qle_shift_div_l; auto. setoid_replace (0 * inject_Z (10 ^ Z.of_nat k))%Q with 0%Q by ring. change 0%Q with (inject_Z 0). rewrite <- Zle_Qle. lia. }
    assert (L1 : (q < inject_Z (10 ^ 9))%Q).
    { rewrite Eq. apply Qlt_shift_div_r; auto. rewrite <- inject_Z_mult, <- Zlt_Qlt. eapply Z.lt_le_trans; [apply R|].
      assert (10 ^ Z.of_nat (List.length c) <= 10 ^ 9) by (apply Z.pow_le_mono_r; lia). assert (0 < 10 ^ Z.of_nat k) by (apply Z.pow_pos_nonneg; lia). nia. }
    split.
    - change 0 with (Qfloor (inject_Z 0)). apply Qfloor_resp_le. exact L0.
    - pose proof (Qfloor_le q) as X. assert (Y : (inject_Z (Qfloor q) < inject_Z (10 ^ 9))%Q) by lra. rewrite <- Zlt_Qlt in Y. auto. }
  pose proof (PI a y Pa La Ea) as By. pose proof (PI b m Pb Lb Eb) as Bm.
  destruct (py_date y m (Qfloor q)) as [[[y' m'] d']|e3] eqn:D.
  - assert (NC := no_carry q N k Eq ltac:(lia)). destruct (_ =? DAY) eqn:X; [|discriminate]. apply Z.eqb_eq in X. contradiction.
  - unfold py_date, c_int in D. destruct (negb _) eqn:X; [exfalso; change (2 ^ 31) with 2147483648 in X; change (10 ^ 9) with 1000000000 in *; lia|].
    destruct (_ && (Qfloor q <=? _)); [discriminate|]. injection D as <-. congruence.
Qed.
Lemma ra_plain : forall raw v a b c, words raw = [a; b; c] -> alld a -> alld b -> parse_ra raw = Ok v -> (0 <= v)%Q /\ (v <= 360)%Q.
Proof.
  intros raw v a b c W A B H. unfold parse_ra in H. rewrite words_strip, W in H.
  assert (PA : forall s, alld s -> plain s) by (intros s X; eapply Forall_impl; [|exact X]; intros x Hx; unfold plainc; rewrite Hx; auto).
  assert (ND : forall s, alld s -> forall x, In x s -> x <> "."%char).
  { intros s X x Hx ->. unfold alld in X. rewrite Forall_forall in X. apply X in Hx. discriminate. }
  assert (INT : forall s hi u x, alld s -> py_float s = Ok x -> within x (inject_Z hi) false = Some u -> exists n, (u == inject_Z n)%Q /\ 0 <= n <= hi - 1).
  { intros s hi u x As Hx Hu. rewrite float_plain in Hx by auto. destruct (unsigned s) as [q|] eqn:U; [|discriminate]. injection Hx as <-.
    destruct (unsigned_plain s q (PA s As) U) as [N [k [R [_ [Eq K0]]]]]. rewrite (K0 (ND s As)) in Eq. cbn in Eq.
    destruct (Qle_bool MAXF q); [discriminate|]. cbn [within] in Hu. destruct (_ && _) eqn:Y; [|discriminate]. injection Hu as <-.
    exists N. assert (EqN : (q == inject_Z N)%Q) by (rewrite Eq; field). split; auto. apply Bool.andb_true_iff in Y. destruct Y as [_ Y].
    apply Bool.negb_true_iff in Y. destruct (Z_lt_le_dec N hi) as [|L]; [lia|]. exfalso. assert (Z0 : (inject_Z hi <= q)%Q) by (rewrite EqN, <- Zle_Qle; auto). apply Qle_bool_iff in Z0. congruence. }
  destruct (py_float a) as [xa|] eqn:Ea; cbn [as_parse bind] in H; [|discriminate].
  destruct (py_float b) as [xb|] eqn:Eb; cbn [as_parse bind] in H; [|discriminate].
  destruct (py_float c) as [xc|] eqn:Ec; cbn [as_parse bind] in H; [|discriminate].
  destruct (within xa 24 false) as [h|] eqn:Wa; [|discriminate]. destruct (within xb 60 false) as [m|] eqn:Wb; [|discriminate].
  destruct (within xc 60 false) as [s|] eqn:Wc; [|discriminate]. injection H as <-.
  destruct (INT a 24 h xa A Ea Wa) as [n1 [E1 R1]]. destruct (INT b 60 m xb B Eb Wb) as [n2 [E2 R2]].
  assert (S : (0 <= s)%Q /\ (s < 60)%Q).
  { destruct xc as [q| |]; cbn [within] in Wc; try discriminate. destruct (_ && _) eqn:Y; [|discriminate]. injection Wc as <-. apply Bool.andb_true_iff in Y. destruct Y as [Y1 Y2].
    apply Qle_bool_iff in Y1. apply Bool.negb_true_iff in Y2. split; auto. destruct (Qlt_le_dec q 60) as [|L]; auto. apply Qle_bool_iff in L. congruence. }
  assert (H1 : (0 <= h)%Q /\ (h <= 23)%Q). { rewrite E1. change 0%Q with (inject_Z 0). change 23%Q with (inject_Z 23). rewrite <- !Zle_Qle. lia. }
  assert (H2 : (0 <= m)%Q /\ (m <= 59)%Q). { rewrite E2. change 0%Q with (inject_Z 0). change 59%Q with (inject_Z 59). rewrite <- !Zle_Qle. lia. }
  assert (D1 : (m / 60 == m * (1 # 60))%Q) by field. assert (D2 : (s / 3600 == s * (1 # 3600))%Q) by field.
  rewrite D1, D2. lra.
Qed.
(* ---- files ---- *)
Definition good (l : str) : list obs80 := match parse_optical l with Ok o => [o] | Err _ => [] end.
Lemma lines_lenient : forall ls, (forall l e, In l ls -> parse_optical l = Err e -> e = ParseError) -> parse_lines false ls = Ok (flat_map good ls).
Proof.
  induction ls as [|l ls IH]; intros H; auto. cbn [parse_lines flat_map]. unfold good at 1.
  assert (G : forall x e, In x ls -> parse_optical x = Err e -> e = ParseError) by (intros x e Hx; apply H; cbn; auto).
  destruct (parse_optical l) as [o|e] eqn:E.
  - rewrite IH by auto. reflexivity.
  - rewrite (H l e (or_introl eq_refl) E). rewrite IH by auto. reflexivity.
Qed.
Lemma lines_strict : forall ls, (forall l e, In l ls -> parse_optical l = Err e -> e = ParseError) ->
  parse_lines true ls = if forallb (fun l => is_ok (parse_optical l)) ls then Ok (flat_map good ls) else Err ParseError.
Proof.
  induction ls as [|l ls IH]; intros H; auto. cbn [parse_lines flat_map forallb]. unfold good at 1.
  assert (G : forall x e, In x ls -> parse_optical x = Err e -> e = ParseError) by (intros x e Hx; apply H; cbn; auto).
  destruct (parse_optical l) as [o|e] eqn:E; cbn [is_ok andb].
  - rewrite IH by auto. destruct (forallb _ ls); reflexivity.
  - rewrite (H l e (or_introl eq_refl) E). reflexivity.
Qed.

Lemma ordinary_plain : forall w, ordinary w <-> plain w.
Proof.
  intros w. unfold ordinary, plain. rewrite !Forall_forall. split; intros H x Hx; specialize (H x Hx); unfold plainc in *.
  - rewrite Bool.orb_true_iff, Ascii.eqb_eq. destruct H as [H|H]; auto. left. apply sdigit_is. auto.
  - rewrite Bool.orb_true_iff, Ascii.eqb_eq in H. destruct H as [H|H]; auto. left. apply sdigit_is. auto.
Qed.
Lemma ra_words : forall raw v, parse_ra raw = Ok v -> exists a b c, words raw = [a; b; c].
Proof.
  intros raw v H. unfold parse_ra in H. rewrite words_strip in H. destruct (words raw) as [|a [|b [|c [|]]]]; try discriminate. eauto.
Qed.
Lemma optical_ordinary : forall raw e,
  (forall w, In w (words (slice (firstn 80 raw) 15 32)) -> ordinary w /\ (List.length w <= 9)%nat) ->
  (forall a b c, words (slice (firstn 80 raw) 32 44) = [a; b; c] -> Forall sdigit a /\ Forall sdigit b) ->
  parse_optical raw = Err e -> e = ParseError.
Proof.
  intros raw e D W H. unfold parse_optical in H.
  destruct (_ <? 80)%nat; [congruence|].
  destruct (match or_none _ with Some _ => _ | None => _ end); [congruence|].
  destruct (cols (firstn 80 raw) 0 12); [congruence|].
  destruct (negb _); [congruence|].
  destruct (match cols (firstn 80 raw) 65 70 with [] => _ | _ => _ end) as [mg|e1] eqn:E1; cbn [bind] in H.
  2:{ injection H as <-. destruct (cols (firstn 80 raw) 65 70); [discriminate|]. destruct (as_parse _) eqn:X; cbn in E1; [discriminate|]. injection E1 as <-. eapply as_parse_err; eauto. }
  destruct (parse_obstime _) as [t|e2] eqn:E2; cbn [bind] in H.
  2:{ injection H as <-. eapply obstime_plain; eauto. intros w Hw. destruct (D w Hw). rewrite <- ordinary_plain. auto. }
  destruct (parse_ra _) as [ra|e3] eqn:E3; cbn [bind] in H; [|injection H as <-; eapply ra_err; eauto].
  destruct (parse_dec _) as [dc|e4] eqn:E4; cbn [bind] in H; [|injection H as <-; eapply dec_err; eauto].
  destruct (ra_words _ _ E3) as [wa [wb [wc Wd]]]. destruct (W wa wb wc Wd) as [A B]. apply alld_sdigit in A, B.
  destruct (ra_plain _ _ _ _ _ Wd A B E3) as [R1 R2]. destruct (dec_range _ _ E4) as [R3 R4].
  assert (X : Qle_bool 0 ra && Qle_bool ra 360 && Qle_bool (-90 # 1) dc && Qle_bool dc 90 = true) by (rewrite !Bool.andb_true_iff, !Qle_bool_iff; auto).
  rewrite X in H. discriminate.
Qed.
(* ---- columns ---- *)
Lemma slice_app : forall (p q r : str) i j, List.length p = i -> (i + List.length q = j)%nat -> slice (p ++ q ++ r) i j = q.
Proof.
  intros p q r i j Hi Hj. unfold slice. rewrite <- Hi, skipn_app, skipn_all, Nat.sub_diag. cbn [skipn app].
  replace (j - List.length p)%nat with (List.length q) by lia. rewrite firstn_app, firstn_all, Nat.sub_diag. cbn. apply app_nil_r.
Qed.
Lemma columns_length : forall l, fits l -> List.length (columns l) = 80%nat.
Proof. intros l [H1 [H2 [H3 [H4 [H5 [H6 [H7 H8]]]]]]]. unfold columns. rewrite !app_length. cbn [List.length]. lia. Qed.
Lemma columns_slices : forall l, fits l -> let s := columns l in
  slice s 0 12 = l_designation l /\ slice s 12 13 = [l_discovery l] /\ slice s 13 14 = [l_note1 l] /\ slice s 14 15 = [l_note2 l] /\ slice s 15 32 = l_date l /\
  slice s 32 44 = l_ra l /\ slice s 44 56 = l_dec l /\ slice s 65 70 = l_mag l /\ slice s 70 71 = [l_band l] /\ slice s 71 72 = [l_catalog l] /\
  slice s 72 77 = l_reference l /\ slice s 77 80 = l_code l.
Proof.
  intros l [H1 [H2 [H3 [H4 [H5 [H6 [H7 H8]]]]]]]. destruct l as [a b c d e f g h i j k m n]. cbv zeta. unfold columns. cbn [l_designation l_discovery l_note1 l_note2 l_date l_ra l_dec l_blank l_mag l_band l_catalog l_reference l_code] in H1, H2, H3, H4, H5, H6, H7, H8. cbn [l_designation l_discovery l_note1 l_note2 l_date l_ra l_dec l_blank l_mag l_band l_catalog l_reference l_code].
  repeat split.
  - apply (slice_app [] a); auto.
  - apply (slice_app a [b]); auto.
  - rewrite (app_assoc a [b]). apply (slice_app (a ++ [b]) [c]); rewrite ?app_length; cbn; lia.
  - replace (a ++ [b] ++ [c] ++ [d] ++ e ++ f ++ g ++ h ++ i ++ [j] ++ [k] ++ m ++ n) with ((a ++ [b; c]) ++ [d] ++ (e ++ f ++ g ++ h ++ i ++ [j] ++ [k] ++ m ++ n)) by (rewrite <- !app_assoc; reflexivity).
    apply slice_app; rewrite ?app_length; cbn; lia.
  - replace (a ++ [b] ++ [c] ++ [d] ++ e ++ f ++ g ++ h ++ i ++ [j] ++ [k] ++ m ++ n) with ((a ++ [b; c; d]) ++ e ++ (f ++ g ++ h ++ i ++ [j] ++ [k] ++ m ++ n)) by (rewrite <- !app_assoc; reflexivity).
    apply slice_app; rewrite ?app_length; cbn; lia.
  - replace (a ++ [b] ++ [c] ++ [d] ++ e ++ f ++ g ++ h ++ i ++ [j] ++ [k] ++ m ++ n) with ((a ++ [b; c; d] ++ e) ++ f ++ (g ++ h ++ i ++ [j] ++ [k] ++ m ++ n)) by (rewrite <- !app_assoc; reflexivity).
    apply slice_app; rewrite ?app_length; cbn; lia.
  - replace (a ++ [b] ++ [c] ++ [d] ++ e ++ f ++ g ++ h ++ i ++ [j] ++ [k] ++ m ++ n) with ((a ++ [b; c; d] ++ e ++ f) ++ g ++ (h ++ i ++ [j] ++ [k] ++ m ++ n)) by (rewrite <- !app_assoc; reflexivity).
    apply slice_app; rewrite ?app_length; cbn; lia.
  - replace (a ++ [b] ++ [c] ++ [d] ++ e ++ f ++ g ++ h ++ i ++ [j] ++ [k] ++ m ++ n) with ((a ++ [b; c; d] ++ e ++ f ++ g ++ h) ++ i ++ ([j] ++ [k] ++ m ++ n)) by (rewrite <- !app_assoc; reflexivity).
    apply slice_app; rewrite ?app_length; cbn; lia.
  - replace (a ++ [b] ++ [c] ++ [d] ++ e ++ f ++ g ++ h ++ i ++ [j] ++ [k] ++ m ++ n) with ((a ++ [b; c; d] ++ e ++ f ++ g ++ h ++ i) ++ [j] ++ ([k] ++ m ++ n)) by (rewrite <- !app_assoc; reflexivity).
    apply slice_app; rewrite ?app_length; cbn; lia.
  - replace (a ++ [b] ++ [c] ++ [d] ++ e ++ f ++ g ++ h ++ i ++ [j] ++ [k] ++ m ++ n) with ((a ++ [b; c; d] ++ e ++ f ++ g ++ h ++ i ++ [j]) ++ [k] ++ (m ++ n)) by (rewrite <- !app_assoc; reflexivity).
    apply slice_app; rewrite ?app_length; cbn; lia.
  - replace (a ++ [b] ++ [c] ++ [d] ++ e ++ f ++ g ++ h ++ i ++ [j] ++ [k] ++ m ++ n) with ((a ++ [b; c; d] ++ e ++ f ++ g ++ h ++ i ++ [j; k]) ++ m ++ n) by (rewrite <- !app_assoc; reflexivity).
    apply slice_app; rewrite ?app_length; cbn; lia.
  - replace (a ++ [b] ++ [c] ++ [d] ++ e ++ f ++ g ++ h ++ i ++ [j] ++ [k] ++ m ++ n) with ((a ++ [b; c; d] ++ e ++ f ++ g ++ h ++ i ++ [j; k] ++ m) ++ n ++ []) by (rewrite <- !app_assoc, app_nil_r; reflexivity).
    apply slice_app; rewrite ?app_length; cbn; lia.
Qed.
Lemma layout_fields : forall l tail o, fits l -> parse_optical (columns l ++ tail) = Ok o ->
  o_line o = columns l /\ o_designation o = strip (l_designation l) /\ o_designation o <> [] /\
  (o_discovery o = true <-> l_discovery l = "*"%char) /\
  o_note1 o = or_none (strip [l_note1 l]) /\ o_note2 o = or_none (strip [l_note2 l]) /\ ~ In (l_note2 l) (list_ascii_of_string "RSVrsv") /\
  o_code o = l_code l /\
  parse_obstime (l_date l) = Ok (o_time o) /\ parse_ra (l_ra l) = Ok (o_ra o) /\ parse_dec (l_dec l) = Ok (o_dec o) /\
  (strip (l_mag l) = [] /\ o_mag o = None \/ exists x, py_float (strip (l_mag l)) = Ok x /\ o_mag o = Some x) /\
  o_band o = or_none (strip [l_band l]) /\ o_catalog o = or_none (strip [l_catalog l]) /\ o_reference o = or_none (strip (l_reference l)).
Proof.
  intros l tl o F H. unfold parse_optical in H.
  assert (LN := columns_length l F).
  destruct (_ <? 80)%nat; [congruence|].
  assert (FN : firstn 80 (columns l ++ tl) = columns l) by (rewrite <- LN, firstn_app, firstn_all, Nat.sub_diag; apply app_nil_r).
  rewrite FN in H. unfold cols in H.
  destruct (columns_slices l F) as (S1 & S2 & S3 & S4 & S5 & S6 & S7 & S8 & S9 & S10 & S11 & S12).
  rewrite S1, S2, S3, S4, S5, S6, S7, S8, S9, S10, S11, S12 in H. cbv zeta in H.
  destruct (match or_none _ with Some _ => _ | None => _ end) eqn:N2; [congruence|].
  destruct (strip (l_designation l)) as [|d0 dr] eqn:DS; [congruence|].
  destruct (negb _) eqn:CD; [congruence|]. apply Bool.negb_false_iff, Nat.eqb_eq in CD.
  destruct (match strip (l_mag l) with [] => _ | _ => _ end) as [mg|e1] eqn:E1; cbn [bind] in H; [|discriminate].
  destruct (parse_obstime _) as [t|e2] eqn:E2; cbn [bind] in H; [|discriminate].
  destruct (parse_ra _) as [ra|e3] eqn:E3; cbn [bind] in H; [|discriminate].
  destruct (parse_dec _) as [dc|e4] eqn:E4; cbn [bind] in H; [|discriminate].
  destruct (negb _); [discriminate|]. injection H as <-. cbn [o_line o_designation o_discovery o_note1 o_note2 o_code o_time o_ra o_dec o_mag o_band o_catalog o_reference].
  assert (LS : forall s, (List.length (lstrip s) <= List.length s)%nat /\ (List.length (lstrip s) = List.length s -> lstrip s = s)).
  { induction s as [|c s [IH _]]; cbn; auto. destruct (is_space c); cbn; split; auto; lia. }
  assert (CE : strip (l_code l) = l_code l).
  { unfold strip in *. destruct F as (_ & _ & _ & _ & _ & _ & _ & F8). rewrite rev_length in CD.
    destruct (LS (l_code l)) as [A1 A2]. destruct (LS (rev (lstrip (l_code l)))) as [B1 B2]. rewrite rev_length in B1, B2. rewrite B2 by lia. rewrite rev_involutive. apply A2. lia. }
  split; [reflexivity|]. split; [reflexivity|]. split; [discriminate|]. split.
  { split; intros X; [apply str_eqb_eq in X; cbn in X; congruence|rewrite X; reflexivity]. }
  split; auto. split; auto. split.
  { intros X. cbn [list_ascii_of_string In] in X. destruct X as [X|[X|[X|[X|[X|[X|[]]]]]]]; rewrite <- X in N2; cbv in N2; discriminate. }
  split; auto. split; auto. split; auto. split; auto. split; auto.
  destruct (strip (l_mag l)) as [|m0 mr] eqn:MS.
  - injection E1 as <-. auto.
  - right. destruct (py_float (m0 :: mr)) as [x|]; cbn [as_parse bind] in E1; [|discriminate]. injection E1 as <-. eauto.
Qed.
Lemma mag_text : forall l tail o ip fp, fits l -> parse_optical (columns l ++ tail) = Ok o -> decimal_text (strip (l_mag l)) ip fp ->
  exists q, o_mag o = Some (FNum q) /\ (q == decimal_value ip fp)%Q.
Proof.
  intros l tl o ip fp F H T. destruct (layout_fields l tl o F H) as (_ & _ & _ & _ & _ & _ & _ & _ & _ & _ & _ & M & _).
  destruct M as [[M _]|[x [M1 M2]]]; [exfalso; eapply text_nonempty; eauto|]. rewrite M2.
  destruct (text_plain _ _ _ T) as [P _]. destruct (unsigned_text _ _ _ T) as [q [U E]]. rewrite float_plain in M1 by auto. rewrite U in M1. injection M1 as <-.
  destruct (unsigned_plain _ _ P U) as [N [k [R [_ [Eq _]]]]].
  assert (L : (List.length (strip (l_mag l)) <= 5)%nat).
  { assert (LS : forall s, (List.length (lstrip s) <= List.length s)%nat) by (induction s as [|c s IH]; cbn; auto; destruct (is_space c); cbn; lia).
    destruct F as (_ & _ & _ & _ & _ & F6 & _). rewrite <- F6. unfold strip. rewrite rev_length. etransitivity; [apply LS|]. rewrite rev_length. apply LS. }
  destruct (Qle_bool MAXF q) eqn:B; [|eauto]. apply Qle_bool_iff in B. exfalso.
  assert (X : (q <= inject_Z N)%Q).
  { rewrite Eq. apply Qle_shift_div_r; [apply pow_pos|]. rewrite <- inject_Z_mult, <- Zle_Qle. assert (0 < 10 ^ Z.of_nat k) by (apply Z.pow_pos_nonneg; lia). nia. }
  assert (Y : (MAXF <= inject_Z (10 ^ 5))%Q).
  { apply (Qle_trans _ q); [exact B|]. apply (Qle_trans _ (inject_Z N)); [exact X|]. rewrite <- Zle_Qle. assert (10 ^ Z.of_nat (List.length (strip (l_mag l))) <= 10 ^ 5) by (apply Z.pow_le_mono_r; lia). lia. }
  unfold MAXF in Y. rewrite <- Zle_Qle in Y. vm_compute in Y. congruence.
Qed.
Lemma layout_accepts : forall l tail t ra dec, fits l -> strip (l_designation l) <> [] -> strip (l_code l) = l_code l -> ~ In (l_note2 l) (list_ascii_of_string "RSVrsv") ->
  parse_obstime (l_date l) = Ok t -> parse_ra (l_ra l) = Ok ra -> parse_dec (l_dec l) = Ok dec -> (0 <= ra <= 360)%Q ->
  (strip (l_mag l) = [] \/ exists x, py_float (strip (l_mag l)) = Ok x) ->
  exists o, parse_optical (columns l ++ tail) = Ok o.
Proof.
  intros l tl t ra dc F D C N T R E RR M. unfold parse_optical. assert (LN := columns_length l F).
  rewrite app_length, LN. replace (80 + List.length tl <? 80)%nat with false by (symmetry; apply Nat.ltb_ge; lia).
  assert (FN : firstn 80 (columns l ++ tl) = columns l) by (rewrite <- LN, firstn_app, firstn_all, Nat.sub_diag; apply app_nil_r).
  rewrite FN. unfold cols.
  destruct (columns_slices l F) as (S1 & S2 & S3 & S4 & S5 & S6 & S7 & S8 & S9 & S10 & S11 & S12).
  rewrite S1, S2, S3, S4, S5, S6, S7, S8, S9, S10, S11, S12. cbv zeta.
  assert (N2 : match or_none (strip [l_note2 l]) with Some [c] => existsb (Ascii.eqb c) (s_ "RSVrsv") | _ => false end = false).
  { unfold strip. cbn [lstrip]. destruct (is_space (l_note2 l)) eqn:SP; [reflexivity|]. cbn [rev app lstrip]. rewrite SP. cbn [rev app or_none].
    destruct (existsb _ _) eqn:X; auto. exfalso. apply existsb_exists in X. destruct X as [x [I X]]. apply Ascii.eqb_eq in X. subst x. apply N. exact I. }
  rewrite N2. destruct (strip (l_designation l)) as [|d0 dr]; [congruence|].
  assert (L3 : (List.length (strip (l_code l)) =? 3)%nat = true) by (rewrite C; apply Nat.eqb_eq; apply F). rewrite L3. cbn [negb].
  rewrite T, R, E. destruct (dec_range _ _ E) as [D1 D2].
  assert (X : Qle_bool 0 ra && Qle_bool ra 360 && Qle_bool (-90 # 1) dc && Qle_bool dc 90 = true) by (rewrite !Bool.andb_true_iff, !Qle_bool_iff; tauto).
  destruct (strip (l_mag l)) as [|m0 mr].
  - cbn [bind]. rewrite X. cbn [negb]. eauto.
  - destruct M as [M|[x M]]; [discriminate|]. rewrite M. cbn [as_parse bind]. rewrite X. cbn [negb]. eauto.
Qed.
Lemma dates_ok : forall cal, mjd_count cal -> forall raw ys ms w ds fs, three_fields raw ys ms w ->
  Forall sdigit ys -> ys <> [] -> Forall sdigit ms -> ms <> [] -> decimal_text w ds fs -> (List.length fs <= 13)%nat ->
  valid_date (svalue 0 ys) (svalue 0 ms) (svalue 0 ds) ->
  exists n, parse_obstime raw = Ok (mkrow (cal (svalue 0 ys, svalue 0 ms, svalue 0 ds)) n) /\ 0 <= n < DAY /\
    (inject_Z n - (1 # 2) <= inject_Z (svalue 0 fs) / inject_Z (10 ^ Z.of_nat (List.length fs)) * inject_Z DAY)%Q /\
    (inject_Z (svalue 0 fs) / inject_Z (10 ^ Z.of_nat (List.length fs)) * inject_Z DAY <= inject_Z n + (1 # 2))%Q.
Proof. intros cal C raw ys ms w ds fs T Y Y0 M M0 W K V. rewrite (count_unique cal C _ _ _ V). exact (date_text_ok raw ys ms w ds fs T Y Y0 M M0 W K V). Qed.
Lemma dates_sound : forall cal, mjd_count cal -> forall raw r, parse_obstime raw = Ok r ->
  exists y m d, valid_date y m d /\ normal r /\ (days r = cal (y, m, d) \/ days r = cal (y, m, d) + 1 /\ nanos r = 0).
Proof.
  intros cal C raw r H. destruct (obstime_sound raw r H) as [y [m [d [V [N X]]]]]. exists y, m, d. rewrite (count_unique cal C _ _ _ V). auto.
Qed.
Lemma file_ok : forall raw, let lines := filter (fun l => negb (blank l)) (splitlines raw) in
  (forall l e, In l lines -> parse_optical l = Err e -> e = ParseError) ->
  exists os, parse_file false raw = Ok os /\
    os = flat_map (fun l => match parse_optical l with Ok o => [o] | Err _ => [] end) lines /\
    (parse_file true raw = Ok os /\ (forall l, In l lines -> exists o, parse_optical l = Ok o) \/
     parse_file true raw = Err ParseError /\ exists l, In l lines /\ parse_optical l = Err ParseError).
Proof.
  intros raw lines H. exists (flat_map good lines). unfold parse_file. fold lines. split; [apply lines_lenient; auto|]. split; [reflexivity|].
  rewrite lines_strict by auto. destruct (forallb _ lines) eqn:X.
  - left. split; auto. rewrite forallb_forall in X. intros l Hl. specialize (X l Hl). destruct (parse_optical l); [eauto|discriminate].
  - right. split; auto. assert (G : exists l, In l lines /\ is_ok (parse_optical l) = false).
    { clear H. induction lines as [|l ls IH]; [discriminate|]. cbn [forallb] in X. destruct (is_ok (parse_optical l)) eqn:O; [|exists l; cbn; auto].
      destruct (IH X) as [l' [I E]]. exists l'. cbn. auto. }
    destruct G as [l [I O]]. exists l. split; auto. destruct (parse_optical l) as [|e] eqn:E; [discriminate|]. rewrite (H l e I E). reflexivity.
Qed.
