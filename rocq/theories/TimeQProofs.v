(* Proofs about the rational-valued and scale-conversion parts of TimeModel. *)
From Verif Require Import Base TimeModel TimeSpec TimeProofs.
From Coq Require Import String QArith Qround Qabs Lqa.
Open Scope Z_scope.
Ltac Zify.zify_post_hook ::= Z.div_mod_to_equations.

Lemma Qfloor_unique : forall q z, (inject_Z z <= q)%Q -> (q < inject_Z (z + 1))%Q -> Qfloor q = z.
Proof.
  intros q z H1 H2. pose proof (Qfloor_le q) as F1. pose proof (Qlt_floor q) as F2.
  assert (A : (inject_Z z < inject_Z (Qfloor q + 1))%Q) by (eapply Qle_lt_trans; eauto).
  assert (B : (inject_Z (Qfloor q) < inject_Z (z + 1))%Q) by (eapply Qle_lt_trans; eauto).
  rewrite <- Zlt_Qlt in A, B. lia.
Qed.

Lemma round_he_comp : forall p q, (p == q)%Q -> round_he p = round_he q.
Proof.
  intros p q H. unfold round_he.
  assert (Hf : Qfloor p = Qfloor q) by (apply Qfloor_comp; exact H).
  rewrite Hf.
  assert (Hd : (p - inject_Z (Qfloor q) == q - inject_Z (Qfloor q))%Q) by (rewrite H; reflexivity).
  assert (E1 : Qeq_bool (p - inject_Z (Qfloor q)) (1 # 2) = Qeq_bool (q - inject_Z (Qfloor q)) (1 # 2)).
  { apply eq_true_iff_eq. rewrite !Qeq_bool_iff, Hd. reflexivity. }
  assert (E2 : Qle_bool (p - inject_Z (Qfloor q)) (1 # 2) = Qle_bool (q - inject_Z (Qfloor q)) (1 # 2)).
  { apply eq_true_iff_eq. rewrite !Qle_bool_iff, Hd. reflexivity. }
  rewrite E1, E2. reflexivity.
Qed.

(* nearest: the rounding error is at most one half *)
Lemma round_he_near : forall q,
  (inject_Z (round_he q) - (1 # 2) <= q)%Q /\ (q <= inject_Z (round_he q) + (1 # 2))%Q.
Proof.
  intros q. unfold round_he.
  pose proof (Qfloor_le q) as F1. pose proof (Qlt_floor q) as F2.
  rewrite inject_Z_plus in F2. change (inject_Z 1) with 1%Q in F2.
  destruct (Qeq_bool (q - inject_Z (Qfloor q)) (1 # 2)) eqn:E1.
  - apply Qeq_bool_iff in E1. destruct (Z.even (Qfloor q)).
    + split; lra.
    + rewrite inject_Z_plus. change (inject_Z 1) with 1%Q. split; lra.
  - destruct (Qle_bool (q - inject_Z (Qfloor q)) (1 # 2)) eqn:E2.
    + apply Qle_bool_iff in E2. split; lra.
    + assert (~ (q - inject_Z (Qfloor q) <= 1 # 2)%Q) as E3.
      { intro H. apply Qle_bool_iff in H. congruence. }
      apply Qnot_le_lt in E3. rewrite inject_Z_plus. change (inject_Z 1) with 1%Q. split; lra.
Qed.

Lemma round_he_unique : forall q z,
  (inject_Z z - (1 # 2) < q)%Q -> (q < inject_Z z + (1 # 2))%Q -> round_he q = z.
Proof.
  intros q z H1 H2. destruct (round_he_near q) as [N1 N2].
  assert (A : (inject_Z (round_he q) < inject_Z (z + 1))%Q) by (rewrite inject_Z_plus; change (inject_Z 1) with 1%Q; lra).
  assert (B : (inject_Z (z - 1) < inject_Z (round_he q))%Q).
  { unfold Z.sub. rewrite inject_Z_plus. change (inject_Z (Z.opp 1)) with (-1)%Q. lra. }
  rewrite <- Zlt_Qlt in A, B. lia.
Qed.

Lemma round_he_int : forall z, round_he (inject_Z z) = z.
Proof. intros z. apply round_he_unique; lra. Qed.

Lemma frac_nanos : forall n, ((n # 86400000000000) == inject_Z n / inject_Z 86400000000000)%Q.
Proof. intros n. unfold Qeq, Qdiv, Qmult, Qinv, inject_Z. simpl. lia. Qed.

Lemma mjd_instant : forall r, (mjd r * inject_Z DAY == inject_Z (instant r))%Q.
Proof.
  intros r. unfold mjd, instant, DAY. rewrite frac_nanos.
  rewrite inject_Z_plus, inject_Z_mult. field.
Qed.

Lemma from_mjd_mjd : forall r, normal r -> from_mjd (mjd r) = r.
Proof.
  intros [d n] H. unfold normal in H. simpl in H. unfold from_mjd.
  assert (Hf : Qfloor (mjd (mkrow d n)) = d).
  { apply Qfloor_unique; unfold mjd; simpl days; simpl nanos; unfold Qle, Qlt, Qplus, inject_Z; simpl; lia. }
  rewrite Hf. f_equal.
  rewrite (round_he_comp _ (inject_Z n)); [apply round_he_int|].
  unfold mjd; simpl days; simpl nanos. rewrite frac_nanos. unfold DAY. field.
Qed.

Lemma mjd_from_mjd : forall q,
  (q - (1 # 172800000000000) <= mjd (from_mjd q))%Q /\ (mjd (from_mjd q) <= q + (1 # 172800000000000))%Q.
Proof.
  intros q. unfold from_mjd, mjd; simpl days; simpl nanos. rewrite frac_nanos.
  destruct (round_he_near ((q - inject_Z (Qfloor q)) * inject_Z DAY)%Q) as [N1 N2].
  unfold DAY in *. set (k := inject_Z (round_he _)) in *.
  assert (E : (k / inject_Z 86400000000000 == k * (1 # 86400000000000))%Q) by (unfold Qdiv; reflexivity).
  rewrite E. change (inject_Z 86400000000000) with (86400000000000 # 1)%Q in *. split; lra.
Qed.

(* nanos may reach a full day but never exceeds it *)
Lemma from_mjd_range : forall q, 0 <= nanos (from_mjd q) <= 86400000000000.
Proof.
  intros q. unfold from_mjd; simpl nanos.
  pose proof (Qfloor_le q) as F1. pose proof (Qlt_floor q) as F2.
  rewrite inject_Z_plus in F2. change (inject_Z 1) with 1%Q in F2.
  destruct (round_he_near ((q - inject_Z (Qfloor q)) * inject_Z DAY)%Q) as [N1 N2].
  unfold DAY in *. set (k := round_he _) in *.
  change (inject_Z 86400000000000) with (86400000000000 # 1)%Q in *.
  assert (A : (inject_Z (-1) < inject_Z k)%Q) by (change (inject_Z (-1)) with (-1)%Q; lra).
  assert (B : (inject_Z k < inject_Z 86400000000001)%Q) by (change (inject_Z 86400000000001) with (86400000000001 # 1)%Q; lra).
  rewrite <- Zlt_Qlt in A, B. lia.
Qed.

Lemma from_mjd_normal_iff : forall q,
  normal (from_mjd q) <->
  round_he ((q - inject_Z (Qfloor q)) * inject_Z 86400000000000) <> 86400000000000.
Proof.
  intros q. pose proof (from_mjd_range q) as H. unfold normal.
  unfold from_mjd in *; simpl nanos in *. unfold DAY in *. lia.
Qed.

(* the et round trip is off by exactly the J2000 epoch, always *)
Lemma from_et_et : forall r, normal r ->
  instant (from_et (et r)) = instant r - 51544 * 86400000000000 - 43200000000000.
Proof.
  intros r H. unfold from_et.
  set (d' := if nanos r <? 43200000000000 then days r - 51545 else days r - 51544).
  set (n' := if nanos r <? 43200000000000 then nanos r + 43200000000000 else nanos r - 43200000000000).
  unfold normal in H.
  assert (Hn : normal (mkrow d' n')).
  { unfold normal, n'; simpl. destruct (nanos r <? 43200000000000) eqn:E; b2p; lia. }
  assert (Hq : (et r / inject_Z 86400 == mjd (mkrow d' n'))%Q).
  { assert (H1 : (et r / inject_Z 86400 == mjd r - (515445 # 10))%Q).
    { unfold et. set (m := mjd r). change (inject_Z 86400) with 86400%Q. field. }
    rewrite H1. unfold mjd; simpl days; simpl nanos. unfold d', n'.
    destruct (nanos r <? 43200000000000);
      unfold Qeq, Qminus, Qplus, Qopp, inject_Z; simpl; lia. }
  assert (E : from_mjd (et r / inject_Z 86400) = from_mjd (mjd (mkrow d' n'))).
  { unfold from_mjd. rewrite (Qfloor_comp _ _ Hq). f_equal. apply round_he_comp.
    rewrite Hq. reflexivity. }
  rewrite E, from_mjd_mjd by exact Hn.
  unfold instant, d', n'; simpl. destruct (nanos r <? 43200000000000); lia.
Qed.

Lemma from_jd_jd : forall r, normal r -> from_jd (jd r) = r.
Proof.
  intros r H. unfold from_jd, jd.
  assert (Hq : (mjd r + (24000005 # 10) - (24000005 # 10) == mjd r)%Q) by ring.
  assert (E : from_mjd (mjd r + (24000005 # 10) - (24000005 # 10)) = from_mjd (mjd r)).
  { unfold from_mjd. rewrite (Qfloor_comp _ _ Hq). f_equal. apply round_he_comp.
    rewrite Hq. reflexivity. }
  rewrite E. apply from_mjd_mjd, H.
Qed.
