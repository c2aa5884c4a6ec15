From Coq Require Import Reals Lra Lia ZArith.
From Verif Require Import SphModel SphSpec SphProofs KepModel KepSpec.
Open Scope R_scope.

(* ---- angles ---- *)
Lemma cos_turns_nat : forall (n : nat) x, cos (x + INR n * (2 * PI)) = cos x.
Proof. intros. rewrite <- (cos_period x n). f_equal. ring. Qed.
Lemma sin_turns_nat : forall (n : nat) x, sin (x + INR n * (2 * PI)) = sin x.
Proof. intros. rewrite <- (sin_period x n). f_equal. ring. Qed.
Lemma cos_turns : forall (k : Z) x, cos (x + IZR k * (2 * PI)) = cos x.
Proof.
  intros k x. destruct (Z_le_dec 0 k).
  - rewrite <- (Z2Nat.id k) by lia. rewrite <- INR_IZR_INZ. apply cos_turns_nat.
  - rewrite <- (cos_turns_nat (Z.to_nat (- k)) (x + IZR k * (2 * PI))). f_equal.
    rewrite INR_IZR_INZ, Z2Nat.id by lia. rewrite opp_IZR. ring.
Qed.
Lemma sin_turns : forall (k : Z) x, sin (x + IZR k * (2 * PI)) = sin x.
Proof.
  intros k x. destruct (Z_le_dec 0 k).
  - rewrite <- (Z2Nat.id k) by lia. rewrite <- INR_IZR_INZ. apply sin_turns_nat.
  - rewrite <- (sin_turns_nat (Z.to_nat (- k)) (x + IZR k * (2 * PI))). f_equal.
    rewrite INR_IZR_INZ, Z2Nat.id by lia. rewrite opp_IZR. ring.
Qed.
Lemma same_cos : forall a b, same_angle a b -> cos a = cos b.
Proof. intros a b [k ->]. apply cos_turns. Qed.
Lemma same_sin : forall a b, same_angle a b -> sin a = sin b.
Proof. intros a b [k ->]. apply sin_turns. Qed.
Lemma same_refl : forall a, same_angle a a.
Proof. intros; exists 0%Z; ring. Qed.
Lemma same_sym : forall a b, same_angle a b -> same_angle b a.
Proof. intros a b [k ->]. exists (- k)%Z. rewrite opp_IZR. ring. Qed.
Lemma same_trans : forall a b c, same_angle a b -> same_angle b c -> same_angle a c.
Proof. intros a b c [k ->] [m ->]. exists (k + m)%Z. rewrite plus_IZR. ring. Qed.
Lemma same_turn : forall a, same_angle (a + turn) a.
Proof. intros; exists 1%Z. unfold turn; ring. Qed.
Lemma pymod_spec : forall x m, 0 < m -> 0 <= pymod x m < m /\ exists k : Z, pymod x m = x + IZR k * m.
Proof.
  intros x m M. unfold pymod. destruct (base_Int_part (x / m)) as [A B].
  assert (X : x = x / m * m) by (field; lra). set (k := Int_part (x / m)) in *. split.
  - assert (IZR k * m <= x) by (rewrite X; apply Rmult_le_compat_r; lra).
    assert ((x / m - 1) * m < IZR k * m) by (apply Rmult_lt_compat_r; lra). lra.
  - exists (- k)%Z. rewrite opp_IZR. ring.
Qed.
Lemma turn_pos : 0 < turn.
Proof. unfold turn. pose proof PI_RGT_0. lra. Qed.
Lemma normalise_spec : forall nu, - turn <= nu -> 0 <= normalise nu < turn /\ same_angle (normalise nu) nu.
Proof.
  intros nu H. pose proof turn_pos. unfold normalise.
  assert (A : forall x, 0 <= x -> 0 <= (if Rle_dec turn x then pymod x turn else x) < turn /\
                        same_angle (if Rle_dec turn x then pymod x turn else x) x).
  { intros x X. destruct (Rle_dec turn x).
    - destruct (pymod_spec x turn) as [P Q]; [assumption|]. split; [exact P|exact Q].
    - split; [lra|apply same_refl]. }
  destruct (Rlt_dec nu 0) as [L|L].
  - destruct (A (nu + turn)) as [P Q]; [lra|]. split; [exact P|]. eapply same_trans; [exact Q|apply same_turn].
  - destruct (A nu) as [P Q]; [lra|]. split; assumption.
Qed.
Lemma wrap_nu_spec : forall nu, same_angle (wrap_nu nu) nu.
Proof.
  intros. unfold wrap_nu. destruct (Rle_dec turn nu); [|apply same_refl].
  destruct (pymod_spec nu turn turn_pos) as [_ Q]. exact Q.
Qed.
Lemma wrap_nu_id : forall nu, nu < turn -> wrap_nu nu = nu.
Proof. intros. unfold wrap_nu. destruct (Rle_dec turn nu); lra. Qed.
Lemma wrap_M_same : forall M, same_angle (wrap_M M) M.
Proof. intros. unfold wrap_M. destruct (Rlt_dec M 0); [apply same_turn|apply same_refl]. Qed.
(* an angle in [0, 2 pi) is determined by its cosine and sine *)
Lemma angle_unique_turn : forall a b, 0 <= a < turn -> 0 <= b < turn -> cos a = cos b -> sin a = sin b -> a = b.
Proof.
  intros a b A B C S. unfold turn in *.
  assert (E : a - PI = b - PI \/ (a = 0 /\ b = 0) \/ (a = 0 /\ b <> 0) \/ (b = 0 /\ a <> 0) \/ (a <> 0 /\ b <> 0)).
  { destruct (Req_dec a 0), (Req_dec b 0); tauto. }
  assert (K : forall u v, 0 < u < 2 * PI -> 0 < v < 2 * PI -> cos u = cos v -> sin u = sin v -> u = v).
  { intros u v U V Cu Su. assert (u - PI = v - PI); [|lra].
    apply angle_unique; try lra; unfold Rminus; rewrite ?cos_plus, ?sin_plus, ?cos_neg, ?sin_neg, ?cos_PI, ?sin_PI; lra. }
  assert (Z : forall u, 0 <= u < 2 * PI -> cos u = cos 0 -> sin u = sin 0 -> u = 0).
  { intros u U Cu Su. rewrite cos_0 in Cu. rewrite sin_0 in Su.
    destruct (Req_dec u 0) as [E0|E0]; [exact E0|]. exfalso.
    assert (X : 0 < sin (u / 2)) by (apply sin_gt_0; lra).
    replace u with (2 * (u / 2)) in Cu by field. rewrite cos_2a_sin in Cu. nra. }
  destruct (Req_dec a 0) as [->|]; [symmetry; apply Z; congruence || lra|].
  destruct (Req_dec b 0) as [->|]; [apply Z; congruence || lra|]. apply K; lra.
Qed.
Lemma same_angle_of : forall a b, cos a = cos b -> sin a = sin b -> same_angle a b.
Proof.
  intros a b C S. destruct (pymod_spec a turn turn_pos) as [Pa Qa]. destruct (pymod_spec b turn turn_pos) as [Pb Qb].
  assert (E : pymod a turn = pymod b turn).
  { apply angle_unique_turn; try assumption.
    - rewrite (same_cos _ _ Qa), (same_cos _ _ Qb). exact C.
    - rewrite (same_sin _ _ Qa), (same_sin _ _ Qb). exact S. }
  eapply same_trans; [apply same_sym; exact Qa|]. rewrite E. exact Qb.
Qed.

(* ---- the elliptical anomalies ---- *)
Section Ellipse.
Variable e : R.
Hypothesis e_range : 0 <= e < 1.
Let s := sqrt (1 - e ^ 2).
Lemma s_sq : s ^ 2 = 1 - e ^ 2.
Proof. apply sqrt_sq2. nra. Qed.
Lemma s_pos : 0 < s.
Proof. apply sqrt_lt_R0. nra. Qed.
Lemma den_E : forall E, 0 < 1 - e * cos E.
Proof. intros. pose proof (COS_bound E). nra. Qed.
Lemma den_nu : forall nu, 0 < 1 + e * cos nu.
Proof. intros. pose proof (COS_bound nu). nra. Qed.
Lemma sc : forall x, sin x ^ 2 = 1 - cos x ^ 2.
Proof. intros. pose proof (sin2_cos2 x). unfold Rsqr in *. nra. Qed.
(* the eccentric anomaly of a true anomaly *)
Lemma E_of_nu : forall nu, cos (elliptical_E nu e) = (e + cos nu) / (1 + e * cos nu) /\
  sin (elliptical_E nu e) = s * sin nu / (1 + e * cos nu).
Proof.
  intros nu. unfold elliptical_E. fold s. rewrite (same_cos _ nu (wrap_nu_spec nu)), (same_sin _ nu (wrap_nu_spec nu)).
  pose proof (den_nu nu) as D. pose proof s_pos as SP. pose proof s_sq as Sq.
  assert (H : sqrt ((e + cos nu) ^ 2 + (s * sin nu) ^ 2) = 1 + e * cos nu).
  { replace ((e + cos nu) ^ 2 + (s * sin nu) ^ 2) with ((1 + e * cos nu) ^ 2).
    - rewrite sqrt_of_sq, Rabs_right by lra. reflexivity.
    - replace ((s * sin nu) ^ 2) with (s ^ 2 * sin nu ^ 2) by ring. rewrite Sq, sc. ring. }
  assert (N : e + cos nu <> 0 \/ s * sin nu <> 0).
  { destruct (Req_dec (e + cos nu) 0) as [A|A]; [|left; exact A]. right. intros B.
    rewrite A, B in H. replace (0 ^ 2 + 0 ^ 2) with 0 in H by ring. rewrite sqrt_0 in H. lra. }
  destruct (atan2_polar _ _ N) as [C S]. rewrite H in C, S.
  split; [apply (Rmult_eq_reg_l (1 + e * cos nu)); [rewrite C; field|]|apply (Rmult_eq_reg_l (1 + e * cos nu)); [rewrite S; field|]]; lra.
Qed.
(* the true anomaly of an eccentric anomaly *)
Lemma half_norm : forall E, (sqrt (1 - e) * cos (E / 2)) ^ 2 + (sqrt (1 + e) * sin (E / 2)) ^ 2 = 1 - e * cos E.
Proof.
  intros E. rewrite !Rpow_mult_distr, !sqrt_sq2 by lra. rewrite sc.
  replace (cos E) with (2 * cos (E / 2) ^ 2 - 1).
  - ring.
  - replace E with (2 * (E / 2)) at 2 by field. rewrite cos_2a_cos. ring.
Qed.
Lemma half_nonzero : forall E, sqrt (1 - e) * cos (E / 2) <> 0 \/ sqrt (1 + e) * sin (E / 2) <> 0.
Proof.
  intros E. pose proof (half_norm E) as H. pose proof (den_E E).
  destruct (Req_dec (sqrt (1 - e) * cos (E / 2)) 0) as [A|A]; [|left; exact A]. right. intros B.
  rewrite A, B in H. lra.
Qed.
Lemma nu_of_E : forall E, cos (elliptical_nu e E) = (cos E - e) / (1 - e * cos E) /\
  sin (elliptical_nu e E) = s * sin E / (1 - e * cos E).
Proof.
  intros E. unfold elliptical_nu. destruct (atan2_polar _ _ (half_nonzero E)) as [C S].
  rewrite half_norm in C, S. pose proof (den_E E) as D. set (t := atan2 _ _) in *.
  pose proof (sqrt_lt_R0 _ D) as Q. pose proof (sqrt_sq2 _ (Rlt_le _ _ D)) as Q2. set (w := sqrt (1 - e * cos E)) in *.
  assert (cosE : cos E = 2 * cos (E / 2) ^ 2 - 1) by (replace E with (2 * (E / 2)) at 1 by field; rewrite cos_2a_cos; ring).
  assert (sinE : sin E = 2 * sin (E / 2) * cos (E / 2)) by (replace E with (2 * (E / 2)) at 1 by field; rewrite sin_2a; ring).
  split.
  - rewrite cos_2a. apply (Rmult_eq_reg_l (w ^ 2)); [|nra].
    replace (w ^ 2 * (cos t * cos t - sin t * sin t)) with ((w * cos t) ^ 2 - (w * sin t) ^ 2) by ring.
    rewrite C, S, !Rpow_mult_distr, !sqrt_sq2 by lra. rewrite Q2. rewrite sc, cosE. field. rewrite <- cosE. lra.
  - rewrite sin_2a. apply (Rmult_eq_reg_l (w ^ 2)); [|nra].
    replace (w ^ 2 * (2 * sin t * cos t)) with (2 * (w * sin t) * (w * cos t)) by ring.
    rewrite C, S, Q2, sinE. unfold s. replace (1 - e ^ 2) with ((1 - e) * (1 + e)) by ring. rewrite sqrt_mult by lra. field. lra.
Qed.
Lemma nu_range : forall E, - turn < elliptical_nu e E <= turn.
Proof. intros. unfold elliptical_nu, turn. pose proof (atan2_range (sqrt (1 + e) * sin (E / 2)) (sqrt (1 - e) * cos (E / 2))). lra. Qed.
Lemma nu_E_nu : forall nu E, same_angle E (elliptical_E nu e) -> 0 <= nu < turn -> normalise (elliptical_nu e E) = nu.
Proof.
  intros nu E SA N. pose proof (nu_range E). destruct (normalise_spec (elliptical_nu e E)) as [R S]; [lra|].
  destruct (nu_of_E E) as [C1 S1]. destruct (E_of_nu nu) as [C2 S2].
  rewrite (same_cos _ _ SA) in C1, S1. rewrite (same_sin _ _ SA) in S1. rewrite C2 in C1, S1. rewrite S2 in S1.
  pose proof (den_nu nu) as D. pose proof s_sq as Sq. pose proof s_pos.
  assert (D2 : 1 - e * ((e + cos nu) / (1 + e * cos nu)) = s ^ 2 / (1 + e * cos nu)) by (rewrite Sq; field; lra).
  apply angle_unique_turn; try assumption.
  - rewrite (same_cos _ _ S), C1, D2.
    transitivity ((1 - e ^ 2) * cos nu / s ^ 2); [field; split; lra|]. rewrite <- Sq. field. lra.
  - rewrite (same_sin _ _ S), S1, D2. field. split; lra.
Qed.
Lemma E_nu_E : forall E nu, same_angle nu (elliptical_nu e E) -> same_angle (elliptical_E nu e) E.
Proof.
  intros E nu SA. destruct (nu_of_E E) as [C1 S1]. destruct (E_of_nu nu) as [C2 S2].
  rewrite (same_cos _ _ SA), C1 in C2, S2. rewrite (same_sin _ _ SA), S1 in S2.
  pose proof (den_E E) as D. pose proof s_sq as Sq. pose proof s_pos.
  assert (D2 : 1 + e * ((cos E - e) / (1 - e * cos E)) = s ^ 2 / (1 - e * cos E)) by (rewrite Sq; field; lra).
  apply same_angle_of.
  - rewrite C2, D2. transitivity ((1 - e ^ 2) * cos E / s ^ 2); [field; split; lra|]. rewrite <- Sq. field. lra.
  - rewrite S2, D2. field. split; lra.
Qed.
Lemma elliptical_M_same : forall nu, same_angle (elliptical_M nu e) (elliptical_E nu e - e * sin (elliptical_E nu e)).
Proof. intros. unfold elliptical_M. apply wrap_M_same. Qed.
Lemma elliptical_M_range : forall nu, 0 <= elliptical_M nu e < turn.
Proof.
  intros. unfold elliptical_M. set (E := elliptical_E nu e). unfold wrap_M.
  assert (R : - PI < E <= PI) by (unfold E, elliptical_E; apply atan2_range).
  pose proof (SIN_bound E). pose proof PI2_3_2. unfold turn.
  assert (- 1 <= e * sin E <= 1) by nra.
  destruct (Rlt_dec (E - e * sin E) 0); lra.
Qed.
(* the mean anomaly of a true anomaly obtained from an eccentric anomaly *)
Lemma M_nu_M : forall E nu, same_angle nu (elliptical_nu e E) -> same_angle (elliptical_M nu e) (E - e * sin E).
Proof.
  intros E nu SA. eapply same_trans; [apply elliptical_M_same|]. pose proof (E_nu_E E nu SA) as X.
  rewrite (same_sin _ _ X). destruct X as [k ->]. exists k. ring.
Qed.
(* distance between the directions of two true anomalies *)
Lemma chord : forall E E', Rabs (sin ((elliptical_nu e E' - elliptical_nu e E) / 2)) <=
  sqrt ((1 + e) / (1 - e)) * Rabs (sin ((E' - E) / 2)).
Proof.
  intros E E'. unfold elliptical_nu.
  destruct (atan2_polar _ _ (half_nonzero E)) as [C S]. destruct (atan2_polar _ _ (half_nonzero E')) as [C' S'].
  rewrite half_norm in C, S, C', S'. set (t := atan2 (_ * sin (E / 2)) _) in *. set (t' := atan2 (_ * sin (E' / 2)) _) in *.
  replace ((2 * t' - 2 * t) / 2) with (t' - t) by field.
  pose proof (den_E E) as D. pose proof (den_E E') as D'.
  set (w := sqrt (1 - e * cos E)) in *. set (w' := sqrt (1 - e * cos E')) in *.
  assert (L : forall x, 1 - e <= 1 - e * cos x) by (intros x; pose proof (COS_bound x); nra).
  assert (W : sqrt (1 - e) <= w) by (apply sqrt_le_1_alt, L). assert (W' : sqrt (1 - e) <= w') by (apply sqrt_le_1_alt, L).
  assert (P : 0 < sqrt (1 - e)) by (apply sqrt_lt_R0; lra).
  assert (X : w * w' * sin (t' - t) = sqrt (1 - e) * sqrt (1 + e) * sin ((E' - E) / 2)).
  { replace ((E' - E) / 2) with (E' / 2 - E / 2) by field. rewrite !sin_minus.
    replace (w * w' * (sin t' * cos t - cos t' * sin t)) with ((w' * sin t') * (w * cos t) - (w' * cos t') * (w * sin t)) by ring.
    rewrite C, S, C', S'. ring. }
  assert (Y : w * w' * Rabs (sin (t' - t)) = sqrt (1 - e) * sqrt (1 + e) * Rabs (sin ((E' - E) / 2))).
  { rewrite <- (Rabs_right (w * w')) by nra. rewrite <- Rabs_mult, X, !Rabs_mult.
    rewrite (Rabs_right (sqrt (1 - e))), (Rabs_right (sqrt (1 + e))) by (apply Rle_ge, sqrt_pos). reflexivity. }
  rewrite sqrt_div_alt by lra. pose proof (sqrt_pos (1 + e)). pose proof (Rabs_pos (sin (t' - t))). pose proof (Rabs_pos (sin ((E' - E) / 2))).
  apply (Rmult_le_reg_l (sqrt (1 - e) * sqrt (1 - e))); [nra|].
  replace (sqrt (1 - e) * sqrt (1 - e) * (sqrt (1 + e) / sqrt (1 - e) * Rabs (sin ((E' - E) / 2))))
    with (sqrt (1 - e) * sqrt (1 + e) * Rabs (sin ((E' - E) / 2))) by (field; lra).
  rewrite <- Y. apply Rmult_le_compat_r; [assumption|]. apply Rmult_le_compat; lra.
Qed.
End Ellipse.
