(* Velocities from three positions: Gibbs, Gauss, Herrick-Gibbs. *)
From Coq Require Import Reals Lra Lia List String Nsatz Field.
From Coquelicot Require Import Coquelicot.
From Verif Require Import Base SphModel SphSpec SphProofs KepModel KepSpec KepElem LightModel FrameModel FrameProofs OdModel GaussModel GaussSpec GaussProofs.
Import ListNotations.
Open Scope R_scope.

Lemma MU_pos : 0 < MU < 1.
Proof. unfold MU. lra. Qed.

(* ---- Gibbs ---- *)
Lemma cross_cross : forall P Q v, cross (cross P Q) v = lin (- dot Q v) (dot P v) P Q.
Proof. intros [[? ?] ?] [[? ?] ?] [[? ?] ?]. unfold lin. cbn. vring. Qed.
Lemma cross_unit : forall P Q, dot P P = 1 -> dot Q Q = 1 -> dot P Q = 0 -> dot (cross P Q) (cross P Q) = 1.
Proof. intros P Q A B C. rewrite cross_len, A, B, C. ring. Qed.
Lemma scale_plus : forall a b u, vplus (scale a u) (scale b u) = scale (a + b) u.
Proof. intros a b [[? ?] ?]. cbn. vring. Qed.
Lemma scale_scale : forall a b u, scale a (scale b u) = scale (a * b) u.
Proof. intros a b [[? ?] ?]. cbn. vring. Qed.
Lemma cross_scale_l : forall a u v, cross (scale a u) v = scale a (cross u v).
Proof. intros a [[? ?] ?] [[? ?] ?]. cbn. vring. Qed.
Lemma norm_unit : forall k u, 0 <= k -> dot u u = 1 -> norm (scale k u) = k.
Proof. intros k u K U. apply norm_of; [exact K|]. rewrite dot_scale_l, dot_scale_r, U. ring. Qed.

Section GibbsPlane.
  Variables (P Q : vec) (x1 y1 x2 y2 x3 y3 m1 m2 m3 p e : R).
  Hypothesis (HP : dot P P = 1) (HQ : dot Q Q = 1) (HPQ : dot P Q = 0) (Hp : 0 < p).
  Hypothesis (M1 : x1 * x1 + y1 * y1 = m1 * m1) (M2 : x2 * x2 + y2 * y2 = m2 * m2) (M3 : x3 * x3 + y3 * y3 = m3 * m3).
  Hypothesis (N1 : 0 < m1) (N2 : 0 < m2) (N3 : 0 < m3).
  Hypothesis (E1 : m1 = p - e * x1) (E2 : m2 = p - e * x2) (E3 : m3 = p - e * x3).
  Let d := x1 * y2 - y1 * x2 + (x2 * y3 - y2 * x3) + (x3 * y1 - y3 * x1).
  Hypothesis Hd : 0 < d.

  Lemma plane_norm : forall x y m, 0 < m -> x * x + y * y = m * m -> norm (lin x y P Q) = m.
  Proof. intros x y m A B. apply norm_of; [lra|]. rewrite dot_lin, HP, HQ, HPQ. lra. Qed.
  Lemma gibbs_plane : calc_gibbs (lin x1 y1 P Q) (lin x2 y2 P Q) (lin x3 y3 P Q) =
    Some (lin (- sqrt (MU / p) * (y2 / m2)) (sqrt (MU / p) * (e + x2 / m2)) P Q).
  Proof.
    unfold calc_gibbs. rewrite (plane_norm x1 y1 m1), (plane_norm x2 y2 m2), (plane_norm x3 y3 m3) by assumption.
    rewrite !cross_lin, !scale_scale, !scale_plus. set (W := cross P Q).
    assert (HW : dot W W = 1) by (apply cross_unit; assumption).
    replace (m1 * (x2 * y3 - y2 * x3) + m2 * (x3 * y1 - y3 * x1) + m3 * (x1 * y2 - y1 * x2)) with (p * d) by (rewrite E1, E2, E3; unfold d; ring).
    replace (x1 * y2 - y1 * x2 + (x2 * y3 - y2 * x3) + (x3 * y1 - y3 * x1)) with d by (unfold d; ring).
    assert (HN : 0 < p * d) by (apply Rmult_lt_0_compat; assumption).
    rewrite !norm_unit by (assumption || lra).
    destruct (Req_EM_T (p * d) 0); [lra|]. destruct (Req_EM_T d 0); [lra|]. destruct (Req_EM_T m2 0); [lra|].
    rewrite cross_scale_l. unfold W. rewrite cross_cross.
    assert (DQ : dot Q (lin x2 y2 P Q) = y2) by (rewrite dot_lin_r, HQ, (dot_sym Q P), HPQ; ring).
    assert (DP : dot P (lin x2 y2 P Q) = x2) by (rewrite dot_lin_r, HP, HPQ; ring).
    rewrite DQ, DP, !scale_lin, !lin_lin, !scale_lin, lin_lin.
    assert (L : sqrt (MU / (p * d) / d) = sqrt (MU / p) / d).
    { pose proof MU_pos. replace (MU / (p * d) / d) with (MU / p / (d ^ 2)) by (field; lra). rewrite sqrt_div_alt by (apply pow_lt; assumption).
      rewrite sqrt_pow2 by lra. reflexivity. }
    rewrite L. f_equal. set (s := sqrt (MU / p)). 
    assert (S0 : (m2 - m3) * x1 + (m3 - m1) * x2 + (m1 - m2) * x3 = 0) by (rewrite E1, E2, E3; ring).
    assert (S1 : (m2 - m3) * y1 + (m3 - m1) * y2 + (m1 - m2) * y3 = e * d) by (rewrite E1, E2, E3; unfold d; ring).
    rewrite S0, S1. f_equal; field; lra.
  Qed.
End GibbsPlane.

Lemma sin_triangle : forall a b, 0 < a -> 0 < b -> a + b < 2 * PI -> 0 < sin a + sin b - sin (a + b).
Proof.
  intros a b A B H.
  assert (E : sin a + sin b - sin (a + b) = 4 * sin (a / 2) * sin (b / 2) * sin (a / 2 + b / 2)).
  { replace (sin a) with (sin (2 * (a / 2))) by (f_equal; field). replace (sin b) with (sin (2 * (b / 2))) by (f_equal; field).
    replace (a + b) with (2 * (a / 2) + 2 * (b / 2)) by field. rewrite !sin_plus, !sin_2a, !cos_2a.
    pose proof (sc1 (a / 2)) as X. pose proof (sc1 (b / 2)) as Y. set (s := sin (a / 2)) in *. set (c := cos (a / 2)) in *. set (t := sin (b / 2)) in *. set (f := cos (b / 2)) in *.
    clearbody s c t f. clear - X Y. nsatz. }
  rewrite E. assert (0 < sin (a / 2)) by (apply sin_gt_0; lra). assert (0 < sin (b / 2)) by (apply sin_gt_0; lra). assert (0 < sin (a / 2 + b / 2)) by (apply sin_gt_0; lra).
  repeat apply Rmult_lt_0_compat; lra.
Qed.
Lemma gibbs_exact : forall p e i raan ap n1 n2 n3, 0 < p ->
  n1 < n2 -> n2 < n3 -> n3 < n1 + 2 * PI -> 0 < 1 + e * cos n1 -> 0 < 1 + e * cos n2 -> 0 < 1 + e * cos n3 ->
  calc_gibbs (pos (conic_state p e i raan ap n1 MU)) (pos (conic_state p e i raan ap n2 MU)) (pos (conic_state p e i raan ap n3 MU)) =
  Some (vel (conic_state p e i raan ap n2 MU)).
Proof.
  intros p e i raan ap n1 n2 n3 Hp A B C K1 K2 K3. unfold conic_state, perifocal. cbv zeta. rewrite !pos_row, vel_row.
  fold (peri i raan ap) (along_track i raan ap). fold (lin (p * cos n1 / (1 + e * cos n1)) (p * sin n1 / (1 + e * cos n1)) (peri i raan ap) (along_track i raan ap)).
  fold (lin (p * cos n2 / (1 + e * cos n2)) (p * sin n2 / (1 + e * cos n2)) (peri i raan ap) (along_track i raan ap)).
  fold (lin (p * cos n3 / (1 + e * cos n3)) (p * sin n3 / (1 + e * cos n3)) (peri i raan ap) (along_track i raan ap)).
  assert (SQ : forall n, 0 < 1 + e * cos n -> p * cos n / (1 + e * cos n) * (p * cos n / (1 + e * cos n)) + p * sin n / (1 + e * cos n) * (p * sin n / (1 + e * cos n)) = p / (1 + e * cos n) * (p / (1 + e * cos n))).
  { intros n K. pose proof (sc1 n) as S. replace (p * sin n / (1 + e * cos n) * (p * sin n / (1 + e * cos n))) with (p / (1 + e * cos n) * (p / (1 + e * cos n)) * (sin n * sin n)) by (field; lra). rewrite S. field. lra. }
  rewrite (gibbs_plane _ _ _ _ _ _ _ _ (p / (1 + e * cos n1)) (p / (1 + e * cos n2)) (p / (1 + e * cos n3)) p e); auto using peri_1, track_1, peri_track, Rdiv_lt_0_compat; try (field; lra).
  - unfold lin. do 3 f_equal; field; lra.
  - set (d := _ + _ + _).
    assert (E : d = p ^ 2 / ((1 + e * cos n1) * (1 + e * cos n2) * (1 + e * cos n3)) * (sin (n2 - n1) + sin (n3 - n2) - sin (n2 - n1 + (n3 - n2)))).
    { replace (n2 - n1 + (n3 - n2)) with (n3 - n1) by ring. unfold d. rewrite !sin_minus. field. repeat split; lra. }
    rewrite E. apply Rmult_lt_0_compat; [|apply sin_triangle; lra]. apply Rdiv_lt_0_compat; [apply pow_lt; lra|repeat apply Rmult_lt_0_compat; lra].
Qed.
Lemma gibbs_reversed : forall r1 r2 r3, calc_gibbs r3 r2 r1 = option_map (scale (-1)) (calc_gibbs r1 r2 r3).
Proof.
  intros r1 r2 r3. unfold calc_gibbs.
  set (m1 := norm r1). set (m2 := norm r2). set (m3 := norm r3).
  assert (C : forall u v, cross u v = scale (-1) (cross v u)) by (intros [[? ?] ?] [[? ?] ?]; cbn; vring).
  assert (EN : vplus (vplus (scale m3 (cross r2 r1)) (scale m2 (cross r1 r3))) (scale m1 (cross r3 r2)) = scale (-1) (vplus (vplus (scale m1 (cross r2 r3)) (scale m2 (cross r3 r1))) (scale m3 (cross r1 r2)))).
  { clearbody m1 m2 m3. destruct r1 as [[? ?] ?], r2 as [[? ?] ?], r3 as [[? ?] ?]. cbn. vring. }
  assert (ED : vplus (vplus (cross r3 r2) (cross r2 r1)) (cross r1 r3) = scale (-1) (vplus (vplus (cross r1 r2) (cross r2 r3)) (cross r3 r1))).
  { destruct r1 as [[? ?] ?], r2 as [[? ?] ?], r3 as [[? ?] ?]. cbn. vring. }
  assert (ES : vplus (vplus (scale (m2 - m1) r3) (scale (m1 - m3) r2)) (scale (m3 - m2) r1) = scale (-1) (vplus (vplus (scale (m2 - m3) r1) (scale (m3 - m1) r2)) (scale (m1 - m2) r3))).
  { clearbody m1 m2 m3. destruct r1 as [[? ?] ?], r2 as [[? ?] ?], r3 as [[? ?] ?]. cbn. vring. }
  assert (NN : forall u, norm (scale (-1) u) = norm u) by (intro u; unfold norm; rewrite dot_scale_l, dot_scale_r; f_equal; ring).
  rewrite EN, ED, ES, !NN. set (N := vplus (vplus (scale m1 _) _) _). set (D := vplus (vplus (cross r1 r2) _) _). set (S := vplus (vplus (scale (m2 - m3) r1) _) _).
  destruct (Req_EM_T (norm N) 0); [reflexivity|]. destruct (Req_EM_T (norm D) 0); [reflexivity|]. destruct (Req_EM_T m2 0); [reflexivity|].
  cbn [option_map]. f_equal. set (L := sqrt _). rewrite cross_scale_l. set (B := cross D r2). clearbody L B S m2. destruct B as [[? ?] ?], S as [[? ?] ?]. cbn. vring.
Qed.

(* ---- a bound on a function from a bound on its derivative ---- *)
Lemma nonneg_deriv : forall (h h' : R -> R) T, 0 <= T -> (forall t, 0 <= t <= T -> is_derive h t (h' t)) -> (forall t, 0 <= t <= T -> 0 <= h' t) -> h 0 <= h T.
Proof.
  intros h h' T H D P.
  destruct (MVT_gen h 0 T h') as (c & Hc & E).
  - intros t Ht. rewrite Rmin_left, Rmax_right in Ht by lra. apply D. lra.
  - intros t Ht. rewrite Rmin_left, Rmax_right in Ht by lra. apply derivable_continuous_pt. exists (h' t). apply is_derive_Reals, D. lra.
  - rewrite Rmin_left, Rmax_right in Hc by lra. pose proof (P c Hc). assert (0 <= h' c * (T - 0)) by (apply Rmult_le_pos; lra). lra.
Qed.
Lemma boot : forall n K (g g' : R -> R) T, 0 <= T -> (forall t, 0 <= t <= T -> is_derive g t (g' t)) -> g 0 = 0 ->
  (forall t, 0 <= t <= T -> Rabs (g' t) <= K * (t ^ n / INR (fact n))) ->
  forall t, 0 <= t <= T -> Rabs (g t) <= K * (t ^ S n / INR (fact (S n))).
Proof.
  intros n K g g' T HT D G0 B t Ht.
  assert (F : 0 < INR (fact n)) by apply INR_fact_lt_0. assert (F' : INR (fact (S n)) = INR (S n) * INR (fact n)) by (change (fact (S n)) with ((S n) * fact n)%nat; apply mult_INR).
  assert (SN : 0 < INR (S n)) by (apply lt_0_INR; lia).
  assert (W : forall x, is_derive (fun t => K * (t ^ S n / INR (fact (S n)))) x (K * (x ^ n / INR (fact n)))).
  { intro x. set (q := INR (fact (S n))) in *. clearbody q. auto_derive; [trivial|]. rewrite F'. set (i := INR (fact n)) in *. clearbody i.
    change (match n with O => 1 | S _ => INR n + 1 end) with (INR (S n)). set (j := INR (S n)) in *. clearbody j. field. split; lra. }
  assert (Z : K * (0 ^ S n / INR (fact (S n))) = 0) by (rewrite pow_i by lia; unfold Rdiv; ring).
  apply Rabs_le. split.
  - pose proof (nonneg_deriv (fun t => K * (t ^ S n / INR (fact (S n))) + g t) (fun t => K * (t ^ n / INR (fact n)) + g' t) t ltac:(lra)) as M.
    cbv beta in M. rewrite G0, Z in M. assert (0 + 0 <= K * (t ^ S n / INR (fact (S n))) + g t); [|lra]. apply M.
    + intros s Hs. apply @is_derive_plus; [apply W|apply D; lra].
    + intros s Hs. specialize (B s ltac:(lra)). apply Rabs_def2_le in B || apply Rcomplements.Rabs_le_between in B. lra.
  - pose proof (nonneg_deriv (fun t => K * (t ^ S n / INR (fact (S n))) - g t) (fun t => K * (t ^ n / INR (fact n)) - g' t) t ltac:(lra)) as M.
    cbv beta in M. rewrite G0, Z in M. assert (0 - 0 <= K * (t ^ S n / INR (fact (S n))) - g t); [|lra]. apply M.
    + intros s Hs. apply @is_derive_minus; [apply W|apply D; lra].
    + intros s Hs. specialize (B s ltac:(lra)). apply Rcomplements.Rabs_le_between in B. lra.
Qed.

(* ---- Gauss's series on a circular orbit ---- *)
Lemma sin_low : forall x, 0 <= x -> x - x ^ 3 / 6 <= sin x <= x.
Proof.
  intros x X.
  assert (C1 : forall t, 0 <= t -> 1 - t ^ 2 / 2 <= cos t).
  { intros t T. pose proof (nonneg_deriv (fun t => cos t - (1 - t ^ 2 / 2)) (fun t => t - sin t) t T) as M. cbv beta in M. rewrite cos_0 in M.
    assert (1 - (1 - 0 ^ 2 / 2) <= cos t - (1 - t ^ 2 / 2)); [|lra]. apply M.
    - intros s S. auto_derive; [trivial|field].
    - intros s S. pose proof (nonneg_deriv (fun t => t - sin t) (fun t => 1 - cos t) s (proj1 S)) as M2. cbv beta in M2. rewrite sin_0 in M2.
      assert (0 - 0 <= s - sin s); [|lra]. apply M2; [intros; auto_derive; [trivial|ring]|]. intros u U. pose proof (COS_bound u). lra. }
  split.
  - pose proof (nonneg_deriv (fun t => sin t - (t - t ^ 3 / 6)) (fun t => cos t - (1 - t ^ 2 / 2)) x X) as M. cbv beta in M. rewrite sin_0 in M.
    assert (0 - (0 - 0 ^ 3 / 6) <= sin x - (x - x ^ 3 / 6)); [|lra]. apply M; [intros; auto_derive; [trivial|field]|]. intros s S. specialize (C1 s ltac:(lra)). lra.
  - pose proof (nonneg_deriv (fun t => t - sin t) (fun t => 1 - cos t) x X) as M2. cbv beta in M2. rewrite sin_0 in M2.
    assert (0 - 0 <= x - sin x); [|lra]. apply M2; [intros; auto_derive; [trivial|ring]|]. intros u U. pose proof (COS_bound u). lra.
Qed.
Lemma cos_quartic : forall x, 1 - x ^ 2 / 2 <= cos x <= 1 - x ^ 2 / 2 + x ^ 4 / 24.
Proof.
  assert (P : forall x, 0 <= x -> 1 - x ^ 2 / 2 <= cos x <= 1 - x ^ 2 / 2 + x ^ 4 / 24).
  { intros x X. split.
    - pose proof (nonneg_deriv (fun t => cos t - (1 - t ^ 2 / 2)) (fun t => t - sin t) x X) as M. cbv beta in M. rewrite cos_0 in M.
      assert (1 - (1 - 0 ^ 2 / 2) <= cos x - (1 - x ^ 2 / 2)); [|lra]. apply M; [intros; auto_derive; [trivial|field]|]. intros s S. pose proof (sin_low s ltac:(lra)). lra.
    - pose proof (nonneg_deriv (fun t => 1 - t ^ 2 / 2 + t ^ 4 / 24 - cos t) (fun t => sin t - (t - t ^ 3 / 6)) x X) as M. cbv beta in M. rewrite cos_0 in M.
      assert (1 - 0 ^ 2 / 2 + 0 ^ 4 / 24 - 1 <= 1 - x ^ 2 / 2 + x ^ 4 / 24 - cos x); [|lra]. apply M; [intros; auto_derive; [trivial|field]|]. intros s S. pose proof (sin_low s ltac:(lra)). lra. }
  intro x. destruct (Rle_dec 0 x) as [X|X]; [apply P, X|]. specialize (P (- x) ltac:(lra)). rewrite cos_neg in P. replace ((- x) ^ 2) with (x ^ 2) in P by ring. replace ((- x) ^ 4) with (x ^ 4) in P by ring. exact P.
Qed.
Lemma f_series : forall r n dt, 0 < r -> Rabs (lagrange_f r dt (n ^ 2 * r ^ 3) - cos (n * dt)) <= (n * dt) ^ 4 / 24.
Proof.
  intros r n dt R. pose proof (cos_quartic (n * dt)) as C. unfold lagrange_f. replace (1 / 2 * (n ^ 2 * r ^ 3) / r ^ 3 * dt ^ 2) with ((n * dt) ^ 2 / 2) by (field; lra).
  apply Rabs_le. lra.
Qed.
Lemma sin_abs_cubic : forall x, Rabs (x - sin x) <= Rabs x ^ 3 / 6.
Proof.
  intro x. destruct (Rle_dec 0 x) as [X|X].
  - pose proof (sin_low x X). rewrite (Rabs_right x) by lra. rewrite Rabs_right by lra. lra.
  - pose proof (sin_low (- x) ltac:(lra)) as S. rewrite sin_neg in S. rewrite (Rabs_left x) by lra. rewrite Rabs_left1 by lra. lra.
Qed.
Lemma g_series : forall r n dt, 0 < r -> 0 < n -> Rabs (lagrange_g r dt (n ^ 2 * r ^ 3) - sin (n * dt) / n) <= n ^ 2 * dt ^ 2 * (1 + Rabs dt) / 6.
Proof.
  intros r n dt R N. pose proof (sin_abs_cubic (n * dt)) as S. unfold lagrange_g. replace (1 / 6 * (n ^ 2 * r ^ 3) / r ^ 3 * dt ^ 2) with (n ^ 2 * dt ^ 2 / 6) by (field; lra).
  rewrite Rabs_mult, (Rabs_right n) in S by lra.
  replace (dt - n ^ 2 * dt ^ 2 / 6 - sin (n * dt) / n) with ((n * dt - sin (n * dt)) / n + - (n ^ 2 * dt ^ 2 / 6)) by (field; lra).
  eapply Rle_trans; [apply Rabs_triang|]. rewrite Rabs_Ropp. unfold Rdiv at 1. rewrite Rabs_mult, (Rabs_right (/ n)) by (apply Rle_ge, Rlt_le, Rinv_0_lt_compat; lra).
  assert (A : Rabs (n * dt - sin (n * dt)) * / n <= (n * Rabs dt) ^ 3 / 6 * / n) by (apply Rmult_le_compat_r; [apply Rlt_le, Rinv_0_lt_compat; lra|exact S]).
  assert (Q : 0 <= n ^ 2 * dt ^ 2 / 6) by (pose proof (pow2_ge_0 (n * dt)); nra). rewrite (Rabs_right (n ^ 2 * dt ^ 2 / 6)) by lra.
  replace ((n * Rabs dt) ^ 3 / 6 * / n) with (n ^ 2 * (Rabs dt ^ 2) * Rabs dt / 6) in A by (field; lra). rewrite pow2_abs in A. lra.
Qed.
Lemma g_not_third : forall r n K d, 0 < r -> 0 < n -> 0 < K -> 0 < d -> exists dt, 0 < dt < d /\ K * dt ^ 3 < Rabs (lagrange_g r dt (n ^ 2 * r ^ 3) - sin (n * dt) / n).
Proof.
  intros r n K d R N HK D. set (b := n ^ 2 / (6 * K + n ^ 2)). assert (n2 : 0 < n ^ 2) by (apply pow_lt; lra).
  assert (Hb : 0 < b) by (apply Rdiv_lt_0_compat; lra).
  set (dt := Rmin d b / 2). assert (T : 0 < dt /\ dt < d /\ dt < b).
  { unfold dt. pose proof (Rmin_l d b). pose proof (Rmin_r d b). assert (0 < Rmin d b) by (apply Rmin_glb_lt; assumption). repeat split; lra. }
  exists dt. split; [lra|]. clearbody dt. unfold lagrange_g. replace (1 / 6 * (n ^ 2 * r ^ 3) / r ^ 3 * dt ^ 2) with (n ^ 2 * dt ^ 2 / 6) by (field; lra).
  pose proof (sin_low (n * dt) ltac:(nra)) as [S _].
  assert (G : dt - n ^ 2 * dt ^ 3 / 6 <= sin (n * dt) / n).
  { apply (Rmult_le_reg_l n); [lra|]. replace (n * (sin (n * dt) / n)) with (sin (n * dt)) by (field; lra). nra. }
  assert (L : dt * (6 * K + n ^ 2) < n ^ 2) by (apply Rlt_le_trans with (b * (6 * K + n ^ 2)); [apply Rmult_lt_compat_r; lra|unfold b; right; field; lra]).
  rewrite Rabs_left1.
  - assert (0 < dt ^ 2) by (apply pow_lt; lra). assert (dt ^ 2 * (dt * (6 * K + n ^ 2)) < dt ^ 2 * n ^ 2) by (apply Rmult_lt_compat_l; lra). nra.
  - assert (dt < 1) by nra. assert (0 < dt ^ 2) by (apply pow_lt; lra). nra.
Qed.

(* ---- Herrick-Gibbs ---- *)
Section Herrick1.
  Variables (f : nat -> R -> R) (t1 t2 t3 K : R).
  Hypothesis (H12 : t1 < t2) (H23 : t2 < t3).
  Hypothesis smooth : forall k t, (k < 5)%nat -> t1 <= t <= t3 -> is_derive (f k) t (f (S k) t).
  Hypothesis bound : forall t, t1 <= t <= t3 -> Rabs (f 5%nat t) <= K.

  Section Side.
  Variables (s T : R).
  Hypothesis (HS : s = 1 \/ s = -1) (HT : 0 < T) (IN : forall t, 0 <= t <= T -> t1 <= t2 + s * t <= t3).
  Let c k := f k t2.
  Lemma side_deriv : forall k t, (k < 5)%nat -> 0 <= t <= T -> is_derive (fun t => f k (t2 + s * t)) t (s * f (S k) (t2 + s * t)).
  Proof.
    intros k t Hk Ht. apply (is_derive_comp (f k) (fun t => t2 + s * t) t (f (S k) (t2 + s * t)) s).
    - apply smooth; [exact Hk|apply IN; exact Ht].
    - auto_derive; [trivial|ring].
  Qed.
  Lemma abs_s : forall x, Rabs (s * x) = Rabs x.
  Proof. intro x. rewrite Rabs_mult. destruct HS as [->| ->]; [rewrite Rabs_R1|rewrite (Rabs_left (-1)) by lra]; ring. Qed.
  Let g4 t := f 4%nat (t2 + s * t) - c 4%nat.
  Let g3 t := f 3%nat (t2 + s * t) - (c 3%nat + c 4%nat * (s * t)).
  Let g2 t := f 2%nat (t2 + s * t) - (c 2%nat + c 3%nat * (s * t) + c 4%nat * (s * t) ^ 2 / 2).
  Let g1 t := f 1%nat (t2 + s * t) - (c 1%nat + c 2%nat * (s * t) + c 3%nat * (s * t) ^ 2 / 2 + c 4%nat * (s * t) ^ 3 / 6).
  Let g0 t := f 0%nat (t2 + s * t) - (c 0%nat + c 1%nat * (s * t) + c 2%nat * (s * t) ^ 2 / 2 + c 3%nat * (s * t) ^ 3 / 6 + c 4%nat * (s * t) ^ 4 / 24).
  Lemma taylor_side : forall t, 0 <= t <= T -> Rabs (g0 t) <= K * (t ^ 5 / 120) /\ Rabs (g2 t) <= K * (t ^ 3 / 6).
  Proof.
    assert (Z : t2 + s * 0 = t2) by ring.
    assert (B4 : forall t, 0 <= t <= T -> Rabs (g4 t) <= K * (t ^ 1 / INR (fact 1))).
    { apply (boot 0 K g4 (fun t => s * f 5%nat (t2 + s * t) - 0)); [lra| | |].
      - intros t Ht. apply @is_derive_minus; [apply side_deriv; [lia|exact Ht]|apply @is_derive_const].
      - unfold g4. rewrite Z. unfold c. ring.
      - intros t Ht. rewrite Rminus_0_r, abs_s. cbn. replace (K * (1 / 1)) with K by field. apply bound, IN, Ht. }
    assert (B3 : forall t, 0 <= t <= T -> Rabs (g3 t) <= K * (t ^ 2 / INR (fact 2))).
    { apply (boot 1 K g3 (fun t => s * g4 t)); [lra| | |].
      - intros t Ht. unfold g4. replace (s * (f 4%nat (t2 + s * t) - c 4%nat)) with (s * f 4%nat (t2 + s * t) - s * c 4%nat) by ring.
        apply @is_derive_minus; [apply side_deriv; [lia|exact Ht]|auto_derive; [trivial|ring]].
      - unfold g3. rewrite Z. unfold c. ring.
      - intros t Ht. rewrite abs_s. apply B4, Ht. }
    assert (B2 : forall t, 0 <= t <= T -> Rabs (g2 t) <= K * (t ^ 3 / INR (fact 3))).
    { apply (boot 2 K g2 (fun t => s * g3 t)); [lra| | |].
      - intros t Ht. unfold g3. rewrite Rmult_minus_distr_l.
        apply @is_derive_minus; [apply side_deriv; [lia|exact Ht]|auto_derive; [trivial|field]].
      - unfold g2. rewrite Z. unfold c. field.
      - intros t Ht. rewrite abs_s. apply B3, Ht. }
    assert (B1 : forall t, 0 <= t <= T -> Rabs (g1 t) <= K * (t ^ 4 / INR (fact 4))).
    { apply (boot 3 K g1 (fun t => s * g2 t)); [lra| | |].
      - intros t Ht. unfold g2. rewrite Rmult_minus_distr_l.
        apply @is_derive_minus; [apply side_deriv; [lia|exact Ht]|auto_derive; [trivial|field]].
      - unfold g1. rewrite Z. unfold c. field.
      - intros t Ht. rewrite abs_s. apply B2, Ht. }
    assert (B0 : forall t, 0 <= t <= T -> Rabs (g0 t) <= K * (t ^ 5 / INR (fact 5))).
    { apply (boot 4 K g0 (fun t => s * g1 t)); [lra| | |].
      - intros t Ht. unfold g1. rewrite Rmult_minus_distr_l.
        apply @is_derive_minus; [apply side_deriv; [lia|exact Ht]|auto_derive; [trivial|field]].
      - unfold g0. rewrite Z. unfold c. field.
      - intros t Ht. rewrite abs_s. apply B1, Ht. }
    intros t Ht. split.
    - replace 120 with (INR (fact 5)) by (cbn; ring). apply B0, Ht.
    - replace 6 with (INR (fact 3)) by (cbn; ring). apply B2, Ht.
  Qed.
  End Side.

  Let a := t2 - t1. Let b := t3 - t2.
  (* the formula of herrick_gibbs.py with the accelerations in place of - MU r / |r|^3 *)
  Lemma herrick_component :
    Rabs (- b / (a * (a + b)) * f 0%nat t1 + (b - a) / (a * b) * f 0%nat t2 + a / (b * (a + b)) * f 0%nat t3
          + (b * f 2%nat t1 - (b - a) * f 2%nat t2 - a * f 2%nat t3) / 12 - f 1%nat t2) <= K * (a * b * (a ^ 2 + b ^ 2)) / 45.
  Proof.
    assert (A : 0 < a) by (unfold a; lra). assert (B : 0 < b) by (unfold b; lra).
    destruct (taylor_side (-1) a (or_intror eq_refl) A ltac:(intros; unfold a in *; lra) a ltac:(lra)) as [L0 L2].
    destruct (taylor_side 1 b (or_introl eq_refl) B ltac:(intros; unfold b in *; lra) b ltac:(lra)) as [R0 R2].
    replace (t2 + -1 * a) with t1 in L0, L2 by (unfold a; ring). replace (t2 + 1 * b) with t3 in R0, R2 by (unfold b; ring).
    set (c0 := f 0%nat t2) in *. set (c1 := f 1%nat t2) in *. set (c2 := f 2%nat t2) in *. set (c3 := f 3%nat t2) in *. set (c4 := f 4%nat t2) in *.
    set (e0 := f 0%nat t1 - _) in L0. set (e2 := f 2%nat t1 - _) in L2. set (h0 := f 0%nat t3 - _) in R0. set (h2 := f 2%nat t3 - _) in R2.
    assert (E : - b / (a * (a + b)) * f 0%nat t1 + (b - a) / (a * b) * c0 + a / (b * (a + b)) * f 0%nat t3 + (b * f 2%nat t1 - (b - a) * c2 - a * f 2%nat t3) / 12 - c1
              = - (b / (a * (a + b)) * e0) + a / (b * (a + b)) * h0 + b / 12 * e2 + - (a / 12 * h2)).
    { unfold e0, e2, h0, h2. clear - A B. clearbody c0 c1 c2 c3 c4 a b. field. repeat split; lra. }
    rewrite E.
    assert (K0 : 0 <= K) by (eapply Rle_trans; [apply Rabs_pos|apply (bound t2); lra]).
    assert (W1 : 0 <= b / (a * (a + b))) by (apply Rlt_le, Rdiv_lt_0_compat; nra). assert (W3 : 0 <= a / (b * (a + b))) by (apply Rlt_le, Rdiv_lt_0_compat; nra).
    eapply Rle_trans; [eapply Rle_trans; [apply Rabs_triang|apply Rplus_le_compat_r; eapply Rle_trans; [apply Rabs_triang|apply Rplus_le_compat_r; apply Rabs_triang]]|].
    rewrite !Rabs_Ropp, !Rabs_mult. rewrite (Rabs_right (b / (a * (a + b)))), (Rabs_right (a / (b * (a + b)))), (Rabs_right (b / 12)), (Rabs_right (a / 12)) by lra.
    assert (S1 : b / (a * (a + b)) * Rabs e0 <= b / (a * (a + b)) * (K * (a ^ 5 / 120))) by (apply Rmult_le_compat_l; assumption).
    assert (S2 : a / (b * (a + b)) * Rabs h0 <= a / (b * (a + b)) * (K * (b ^ 5 / 120))) by (apply Rmult_le_compat_l; assumption).
    assert (S3 : b / 12 * Rabs e2 <= b / 12 * (K * (a ^ 3 / 6))) by (apply Rmult_le_compat_l; lra).
    assert (S4 : a / 12 * Rabs h2 <= a / 12 * (K * (b ^ 3 / 6))) by (apply Rmult_le_compat_l; lra).
    assert (SUM : b / (a * (a + b)) * (K * (a ^ 5 / 120)) + a / (b * (a + b)) * (K * (b ^ 5 / 120)) + b / 12 * (K * (a ^ 3 / 6)) + a / 12 * (K * (b ^ 3 / 6))
                = K * (a * b) * (a ^ 2 - a * b + b ^ 2) / 120 + K * (a * b) * (a ^ 2 + b ^ 2) / 72) by (field; lra).
    assert (AB : 0 <= K * (a * b) * (a * b)) by (repeat apply Rmult_le_pos; lra).
    assert (F : K * (a * b) * (a ^ 2 - a * b + b ^ 2) / 120 <= K * (a * b) * (a ^ 2 + b ^ 2) / 120) by (apply Rmult_le_compat_r; [lra|]; lra).
    lra.
  Qed.
End Herrick1.
