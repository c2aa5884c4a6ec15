(* Phase angle and phase correction. *)
From Coq Require Import Reals Lra Lia.
From Coq Require Import List String Bool.
From Verif Require Import Base BandModel SphModel SphProofs KepModel KepElem UnivOrbit UnivUnique PhotModel PhotSpec PhotState.
Import ListNotations.
Open Scope R_scope.

Lemma sqrt2_pos : 0 < sqrt 2. Proof. apply sqrt_lt_R0. lra. Qed.

(* half-angle form of acos *)
Lemma half_angle c : -1 <= c <= 1 ->
  sqrt (1 - c) = sqrt 2 * sin (acos c / 2) /\ sqrt (1 + c) = sqrt 2 * cos (acos c / 2).
Proof.
  intros Hc. pose proof (acos_bound c) as B. pose proof PI_RGT_0 as P.
  assert (C : cos (acos c) = c) by (apply cos_acos; lra).
  set (a := acos c / 2) in *. assert (E : acos c = 2 * a) by (unfold a; field).
  assert (S0 : 0 <= sin a) by (apply sin_ge_0; lra).
  assert (C0 : 0 <= cos a) by (apply cos_ge_0; lra).
  rewrite E in C. pose proof (sin2_cos2 a) as T. unfold Rsqr in T.
  rewrite cos_2a in C. split.
  - replace (1 - c) with (2 * (sin a * sin a)) by lra. rewrite sqrt_mult by nra. now rewrite sqrt_square by exact S0.
  - replace (1 + c) with (2 * (cos a * cos a)) by lra. rewrite sqrt_mult by nra. now rewrite sqrt_square by exact C0.
Qed.

Lemma atan2_half c : -1 <= c <= 1 -> 2 * atan2 (sqrt (1 - c)) (sqrt (1 + c)) = acos c.
Proof.
  intros Hc. destruct (half_angle c Hc) as [-> ->]. set (a := acos c / 2).
  pose proof (acos_bound c) as B. pose proof PI_RGT_0 as P. pose proof sqrt2_pos as Q.
  assert (Ha : 0 <= a <= PI / 2) by (unfold a; lra).
  enough (atan2 (sqrt 2 * sin a) (sqrt 2 * cos a) = a) as -> by (unfold a; field).
  unfold atan2. destruct (Rlt_dec 0 (sqrt 2 * cos a)) as [H|H].
  - assert (0 < cos a) by (destruct (Rle_lt_dec (cos a) 0); [nra|lra]).
    assert (a <> PI / 2) by (intros E; rewrite E, cos_PI2 in *; lra).
    replace (sqrt 2 * sin a / (sqrt 2 * cos a)) with (tan a) by (unfold tan; field; lra).
    apply atan_tan. lra.
  - assert (a = PI / 2) as ->.
    { destruct (Req_dec a (PI / 2)); [assumption|]. exfalso. apply H. apply Rmult_lt_0_compat; [lra|]. apply cos_gt_0; lra. }
    rewrite cos_PI2, sin_PI2, Rmult_0_r. destruct (Rlt_dec 0 0); [lra|].
    repeat match goal with |- context [Rlt_dec ?x ?y] => destruct (Rlt_dec x y) end;
    repeat match goal with |- context [Rle_dec ?x ?y] => destruct (Rle_dec x y) end; try lra.
Qed.

Lemma norm_neg u : norm (scale (-1) u) = norm u.
Proof. unfold norm. f_equal. destruct u as [[a b] c]. cbn. ring. Qed.

Lemma norm_minus u w : norm (vplus u (scale (-1) w)) = norm (vplus w (scale (-1) u)).
Proof. unfold norm. f_equal. destruct u as [[a b] c], w as [[x y] z]. cbn. ring. Qed.

Lemma cos_phase_dot obj obs : 0 < norm obj -> 0 < norm (vplus obj (scale (-1) obs)) ->
  let q := dot (scale (-1) obj) (vplus obs (scale (-1) obj)) / (norm (scale (-1) obj) * norm (vplus obs (scale (-1) obj))) in
  cos_phase obj obs = q /\ -1 <= q <= 1.
Proof.
  intros P Q q. rewrite norm_minus in Q.
  assert (B : -1 <= q <= 1).
  { unfold q. pose proof (cauchy (scale (-1) obj) (vplus obs (scale (-1) obj))) as C.
    rewrite norm_neg in *. set (D := norm obj * norm (vplus obs (scale (-1) obj))) in *.
    assert (0 < D) by (apply Rmult_lt_0_compat; assumption).
    assert (-D <= dot (scale (-1) obj) (vplus obs (scale (-1) obj)) <= D) as [C1 C2].
    { split; [|eapply Rle_trans; [apply Rle_abs|exact C]].
      pose proof (Rle_abs (- dot (scale (-1) obj) (vplus obs (scale (-1) obj)))) as A. rewrite Rabs_Ropp in A. lra. }
    split; apply Rmult_le_reg_r with D; auto; unfold Rdiv; rewrite Rmult_assoc, Rinv_l by lra; lra. }
  split; [|exact B]. unfold cos_phase. rewrite norm_minus.
  assert (E : (norm obj * norm obj + norm (vplus obs (scale (-1) obj)) * norm (vplus obs (scale (-1) obj)) - norm obs * norm obs)
            = 2 * dot (scale (-1) obj) (vplus obs (scale (-1) obj))).
  { replace (norm obj * norm obj) with (norm obj ^ 2) by ring.
    replace (norm obs * norm obs) with (norm obs ^ 2) by ring.
    replace (norm (vplus obs (scale (-1) obj)) * norm (vplus obs (scale (-1) obj))) with (norm (vplus obs (scale (-1) obj)) ^ 2) by ring.
    rewrite !norm_sq. destruct obj as [[a b] c], obs as [[x y] z]. cbn. ring. }
  rewrite E. replace (2 * dot (scale (-1) obj) (vplus obs (scale (-1) obj)) / (2 * norm obj * norm (vplus obs (scale (-1) obj)))) with q.
  - unfold clip1. rewrite Rmax_left by lra. rewrite Rmin_left by lra. reflexivity.
  - unfold q. rewrite norm_neg. field. lra.
Qed.

Lemma geometry_iff obj obs : geometry_ok obj obs = true <-> 0 < norm obj /\ 0 < norm (vplus obj (scale (-1) obs)).
Proof.
  unfold geometry_ok. destruct (Rlt_dec 0 (norm obj)), (Rlt_dec 0 (norm (vplus obj (scale (-1) obs)))); cbn; split; intros H; try discriminate; tauto.
Qed.

Lemma phase_is_angle obj obs : geometry_ok obj obs = true -> phase_angle obj obs = degrees (angle_at obj obs).
Proof.
  intros H. apply geometry_iff in H as [P Q]. destruct (cos_phase_dot obj obs P Q) as [E B].
  unfold phase_angle, angle_at, degrees. rewrite E. set (q := _ / _) in *.
  rewrite !Rmax_right by lra. now rewrite atan2_half.
Qed.

(* ---- phase functions ---- *)
Lemma power_mono p s t : 0 < p -> 0 <= s < t -> power s p < power t p.
Proof.
  intros Hp H. unfold power. destruct (Rlt_dec 0 t); [|lra]. destruct (Rlt_dec 0 s).
  - unfold Rpower. apply exp_increasing, Rmult_lt_compat_l; [lra|]. apply ln_increasing; lra.
  - apply exp_pos.
Qed.
Lemma power_0 p : power 0 p = 0.
Proof. unfold power. destruct (Rlt_dec 0 0); lra. Qed.

Definition phase_fn (G t : R) : R := (1 - G) * phi1 t + G * phi2 t.

Lemma phi_pos t : 0 < phi1 t /\ 0 < phi2 t.
Proof. split; apply exp_pos. Qed.
Lemma phase_pos G t : 0 <= G <= 1 -> 0 < phase_fn G t.
Proof. intros H. unfold phase_fn. destruct (phi_pos t). destruct (Req_dec G 0) as [->|]; nra. Qed.
Lemma phase_0 G : phase_fn G 0 = 1.
Proof. unfold phase_fn, phi1, phi2. rewrite !power_0, !Rmult_0_r, exp_0. ring. Qed.
Lemma phase_dec G s t : 0 <= G <= 1 -> 0 <= s < t -> phase_fn G t < phase_fn G s.
Proof.
  intros HG H. unfold phase_fn.
  assert (phi1 t < phi1 s).
  { apply exp_increasing. pose proof (power_mono (63 / 100) s t ltac:(lra) H). lra. }
  assert (phi2 t < phi2 s).
  { apply exp_increasing. pose proof (power_mono (122 / 100) s t ltac:(lra) H). lra. }
  destruct (Req_dec G 0) as [->|]; nra.
Qed.

Lemma ln10_pos : 0 < ln 10.
Proof. rewrite <- ln_1. apply ln_increasing; lra. Qed.
Lemma log10_mono x y : 0 < x -> x < y -> log10 x < log10 y.
Proof.
  intros Hx H. unfold log10, Rdiv. apply Rmult_lt_compat_r; [apply Rinv_0_lt_compat, ln10_pos|]. now apply ln_increasing.
Qed.
Lemma log10_1 : log10 1 = 0.
Proof. unfold log10. rewrite ln_1. unfold Rdiv. ring. Qed.

Lemma tan_of_cos c : -1 < c <= 1 -> sqrt ((1 - c) / (1 + c)) = tan (acos c / 2).
Proof.
  intros Hc. rewrite sqrt_div_alt by lra. destruct (half_angle c) as [-> ->]; [lra|].
  pose proof sqrt2_pos. unfold tan.
  assert (0 < cos (acos c / 2)).
  { pose proof (acos_bound c) as B. assert (acos c <> PI).
    { intros E. assert (cos (acos c) = c) as X by (apply cos_acos; lra). rewrite E, cos_PI in X. lra. }
    apply cos_gt_0; pose proof PI_RGT_0; lra. }
  field. lra.
Qed.

Lemma t_mono c c' : -1 < c' < c -> c <= 1 -> 0 <= sqrt ((1 - c) / (1 + c)) < sqrt ((1 - c') / (1 + c')).
Proof.
  intros H H1. split; [apply sqrt_pos|]. apply sqrt_lt_1.
  - apply Rmult_le_pos; [lra|]. left. apply Rinv_0_lt_compat. lra.
  - apply Rmult_le_pos; [lra|]. left. apply Rinv_0_lt_compat. lra.
  - apply Rmult_lt_reg_r with ((1 + c) * (1 + c')); [nra|].
    replace ((1 - c) / (1 + c) * ((1 + c) * (1 + c'))) with ((1 - c) * (1 + c')) by (field; lra).
    replace ((1 - c') / (1 + c') * ((1 + c) * (1 + c'))) with ((1 - c') * (1 + c)) by (field; lra). nra.
Qed.

Lemma correction_value c G : -1 < c <= 1 -> 0 <= G <= 1 ->
  correction_from_cos c G = Some (- 5 / 2 * log10 (phase_fn G (sqrt ((1 - c) / (1 + c))))).
Proof.
  intros Hc HG. unfold correction_from_cos. destruct (Rlt_dec (-1) c); [|lra].
  fold (phase_fn G (sqrt ((1 - c) / (1 + c)))).
  destruct (Rlt_dec 0 (phase_fn G (sqrt ((1 - c) / (1 + c))))) as [|N]; [reflexivity|]. exfalso. apply N. now apply phase_pos.
Qed.

Lemma correction_opposition G : 0 <= G <= 1 -> correction_from_cos 1 G = Some 0.
Proof.
  intros HG. rewrite correction_value by lra. f_equal.
  replace ((1 - 1) / (1 + 1)) with 0 by field. rewrite sqrt_0, phase_0, log10_1. ring.
Qed.

Lemma correction_mono c c' G x x' : 0 <= G <= 1 -> -1 < c' < c -> c <= 1 ->
  correction_from_cos c G = Some x -> correction_from_cos c' G = Some x' -> x < x'.
Proof.
  intros HG H H1. rewrite !correction_value by lra. intros [= <-] [= <-].
  pose proof (t_mono c c' H H1) as T. pose proof (phase_dec G _ _ HG T) as D.
  pose proof (log10_mono _ _ (phase_pos G _ HG) D). lra.
Qed.

Lemma hg_value alpha G : 0 <= alpha < 180 ->
  hg_phase_correction alpha G = - 5 / 2 * log10 (Rmax (phase_fn G (sqrt ((1 - cos (radians alpha)) / (1 + cos (radians alpha))))) (1 / 1000000000000)).
Proof.
  intros Ha. unfold hg_phase_correction. fold (phase_fn G (tan (radians alpha / 2))).
  pose proof PI_RGT_0 as P.
  assert (R1 : 0 <= radians alpha < PI).
  { unfold radians. split; [apply Rmult_le_pos; [lra|]; apply Rmult_le_pos; lra|].
    replace PI with (180 * (PI / 180)) at 2 by field. apply Rmult_lt_compat_r; [|lra]. lra. }
  assert (C : -1 < cos (radians alpha) <= 1).
  { split; [|apply COS_bound]. rewrite <- cos_PI. apply cos_decreasing_1; lra. }
  rewrite tan_of_cos by exact C. rewrite acos_cos by lra. reflexivity.
Qed.

Lemma hg_zero G : hg_phase_correction 0 G = 0.
Proof.
  rewrite hg_value by lra. unfold radians. rewrite Rmult_0_l, cos_0.
  replace ((1 - 1) / (1 + 1)) with 0 by field. rewrite sqrt_0, phase_0. rewrite Rmax_left by lra. rewrite log10_1. ring.
Qed.

Lemma radians_range alpha : 0 <= alpha < 180 -> 0 <= radians alpha < PI.
Proof.
  intros Ha. pose proof PI_RGT_0 as P. unfold radians. split; [apply Rmult_le_pos; [lra|]; apply Rmult_le_pos; lra|].
  replace PI with (180 * (PI / 180)) at 2 by field. apply Rmult_lt_compat_r; [|lra]. lra.
Qed.
Lemma cos_range alpha : 0 <= alpha < 180 -> -1 < cos (radians alpha) <= 1.
Proof.
  intros Ha. pose proof (radians_range _ Ha). pose proof PI_RGT_0 as P.
  split; [|apply COS_bound]. rewrite <- cos_PI. apply cos_decreasing_1; lra.
Qed.

Lemma hg_mono G a b : 0 <= G <= 1 -> 0 <= a < b -> b < 180 -> hg_phase_correction a G <= hg_phase_correction b G.
Proof.
  intros HG H Hb. rewrite !hg_value by lra.
  pose proof (cos_range a ltac:(lra)) as Ca. pose proof (cos_range b ltac:(lra)) as Cb.
  pose proof (radians_range a ltac:(lra)) as Ra. pose proof (radians_range b ltac:(lra)) as Rb.
  pose proof PI_RGT_0 as P.
  assert (L : cos (radians b) < cos (radians a)).
  { apply cos_decreasing_1; try lra. unfold radians. apply Rmult_lt_compat_r; [|lra]. lra. }
  pose proof (t_mono _ _ (conj (proj1 Cb) L) (proj2 Ca)) as T. pose proof (phase_dec G _ _ HG T) as D.
  set (x := phase_fn G (sqrt ((1 - cos (radians a)) / (1 + cos (radians a))))) in *. set (y := phase_fn G (sqrt ((1 - cos (radians b)) / (1 + cos (radians b))))) in *.
  destruct (Req_dec (Rmax y (1 / 1000000000000)) (Rmax x (1 / 1000000000000))) as [->|N]; [lra|].
  assert (Rmax y (1 / 1000000000000) <= Rmax x (1 / 1000000000000)) by (apply Rle_max_compat_r; lra).
  assert (0 < Rmax y (1 / 1000000000000)) by (eapply Rlt_le_trans; [|apply Rmax_r]; lra).
  pose proof (log10_mono (Rmax y (1 / 1000000000000)) (Rmax x (1 / 1000000000000)) ltac:(assumption) ltac:(lra)). lra.
Qed.

(* the two implementations: equal above the floor, different below it *)
Lemma hg_same alpha G x : 0 <= alpha < 180 -> 0 <= G <= 1 ->
  correction_from_cos (cos (radians alpha)) G = Some x ->
  hg_phase_correction alpha G = Rmin x 30.
Proof.
  intros Ha HG. rewrite correction_value by (auto; now apply cos_range). intros [= <-].
  rewrite hg_value by exact Ha. set (p := phase_fn G _).
  assert (Hp : 0 < p) by now apply phase_pos.
  assert (L : log10 (1 / 1000000000000) = -12).
  { unfold log10. replace (1 / 1000000000000) with (/ (10 ^ 12)) by (unfold Rdiv; rewrite Rmult_1_l; f_equal; ring).
    rewrite ln_Rinv by lra. rewrite <- (Rpower_pow 12) by lra. unfold Rpower. rewrite ln_exp.
    replace (INR 12) with 12 by (cbn; ring). field. pose proof ln10_pos. lra. }
  unfold Rmax. destruct (Rle_dec p (1 / 1000000000000)) as [Hle|Hgt].
  - rewrite L. rewrite Rmin_right; [lra|]. 
    destruct (Req_dec p (1 / 1000000000000)) as [E|E]; [rewrite E, L; lra|].
    pose proof (log10_mono p (1 / 1000000000000) Hp ltac:(lra)). lra.
  - rewrite Rmin_left; [reflexivity|].
    pose proof (log10_mono (1 / 1000000000000) p ltac:(lra) ltac:(lra)). lra.
Qed.

Lemma exp_big : 1000000000000 < exp 333.
Proof.
  replace 333 with (INR 10 * (333 / 10)) by (cbn; lra). rewrite <- Rpower_1 with (x := exp (INR 10 * (333 / 10))) by apply exp_pos.
  rewrite Rpower_1 by apply exp_pos.
  assert (E : forall n x, exp (INR n * x) = exp x ^ n).
  { induction n as [|n IH]; intros x; [cbn; rewrite Rmult_0_l; apply exp_0|].
    rewrite S_INR. replace ((INR n + 1) * x) with (x + INR n * x) by ring. rewrite exp_plus, IH. reflexivity. }
  rewrite E. pose proof (exp_ineq1 (333 / 10) ltac:(lra)) as B.
  apply Rlt_le_trans with (34 ^ 10); [lra|]. apply pow_incr. lra.
Qed.

Lemma faint_power t : 1000000 <= t -> 100 <= power t (63 / 100).
Proof.
  intros Ht. unfold power. destruct (Rlt_dec 0 t); [|lra].
  apply Rle_trans with (Rpower (10 ^ 6) (63 / 100)).
  - rewrite <- (Rpower_pow 6) by lra. rewrite Rpower_mult. replace 100 with (10 ^ 2) at 1 by ring.
    rewrite <- (Rpower_pow 2) by lra. apply Rle_Rpower; [lra|]. cbn. lra.
  - apply Rle_Rpower_l; lra.
Qed.

Lemma faint_phase t : 1000000 <= t -> 0 < phase_fn 0 t < 1 / 1000000000000.
Proof.
  intros Ht. split; [apply phase_pos; lra|]. unfold phase_fn. rewrite Rmult_0_l, Rplus_0_r, Rminus_0_r, Rmult_1_l.
  unfold phi1. pose proof (faint_power t Ht) as F.
  apply Rle_lt_trans with (exp (-333)).
  - destruct (Req_dec (- (333 / 100) * power t (63 / 100)) (-333)) as [->|N]; [lra|]. left. apply exp_increasing. lra.
  - replace (-333) with (- (333)) by lra. rewrite exp_Ropp. unfold Rdiv. rewrite Rmult_1_l. apply Rinv_lt_contravar; [|exact exp_big].
    apply Rmult_lt_0_compat; [lra|apply exp_pos].
Qed.

Lemma hg_differs : exists alpha x, 0 <= alpha < 180 /\ correction_from_cos (cos (radians alpha)) 0 = Some x /\ hg_phase_correction alpha 0 = 30 /\ 30 < x.
Proof.
  pose proof PI_RGT_0 as P. set (t := 1000000). set (a := 2 * atan t).
  assert (A : 0 < atan t < PI / 2).
  { split; [rewrite <- atan_0; apply atan_increasing; unfold t; lra|apply atan_bound]. }
  set (alpha := degrees a).
  assert (RA : radians alpha = a) by (unfold alpha, radians, degrees; field; lra).
  assert (HA : 0 <= alpha < 180).
  { unfold alpha, degrees, a. split; [apply Rmult_le_pos; [lra|]; apply Rmult_le_pos; [lra|left; now apply Rinv_0_lt_compat]|].
    replace 180 with (PI * (180 / PI)) at 2 by (field; lra). apply Rmult_lt_compat_r; [|lra].
    apply Rmult_lt_0_compat; [lra|now apply Rinv_0_lt_compat]. }
  pose proof (cos_range alpha HA) as C.
  exists alpha, (- 5 / 2 * log10 (phase_fn 0 t)).
  assert (T : sqrt ((1 - cos (radians alpha)) / (1 + cos (radians alpha))) = t).
  { rewrite tan_of_cos by exact C. rewrite acos_cos by (rewrite RA; unfold a; lra).
    rewrite RA. unfold a. replace (2 * atan t / 2) with (atan t) by field. apply tan_atan. }
  assert (V : correction_from_cos (cos (radians alpha)) 0 = Some (- 5 / 2 * log10 (phase_fn 0 t))).
  { rewrite correction_value by (auto; lra). now rewrite T. }
  pose proof (faint_phase t ltac:(unfold t; lra)) as F.
  assert (L : 30 < - 5 / 2 * log10 (phase_fn 0 t)).
  { assert (log10 (phase_fn 0 t) < -12); [|lra].
    replace (-12) with (log10 (1 / 1000000000000)); [apply log10_mono; apply F|].
    unfold log10. replace (1 / 1000000000000) with (/ (10 ^ 12)) by (unfold Rdiv; rewrite Rmult_1_l; f_equal; ring).
    rewrite ln_Rinv by lra. rewrite <- (Rpower_pow 12) by lra. unfold Rpower. rewrite ln_exp.
    replace (INR 12) with 12 by (cbn; ring). field. pose proof ln10_pos. lra. }
  repeat split; auto; try lra.
  rewrite (hg_same alpha 0 _ HA ltac:(lra) V). apply Rmin_right. lra.
Qed.
