From Coq Require Import Reals Lra Lia.
From Verif Require Import SphModel SphSpec.
Open Scope R_scope.

(* ---- square roots ---- *)
Lemma sq_pos : forall x, 0 <= x ^ 2.
Proof. intros; nra. Qed.
Lemma sqrt_sq2 : forall x, 0 <= x -> sqrt x ^ 2 = x.
Proof. intros x H. cbn. rewrite Rmult_1_r. apply sqrt_sqrt; exact H. Qed.
Lemma hypot_pos : forall x y, x <> 0 \/ y <> 0 -> 0 < x ^ 2 + y ^ 2.
Proof. intros x y [H|H]; pose proof (sq_pos x); pose proof (sq_pos y); assert (0 < x ^ 2 \/ 0 < y ^ 2) by (first [left; nra | right; nra]); lra. Qed.
Lemma sqrt_of_sq : forall x, sqrt (x ^ 2) = Rabs x.
Proof. intros x. rewrite <- sqrt_Rsqr_abs. f_equal. unfold Rsqr; ring. Qed.

(* ---- atan2 ---- *)
Lemma div_hyp : forall x y, x <> 0 -> sqrt (1 + (y / x)²) = sqrt (x ^ 2 + y ^ 2) / Rabs x.
Proof.
  intros x y H. rewrite <- (sqrt_of_sq x). rewrite <- sqrt_div_alt by nra.
  f_equal. unfold Rsqr. field. exact H.
Qed.
Lemma atan2_polar : forall x y, x <> 0 \/ y <> 0 ->
  sqrt (x ^ 2 + y ^ 2) * cos (atan2 y x) = x /\ sqrt (x ^ 2 + y ^ 2) * sin (atan2 y x) = y.
Proof.
  intros x y H. pose proof (hypot_pos x y H) as P. pose proof (sqrt_lt_R0 _ P) as Q.
  unfold atan2. destruct (Rlt_dec 0 x) as [X|X].
  - rewrite cos_atan, sin_atan, (div_hyp x y) by lra. rewrite Rabs_right by lra. split; field; lra.
  - destruct (Rlt_dec x 0) as [X'|X'].
    + assert (C : sqrt (x ^ 2 + y ^ 2) * cos (atan (y / x)) = - x /\ sqrt (x ^ 2 + y ^ 2) * sin (atan (y / x)) = - y).
      { rewrite cos_atan, sin_atan, (div_hyp x y) by lra. rewrite Rabs_left by lra. split; field; lra. }
      destruct (Rle_dec 0 y).
      * rewrite neg_cos, neg_sin. lra.
      * unfold Rminus. rewrite cos_plus, sin_plus, cos_neg, sin_neg, cos_PI, sin_PI. lra.
    + assert (x = 0) by lra; subst x. replace (0 ^ 2 + y ^ 2) with (y ^ 2) in * by ring.
      rewrite sqrt_of_sq in *. destruct (Rlt_dec 0 y).
      * rewrite cos_PI2, sin_PI2, Rabs_right by lra. lra.
      * destruct (Rlt_dec y 0); [|lra]. rewrite cos_neg, sin_neg, cos_PI2, sin_PI2, Rabs_left by lra. lra.
Qed.
Lemma atan2_range : forall y x, - PI < atan2 y x <= PI.
Proof.
  intros. pose proof PI_RGT_0. unfold atan2.
  destruct (Rlt_dec 0 x); [pose proof (atan_bound (y / x)); lra|].
  destruct (Rlt_dec x 0).
  - destruct (Rle_dec 0 y).
    + assert (y / x <= 0). { unfold Rdiv. assert (/ x < 0) by (apply Rinv_lt_0_compat; lra). nra. }
      assert (atan (y / x) <= 0). { destruct (Req_dec (y / x) 0) as [->|]; [rewrite atan_0; lra|]. rewrite <- atan_0. left; apply atan_increasing. lra. }
      pose proof (atan_bound (y / x)). lra.
    + assert (0 < y / x). { unfold Rdiv. assert (/ x < 0) by (apply Rinv_lt_0_compat; lra). nra. }
      pose proof (atan_increasing 0 (y / x)). rewrite atan_0 in *.
      pose proof (atan_bound (y / x)). lra.
  - destruct (Rlt_dec 0 y); [lra|]. destruct (Rlt_dec y 0); lra.
Qed.
(* the angle is determined by its polar form *)
Lemma angle_unique : forall a b, - PI < a <= PI -> - PI < b <= PI -> cos a = cos b -> sin a = sin b -> a = b.
Proof.
  intros a b A B C S. pose proof PI_RGT_0.
  assert (D : sin ((a - b) / 2) = 0).
  { assert (E : cos (a - b) = 1).
    { unfold Rminus. rewrite cos_plus, cos_neg, sin_neg, C, S. pose proof (sin2_cos2 b). unfold Rsqr in *. lra. }
    replace (a - b) with (2 * ((a - b) / 2)) in E by field. rewrite cos_2a_sin in E.
    destruct (Rmult_integral (sin ((a - b) / 2)) (sin ((a - b) / 2))); [lra|assumption|assumption]. }
  destruct (Rtotal_order a b) as [L|[L|L]]; [|exact L|].
  - exfalso. assert (0 < sin ((b - a) / 2)) by (apply sin_gt_0; lra).
    replace ((b - a) / 2) with (- ((a - b) / 2)) in * by field. rewrite sin_neg in *. lra.
  - exfalso. assert (0 < sin ((a - b) / 2)) by (apply sin_gt_0; lra). lra.
Qed.
Lemma atan2_of_polar : forall r t, 0 < r -> - PI < t <= PI -> atan2 (r * sin t) (r * cos t) = t.
Proof.
  intros r t R T.
  assert (N : r * cos t <> 0 \/ r * sin t <> 0).
  { destruct (Req_dec (cos t) 0) as [E|E]; [right|left; nra].
    intros X. assert (sin t = 0) by nra. pose proof (sin2_cos2 t). unfold Rsqr in *. nra. }
  destruct (atan2_polar _ _ N) as [C S].
  assert (H : sqrt ((r * cos t) ^ 2 + (r * sin t) ^ 2) = r).
  { replace ((r * cos t) ^ 2 + (r * sin t) ^ 2) with (r ^ 2).
    - rewrite sqrt_of_sq, Rabs_right by lra. reflexivity.
    - pose proof (sin2_cos2 t) as P. unfold Rsqr in P. replace (r ^ 2) with (r ^ 2 * 1) by ring. rewrite <- P. ring. }
  rewrite H in C, S.
  apply angle_unique; [apply atan2_range|exact T| |]; apply (Rmult_eq_reg_l r); lra.
Qed.

(* ---- degrees ---- *)
Lemma radians_degrees : forall x, radians (degrees x) = x.
Proof. intros; unfold radians, degrees. field. pose proof PI_RGT_0; lra. Qed.
Lemma degrees_radians : forall x, degrees (radians x) = x.
Proof. intros; unfold radians, degrees. field. pose proof PI_RGT_0; lra. Qed.
Lemma degrees_le : forall x y, x <= y -> degrees x <= degrees y.
Proof. intros; unfold degrees. apply Rmult_le_compat_r; [|lra]. pose proof PI_RGT_0. left; apply Rdiv_lt_0_compat; lra. Qed.
Lemma degrees_lt : forall x y, x < y -> degrees x < degrees y.
Proof. intros; unfold degrees. apply Rmult_lt_compat_r; [|lra]. pose proof PI_RGT_0. apply Rdiv_lt_0_compat; lra. Qed.
Lemma degrees_at : forall k, degrees (k * PI) = k * 180.
Proof. intros; unfold degrees. field. pose proof PI_RGT_0; lra. Qed.
Lemma radians_lt : forall x y, x < y -> radians x < radians y.
Proof. intros; unfold radians. apply Rmult_lt_compat_r; [|lra]. pose proof PI_RGT_0. lra. Qed.
Lemma radians_le : forall x y, x <= y -> radians x <= radians y.
Proof. intros; unfold radians. apply Rmult_le_compat_r; [|lra]. pose proof PI_RGT_0. lra. Qed.

(* ---- longitude ---- *)
Lemma longitude_range : forall x y, 0 <= longitude x y < 2 * PI.
Proof.
  intros. unfold longitude. pose proof PI_RGT_0. pose proof (atan2_range y x).
  destruct (Rlt_dec (atan2 y x) 0); lra.
Qed.
Lemma longitude_polar : forall x y, x <> 0 \/ y <> 0 ->
  sqrt (x ^ 2 + y ^ 2) * cos (longitude x y) = x /\ sqrt (x ^ 2 + y ^ 2) * sin (longitude x y) = y.
Proof.
  intros x y H. unfold longitude. destruct (Rlt_dec (atan2 y x) 0); [|apply atan2_polar; exact H].
  replace (2 * PI + atan2 y x) with (atan2 y x + 2 * PI) by ring.
  rewrite cos_plus, sin_plus, cos_2PI, sin_2PI.
  destruct (atan2_polar x y H) as [C S]. split; [etransitivity; [|exact C]|etransitivity; [|exact S]]; ring.
Qed.
Lemma longitude_of_polar : forall r t, 0 < r -> 0 <= t < 2 * PI -> longitude (r * cos t) (r * sin t) = t.
Proof.
  intros r t R T. pose proof PI_RGT_0. unfold longitude.
  destruct (Rle_dec t PI).
  - rewrite atan2_of_polar by lra. destruct (Rlt_dec t 0); lra.
  - replace (cos t) with (cos (t - 2 * PI)); [replace (sin t) with (sin (t - 2 * PI))|].
    + rewrite atan2_of_polar by lra. destruct (Rlt_dec (t - 2 * PI) 0); lra.
    + unfold Rminus. rewrite sin_plus, cos_neg, sin_neg, cos_2PI, sin_2PI. ring.
    + unfold Rminus. rewrite cos_plus, cos_neg, sin_neg, cos_2PI, sin_2PI. ring.
Qed.

(* ---- latitude ---- *)
Lemma ratio_le1 : forall x y z, 0 < x ^ 2 + y ^ 2 + z ^ 2 -> -1 <= z / sqrt (x ^ 2 + y ^ 2 + z ^ 2) <= 1.
Proof.
  intros x y z P. pose proof (sqrt_lt_R0 _ P) as Q. pose proof (sqrt_sq2 _ (Rlt_le _ _ P)) as S.
  pose proof (sq_pos x). pose proof (sq_pos y).
  assert (B : - sqrt (x ^ 2 + y ^ 2 + z ^ 2) <= z <= sqrt (x ^ 2 + y ^ 2 + z ^ 2)).
  { assert (A : Rabs z <= sqrt (x ^ 2 + y ^ 2 + z ^ 2)) by (rewrite <- sqrt_of_sq; apply sqrt_le_1_alt; lra).
    unfold Rabs in A. destruct (Rcase_abs z); lra. }
  split; [apply (Rmult_le_reg_r (sqrt (x ^ 2 + y ^ 2 + z ^ 2)))|apply (Rmult_le_reg_r (sqrt (x ^ 2 + y ^ 2 + z ^ 2)))]; try exact Q;
    unfold Rdiv; rewrite Rmult_assoc, Rinv_l by lra; lra.
Qed.

Lemma cos_asin_ratio : forall x y z, 0 < x ^ 2 + y ^ 2 + z ^ 2 ->
  sqrt (x ^ 2 + y ^ 2 + z ^ 2) * cos (asin (z / sqrt (x ^ 2 + y ^ 2 + z ^ 2))) = sqrt (x ^ 2 + y ^ 2).
Proof.
  intros x y z P. pose proof (sqrt_lt_R0 _ P) as Q. pose proof (ratio_le1 _ _ _ P) as L.
  rewrite cos_asin by exact L.
  rewrite <- (sqrt_square (sqrt (x ^ 2 + y ^ 2 + z ^ 2))) at 1 by lra.
  rewrite <- sqrt_mult_alt by nra. f_equal.
  pose proof (sqrt_sq2 _ (Rlt_le _ _ P)) as S. set (r := sqrt (x ^ 2 + y ^ 2 + z ^ 2)) in *.
  unfold Rsqr. replace (r * r * (1 - z / r * (z / r))) with (r ^ 2 - z ^ 2) by (field; lra). lra.
Qed.
Lemma latitude_plain : forall t, - (PI / 2) <= t <= PI / 2 ->
  (if Rle_dec (3 * PI / 2) t then (if Rle_dec t (2 * PI) then t - 2 * PI else t) else t) = t.
Proof. intros. pose proof PI_RGT_0. destruct (Rle_dec (3 * PI / 2) t); [lra|reflexivity]. Qed.

Lemma spherical_in_range : forall s, spherical_ranges (cartesian_to_spherical s).
Proof.
  intros [x y z vx vy vz]. unfold spherical_ranges, cartesian_to_spherical. cbn [c_0 c_1 c_2].
  pose proof PI_RGT_0. split; [apply sqrt_pos|].
  pose proof (longitude_range x y) as L. split.
  - pose proof (degrees_le _ _ (proj1 L)). pose proof (degrees_lt _ _ (proj2 L)).
    rewrite degrees_at in *. replace 0 with (0 * PI) in H0 by ring. rewrite degrees_at in H0. lra.
  - assert (B : forall t, - (PI / 2) <= t <= PI / 2 -> -90 <= degrees t <= 90).
    { intros t [T1 T2]. apply degrees_le in T1. apply degrees_le in T2.
      replace (- (PI / 2)) with (- (1 / 2) * PI) in T1 by field. replace (PI / 2) with (1 / 2 * PI) in T2 by field.
      rewrite degrees_at in *. lra. }
    apply B. destruct (Req_EM_T (sqrt (x ^ 2 + y ^ 2 + z ^ 2)) 0).
    + rewrite latitude_plain by lra. lra.
    + pose proof (asin_bound (z / sqrt (x ^ 2 + y ^ 2 + z ^ 2))). rewrite latitude_plain by lra. lra.
Qed.
Lemma spherical_back : forall s, off_axis s -> spherical_to_cartesian (cartesian_to_spherical s) = s.
Proof.
  intros [x y z vx vy vz] A. unfold off_axis in A. cbn [c_0 c_1] in A.
  pose proof (hypot_pos _ _ A) as H2.
  assert (P : 0 < x ^ 2 + y ^ 2 + z ^ 2) by (pose proof (sq_pos z); lra).
  pose proof (sqrt_lt_R0 _ P) as Q. pose proof (sqrt_lt_R0 _ H2) as Q2.
  pose proof (ratio_le1 _ _ _ P) as L. pose proof (cos_asin_ratio _ _ _ P) as CA.
  pose proof (sin_asin _ L) as SA. destruct (longitude_polar _ _ A) as [CL SL].
  pose proof (sqrt_sq2 _ (Rlt_le _ _ P)) as S. pose proof (sqrt_sq2 _ (Rlt_le _ _ H2)) as S2.
  unfold spherical_to_cartesian, cartesian_to_spherical. cbn [c_0 c_1 c_2 c_3 c_4 c_5].
  rewrite !radians_degrees.
  pose proof (asin_bound (z / sqrt (x ^ 2 + y ^ 2 + z ^ 2))) as AB.
  destruct (Req_EM_T (sqrt (x ^ 2 + y ^ 2 + z ^ 2)) 0); [lra|].
  rewrite latitude_plain by lra.
  assert (AX : (if Req_EM_T x 0 then if Req_EM_T y 0 then true else false else false) = false).
  { destruct (Req_EM_T x 0); [|reflexivity]. destruct (Req_EM_T y 0); [tauto|reflexivity]. }
  rewrite AX.
  set (r := sqrt (x ^ 2 + y ^ 2 + z ^ 2)) in *. set (h := sqrt (x ^ 2 + y ^ 2)) in *.
  set (cl := cos (longitude x y)) in *. set (sl := sin (longitude x y)) in *.
  set (ca := cos (asin (z / r))) in *. rewrite SA in *.
  assert (E1 : cl = x / h) by (rewrite <- CL; field; lra).
  assert (E2 : sl = y / h) by (rewrite <- SL; field; lra).
  assert (E3 : ca = h / r) by (rewrite <- CA; field; lra).
  clearbody cl sl ca. subst cl sl ca. rewrite <- S2.
  assert (EZ : h ^ 2 + z ^ 2 = r ^ 2) by lra. assert (EH : x ^ 2 + y ^ 2 = h ^ 2) by lra.
  clearbody r h.
  f_equal; try (field; lra).
  - transitivity ((x * (x * vx + y * vy + z * vz) * (h ^ 2 + z ^ 2) - r ^ 2 * (y * (vy * x - vx * y) + z * x * vz)) / (r ^ 2 * h ^ 2)); [field; lra|].
    rewrite EZ. transitivity (((x ^ 2 + y ^ 2) * vx) / h ^ 2); [field; lra|]. rewrite EH. field; lra.
  - transitivity ((y * (x * vx + y * vy + z * vz) * (h ^ 2 + z ^ 2) + r ^ 2 * (x * (vy * x - vx * y) - z * y * vz)) / (r ^ 2 * h ^ 2)); [field; lra|].
    rewrite EZ. transitivity (((x ^ 2 + y ^ 2) * vy) / h ^ 2); [field; lra|]. rewrite EH. field; lra.
Qed.
Lemma cartesian_back : forall s, 0 < c_0 s -> 0 <= c_1 s < 360 -> -90 < c_2 s < 90 ->
  cartesian_to_spherical (spherical_to_cartesian s) = s.
Proof.
  intros [rho lon lat vrho vlon vlat]. cbn [c_0 c_1 c_2]. intros R L A. pose proof PI_RGT_0 as HPI.
  unfold spherical_to_cartesian. cbn [c_0 c_1 c_2 c_3 c_4 c_5].
  assert (L' : 0 <= radians lon < 2 * PI).
  { split; [replace 0 with (radians 0) by (unfold radians; ring); apply radians_le; lra|].
    replace (2 * PI) with (radians 360) by (unfold radians; field). apply radians_lt; lra. }
  assert (A' : - (PI / 2) < radians lat < PI / 2).
  { split; [replace (- (PI / 2)) with (radians (-90)) by (unfold radians; field)|
            replace (PI / 2) with (radians 90) by (unfold radians; field)]; apply radians_lt; lra. }
  assert (CP : 0 < cos (radians lat)) by (apply cos_gt_0; lra).
  remember (radians lon) as l eqn:El. remember (radians lat) as t eqn:Et.
  remember (radians vlon) as vl eqn:Evl. remember (radians vlat) as vt eqn:Evt.
  pose proof (sin2_cos2 l) as T1. pose proof (sin2_cos2 t) as T2. unfold Rsqr in T1, T2.
  unfold cartesian_to_spherical.
  assert (EQ2 : (rho * cos t * cos l) ^ 2 + (rho * cos t * sin l) ^ 2 = (rho * cos t) ^ 2)
    by (replace ((rho * cos t) ^ 2) with ((rho * cos t) ^ 2 * 1) by ring; rewrite <- T1; ring).
  assert (EQ3 : (rho * cos t * cos l) ^ 2 + (rho * cos t * sin l) ^ 2 + (rho * sin t) ^ 2 = rho ^ 2)
    by (rewrite EQ2; replace (rho ^ 2) with (rho ^ 2 * 1) by ring; rewrite <- T2; ring).
  rewrite EQ3, EQ2. rewrite !sqrt_of_sq. rewrite (Rabs_right rho) by lra. rewrite (Rabs_right (rho * cos t)) by nra.
  rewrite longitude_of_polar by (try nra; lra).
  destruct (Req_EM_T rho 0); [lra|].
  replace (rho * sin t / rho) with (sin t) by (field; lra). rewrite asin_sin by lra.
  rewrite latitude_plain by lra.
  assert (AX : (if Req_EM_T (rho * cos t * cos l) 0 then if Req_EM_T (rho * cos t * sin l) 0 then true else false else false) = false).
  { assert (K : 0 < rho * cos t) by nra.
    destruct (Req_EM_T (rho * cos t * cos l) 0); [|reflexivity]. destruct (Req_EM_T (rho * cos t * sin l) 0); [|reflexivity]. exfalso.
    assert (cos l = 0) by nra. assert (sin l = 0) by nra. nra. }
  rewrite AX.
  assert (VR : (rho * cos t * cos l * (cos t * cos l * vrho - rho * cos t * sin l * vl - rho * sin t * cos l * vt) +
      rho * cos t * sin l * (cos t * sin l * vrho + rho * cos t * cos l * vl - rho * sin t * sin l * vt) +
      rho * sin t * (sin t * vrho + rho * cos t * vt)) / rho = vrho).
  { transitivity ((cos t * cos t * vrho - cos t * sin t * rho * vt) * (sin l * sin l + cos l * cos l) + sin t * (sin t * vrho + rho * cos t * vt)); [field; lra|].
    rewrite T1. transitivity ((sin t * sin t + cos t * cos t) * vrho); [ring|rewrite T2; ring]. }
  rewrite VR. 
  assert (VL : ((cos t * sin l * vrho + rho * cos t * cos l * vl - rho * sin t * sin l * vt) * (rho * cos t * cos l) -
      (cos t * cos l * vrho - rho * cos t * sin l * vl - rho * sin t * cos l * vt) * (rho * cos t * sin l)) / (rho * cos t) ^ 2 = vl).
  { transitivity ((sin l * sin l + cos l * cos l) * vl); [field; lra|rewrite T1; ring]. }
  rewrite VL.
  assert (VT : (sin t * vrho + rho * cos t * vt - vrho * (rho * sin t) / rho) / (rho * cos t) = vt) by (field; lra).
  rewrite VT. subst l t vl vt. rewrite !degrees_radians. reflexivity.
Qed.
(* on the axis the position is still recovered *)
Lemma spherical_back_position : forall s, let s' := spherical_to_cartesian (cartesian_to_spherical s) in
  c_0 s' = c_0 s /\ c_1 s' = c_1 s /\ c_2 s' = c_2 s.
Proof.
  intros s. cbv zeta. destruct (Req_dec (c_0 s) 0) as [E0|E0]; [destruct (Req_dec (c_1 s) 0) as [E1|E1]|];
    try (rewrite spherical_back by (unfold off_axis; auto); auto).
  destruct s as [x y z vx vy vz]. cbn [c_0 c_1 c_2] in *. subst x y.
  unfold spherical_to_cartesian, cartesian_to_spherical. cbn [c_0 c_1 c_2 c_3 c_4 c_5].
  rewrite !radians_degrees. replace (0 ^ 2 + 0 ^ 2 + z ^ 2) with (z ^ 2) by ring. rewrite sqrt_of_sq.
  pose proof PI_RGT_0.
  destruct (Req_EM_T (Rabs z) 0) as [Z|Z].
  - assert (z = 0) by (unfold Rabs in Z; destruct (Rcase_abs z); lra). subst z.
    rewrite latitude_plain by lra. rewrite Rabs_R0. repeat split; ring.
  - pose proof (asin_bound (z / Rabs z)) as AB. rewrite latitude_plain by lra.
    assert (CS : z / Rabs z = 1 \/ z / Rabs z = -1).
    { unfold Rabs in *. destruct (Rcase_abs z); [right|left]; field; lra. }
    assert (L : -1 <= z / Rabs z <= 1) by (destruct CS as [-> | ->]; lra).
    rewrite sin_asin by exact L. rewrite cos_asin by exact L.
    replace (1 - (z / Rabs z)²) with 0 by (destruct CS as [-> | ->]; unfold Rsqr; ring). rewrite sqrt_0.
    repeat split; try ring. field; exact Z.
Qed.

(* ---- geodetic ---- *)
Lemma Rpow_eq_pos : forall u v, 0 < u -> 0 < v -> u ^ 2 = v ^ 2 -> u = v.
Proof. intros; nra. Qed.
Section Geo.
Variables a f : R.
Hypothesis A : 0 < a.
Hypothesis F : 0 < f < 1.
Let e2 := ecc2 a f.
Lemma ecc2_eq : e2 = 1 - (1 - f) ^ 2.
Proof. unfold e2, ecc2, semi_minor. field. lra. Qed.
Lemma ecc2_range : 0 < e2 < 1.
Proof. rewrite ecc2_eq. nra. Qed.
Lemma one_minus_ecc2 : 1 - e2 = (1 - f) ^ 2.
Proof. rewrite ecc2_eq; ring. Qed.
(* N cos(lat) in terms of the tangent *)
Lemma curvature_cos : forall t, curvature a f (atan t) * cos (atan t) = a / sqrt (1 + (1 - e2) * t ^ 2).
Proof.
  intros t. pose proof ecc2_range. unfold curvature. fold e2. rewrite cos_atan, sin_atan.
  assert (P : 0 < 1 + t²) by (unfold Rsqr; nra). pose proof (sqrt_lt_R0 _ P) as Q.
  pose proof (sqrt_sqrt _ (Rlt_le _ _ P)) as S.
  assert (E : 1 - e2 * (t / sqrt (1 + t²)) ^ 2 = (1 + (1 - e2) * t ^ 2) / (1 + t²)).
  { rewrite <- S at 2. field_simplify_eq; [|lra]. replace (sqrt (1 + t²) ^ 2) with (1 + t²) by (cbn; rewrite Rmult_1_r; lra). unfold Rsqr. ring. }
  rewrite E. rewrite sqrt_div_alt by exact P.
  assert (P2 : 0 < 1 + (1 - e2) * t ^ 2) by (pose proof (sq_pos t); nra). pose proof (sqrt_lt_R0 _ P2).
  field. lra.
Qed.
Lemma loop_fixed : forall xy z lat0 tol fuel l d, 
  l = geodetic_body a f xy z lat0 -> geodetic_loop a f xy z lat0 tol fuel l d = l.
Proof.
  intros xy z lat0 tol. induction fuel as [|k IH]; intros l d E; [reflexivity|]. cbn [geodetic_loop].
  destruct (Rlt_dec tol (Rabs d)); [|reflexivity]. rewrite <- E. apply IH; exact E.
Qed.
(* the loop performs one step from the first guess *)
Lemma latitude_one_step : forall max_iter tol xy z, tol < 10 ^ 15 ->
  geodetic_latitude a f max_iter tol xy z = geodetic_body a f xy z (atan2 z (xy * (1 - e2))).
Proof.
  intros. unfold geodetic_latitude. fold e2. cbn [geodetic_loop].
  destruct (Rlt_dec tol (Rabs (10 ^ 15))) as [_|N]; [apply loop_fixed; reflexivity|].
  rewrite Rabs_right in N; [contradiction|]. assert (0 < 10 ^ 15) by (apply pow_lt; lra). lra.
Qed.
Lemma atan2_pos : forall y x, 0 < x -> atan2 y x = atan (y / x).
Proof. intros. unfold atan2. destruct (Rlt_dec 0 x); [reflexivity|contradiction]. Qed.

Variables x y z vx vy vz : R.
Let s := mk6 x y z vx vy vz.
Let p := sqrt (x ^ 2 + y ^ 2).
Let q := scaled_radius a f s.
Hypothesis off : x <> 0 \/ y <> 0.
Lemma p_pos : 0 < p.
Proof. apply sqrt_lt_R0, hypot_pos, off. Qed.
Lemma q_pos : 0 < q.
Proof.
  apply sqrt_lt_R0. cbn [c_0 c_1 c_2 s]. pose proof (hypot_pos _ _ off).
  assert (0 < (x ^ 2 + y ^ 2) / a ^ 2) by (apply Rdiv_lt_0_compat; nra).
  assert (0 <= z ^ 2 / (a * (1 - f)) ^ 2); [|lra].
  apply Rmult_le_pos; [apply sq_pos|]. left; apply Rinv_0_lt_compat. assert (0 < a * (1 - f)) by nra. nra.
Qed.
Lemma q_sq : q ^ 2 = p ^ 2 / a ^ 2 + z ^ 2 / (a * (1 - f)) ^ 2.
Proof.
  pose proof q_pos as Q. unfold q, scaled_radius in *. rewrite sqrt_sq2.
  - cbn [c_0 c_1 c_2 s]. unfold p. rewrite sqrt_sq2 by (pose proof (hypot_pos _ _ off); lra). reflexivity.
  - destruct (Rle_dec 0 ((c_0 s ^ 2 + c_1 s ^ 2) / a ^ 2 + c_2 s ^ 2 / (a * (1 - f)) ^ 2)) as [L|L]; [exact L|].
    rewrite sqrt_neg_0 in Q by lra. lra.
Qed.
Let t0 := z / (p * (1 - e2)).
Lemma curvature_first : curvature a f (atan t0) * cos (atan t0) = p / q.
Proof.
  rewrite curvature_cos. pose proof p_pos. pose proof q_pos. pose proof ecc2_range.
  assert (E : 1 + (1 - e2) * t0 ^ 2 = (a * q / p) ^ 2).
  { replace ((a * q / p) ^ 2) with (a ^ 2 * q ^ 2 / p ^ 2) by (field; lra). rewrite q_sq.
    unfold t0. rewrite one_minus_ecc2. field. repeat split; nra. }
  rewrite E, sqrt_of_sq, Rabs_right. { field. repeat split; lra. }
  apply Rle_ge. left. apply Rdiv_lt_0_compat; nra.
Qed.
Hypothesis deep : e2 < q.
Let t1 := z / (p * (1 - e2 / q)).
Lemma t1_den : 0 < p * (1 - e2 / q).
Proof.
  pose proof p_pos. pose proof q_pos. assert (e2 / q < 1).
  { apply (Rmult_lt_reg_r q); [assumption|]. unfold Rdiv. rewrite Rmult_assoc, Rinv_l by lra. lra. }
  nra.
Qed.
Lemma body_value : geodetic_body a f p z (atan2 z (p * (1 - e2))) = atan t1.
Proof.
  pose proof p_pos. pose proof q_pos. pose proof ecc2_range. unfold geodetic_body. fold e2.
  rewrite (atan2_pos z (p * (1 - e2))) by nra. fold t0.
  assert (C : 0 < cos (atan t0)) by (pose proof (atan_bound t0); apply cos_gt_0; lra).
  replace (curvature a f (atan t0) + (p / cos (atan t0) - curvature a f (atan t0))) with (p / cos (atan t0)) by ring.
  replace (p * (1 - e2 * curvature a f (atan t0) / (p / cos (atan t0))))
    with (p * (1 - e2 * (curvature a f (atan t0) * cos (atan t0)) / p)) by (field; lra).
  rewrite curvature_first. replace (p * (1 - e2 * (p / q) / p)) with (p * (1 - e2 / q)) by (field; lra).
  rewrite atan2_pos by apply t1_den. reflexivity.
Qed.
Lemma curv_pos : forall t, 0 < curvature a f (atan t).
Proof.
  intros t. pose proof ecc2_range. unfold curvature. fold e2. apply Rdiv_lt_0_compat; [exact A|].
  apply sqrt_lt_R0. pose proof (SIN_bound (atan t)). assert (0 <= sin (atan t) ^ 2 <= 1) by nra. nra.
Qed.
(* the result *)
Lemma geodetic_value : forall max_iter tol, tol < 10 ^ 15 ->
  exists v, cartesian_to_geodetic a f max_iter tol s = Some v /\
    c_0 v = p / cos (atan t1) - curvature a f (atan t1) /\ c_1 v = degrees (longitude x y) /\ c_2 v = degrees (atan t1) /\
    c_3 v = degrees (- sin (longitude x y) * vx + cos (longitude x y) * vy) /\
    c_4 v = degrees (- sin (atan t1) * cos (longitude x y) * vx - sin (atan t1) * sin (longitude x y) * vy + cos (atan t1) * vz) /\
    c_5 v = cos (atan t1) * cos (longitude x y) * vx + cos (atan t1) * sin (longitude x y) * vy + sin (atan t1) * vz.
Proof.
  intros m tol T. unfold cartesian_to_geodetic, s. fold p. fold e2.
  rewrite latitude_one_step by exact T. rewrite body_value.
  pose proof p_pos. pose proof ecc2_range. rewrite (atan2_pos z (p * (1 - e2))) by nra. fold t0.
  assert (C0 : 0 < cos (atan t0)) by (pose proof (atan_bound t0); apply cos_gt_0; lra).
  assert (C1 : 0 < cos (atan t1)) by (pose proof (atan_bound t1); apply cos_gt_0; lra).
  destruct (Req_EM_T (cos (atan t0)) 0); [lra|]. destruct (Req_EM_T (cos (atan t1)) 0); [lra|].
  eexists. split; [reflexivity|]. cbn [c_0 c_1 c_2 c_3 c_4 c_5]. repeat split.
Qed.
Lemma ell_n : forall lat, a / sqrt (1 - (1 - (1 - f) ^ 2) * sin lat ^ 2) = curvature a f lat.
Proof. intros. unfold curvature. fold e2. rewrite ecc2_eq. reflexivity. Qed.
(* the latitude and height reproduce the position exactly on the surface and on the equator *)
Lemma reproduces_iff : 
  ellipsoid_point a f (longitude x y) (atan t1) (p / cos (atan t1) - curvature a f (atan t1)) = (x, y, z)
  <-> (q = 1 \/ z = 0).
Proof.
  pose proof p_pos as Pp. pose proof q_pos as Qp. pose proof ecc2_range as Er. pose proof t1_den as D1.
  unfold ellipsoid_point. rewrite ell_n. rewrite <- one_minus_ecc2.
  assert (C1 : 0 < cos (atan t1)) by (pose proof (atan_bound t1); apply cos_gt_0; lra).
  destruct (longitude_polar x y off) as [CL SL]. fold p in CL, SL.
  set (n1 := curvature a f (atan t1)) in *.
  replace (n1 + (p / cos (atan t1) - n1)) with (p / cos (atan t1)) by ring.
  replace (p / cos (atan t1) * cos (atan t1) * cos (longitude x y)) with x by (rewrite <- CL at 1; field; lra).
  replace (p / cos (atan t1) * cos (atan t1) * sin (longitude x y)) with y by (rewrite <- SL at 1; field; lra).
  assert (TS : sin (atan t1) = t1 * cos (atan t1)).
  { pose proof (tan_atan t1) as X. unfold tan in X. rewrite <- X at 2. field; lra. }
  assert (Z1 : z = t1 * (p * (1 - e2 / q))) by (unfold t1; field; repeat split; nra).
  replace ((n1 * (1 - e2) + (p / cos (atan t1) - n1)) * sin (atan t1)) with (t1 * (p - e2 * (n1 * cos (atan t1))))
    by (rewrite TS; field; lra).
  unfold n1. rewrite curvature_cos.
  set (w := sqrt (1 + (1 - e2) * t1 ^ 2)).
  assert (W0 : 0 < 1 + (1 - e2) * t1 ^ 2) by (pose proof (sq_pos t1); nra).
  assert (W : 0 < w) by (apply sqrt_lt_R0; exact W0).
  assert (W2 : w ^ 2 = 1 + (1 - e2) * t1 ^ 2) by (apply sqrt_sq2; lra).
  assert (Q0 : (a * q / p) ^ 2 = 1 + (1 - e2) * t0 ^ 2).
  { replace ((a * q / p) ^ 2) with (a ^ 2 * q ^ 2 / p ^ 2) by (field; lra). rewrite q_sq.
    unfold t0. rewrite one_minus_ecc2. field. repeat split; nra. }
  split.
  - intros E. injection E as E3. destruct (Req_dec z 0) as [Z|Z]; [right; exact Z|left].
    assert (T1 : t1 <> 0) by (intros X; apply Z; rewrite Z1, X; ring).
    assert (E4 : p - e2 * (a / w) = p * (1 - e2 / q)) by (apply (Rmult_eq_reg_l t1); [|exact T1]; rewrite <- Z1; exact E3).
    assert (E5 : a / w = p / q).
    { assert (X : e2 * (a / w) = e2 * (p / q)) by (unfold Rdiv in *; lra). apply (Rmult_eq_reg_l e2); lra. }
    assert (E6 : w = a * q / p).
    { replace w with (a / (a / w)) by (field; lra). rewrite E5. field; lra. }
    rewrite <- E6 in Q0. rewrite W2 in Q0.
    assert (E7 : t1 ^ 2 = t0 ^ 2) by nra.
    unfold t1, t0 in E7.
    assert (E8 : (p * (1 - e2 / q)) ^ 2 = (p * (1 - e2)) ^ 2).
    { assert (E9 : z ^ 2 / (p * (1 - e2 / q)) ^ 2 = z ^ 2 / (p * (1 - e2)) ^ 2).
      { replace (z ^ 2 / (p * (1 - e2 / q)) ^ 2) with ((z / (p * (1 - e2 / q))) ^ 2) by (field; repeat split; nra).
        rewrite E7. field. repeat split; nra. }
      assert (ZZ : z ^ 2 <> 0) by (apply pow_nonzero; exact Z).
      replace ((p * (1 - e2 / q)) ^ 2) with (z ^ 2 / (z ^ 2 / (p * (1 - e2 / q)) ^ 2)) by (field; repeat split; nra).
      rewrite E9. field. repeat split; nra. }
    assert (D0 : 0 < p * (1 - e2)) by nra.
    assert (E10 : p * (1 - e2 / q) = p * (1 - e2)) by nra.
    assert (E11 : e2 / q = e2) by nra.
    assert (E12 : e2 = e2 * q) by (rewrite <- E11 at 2; field; lra). nra.
  - intros [Q1|Z].
    + f_equal. transitivity (t1 * (p * (1 - e2 / q))); [f_equal|symmetry; exact Z1].
      assert (T : t1 = t0) by (unfold t1, t0; rewrite Q1; do 2 f_equal; field).
      assert (WW : w = a * q / p).
      { apply (Rpow_eq_pos w (a * q / p)); [exact W|apply Rdiv_lt_0_compat; nra|]. rewrite W2, Q0, T. reflexivity. }
      rewrite WW, Q1. field. lra.
    + assert (T1 : t1 = 0) by (unfold t1; rewrite Z; field; repeat split; nra). rewrite T1, Z. f_equal. ring.
Qed.
End Geo.
