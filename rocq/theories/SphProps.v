(* C65, C79, C121-C124: spherical and geodetic coordinates. *)
From Coq Require Import Reals String List Lra Lia.
From Flocq Require Import Core.
From Verif Require Import Base TimeRModel SphModel SphSpec SphProofs SphRModel SphRProofs.
Import ListNotations.
Open Scope R_scope.

(* C65: Cartesian to spherical stays in the documented ranges and, off the polar axis, converting
   back returns the same position and velocity. *)
Theorem C65_round_trip : forall s,
  spherical_ranges (cartesian_to_spherical s) /\
  (off_axis s -> spherical_to_cartesian (cartesian_to_spherical s) = s).
Proof. intros s. split; [exact (spherical_in_range s)|exact (spherical_back s)]. Qed.
Print Assumptions C65_round_trip.
Example C65_case : off_axis (mk6 3 0 4 1 2 3) /\ c_0 (cartesian_to_spherical (mk6 3 0 4 1 2 3)) = 5 /\
  c_3 (cartesian_to_spherical (mk6 3 0 4 1 2 3)) = 3.
Proof.
  assert (E : sqrt (3 ^ 2 + 0 ^ 2 + 4 ^ 2) = 5) by (replace (3 ^ 2 + 0 ^ 2 + 4 ^ 2) with (5 * 5) by ring; apply sqrt_square; lra).
  split; [left; cbn; lra|]. unfold cartesian_to_spherical. cbn [c_0 c_3]. rewrite E. split; [reflexivity|].
  destruct (Req_EM_T 5 0); lra.
Qed.
(* on the axis the position is recovered and the transverse velocity is not *)
Theorem C65_axis : (forall s, let s' := spherical_to_cartesian (cartesian_to_spherical s) in
    c_0 s' = c_0 s /\ c_1 s' = c_1 s /\ c_2 s' = c_2 s) /\
  exists s, spherical_to_cartesian (cartesian_to_spherical s) <> s.
Proof.
  split; [exact spherical_back_position|]. exists (mk6 0 0 1 1 0 0). intros E.
  apply (f_equal c_3) in E. unfold spherical_to_cartesian, cartesian_to_spherical in E.
  cbn [c_0 c_1 c_2 c_3 c_4 c_5] in E. rewrite !radians_degrees in E.
  replace (0 ^ 2 + 0 ^ 2 + 1 ^ 2) with (1 * 1) in E by ring. rewrite sqrt_square in E by lra.
  destruct (Req_EM_T 0 0); [|lra]. destruct (Req_EM_T 1 0); [lra|].
  replace (0 * 1 + 0 * 0 + 1 * 0) with 0 in E by ring. unfold Rdiv in E. rewrite !Rmult_0_l in E.
  rewrite !Rmult_0_r in E. lra.
Qed.
Print Assumptions C65_axis.

(* C121: spherical to Cartesian and back returns the same six values for positive distance,
   longitude in [0, 360) and latitude strictly between the poles. *)
Theorem C121_spherical_first : forall s, 0 < c_0 s -> 0 <= c_1 s < 360 -> -90 < c_2 s < 90 ->
  cartesian_to_spherical (spherical_to_cartesian s) = s.
Proof. exact cartesian_back. Qed.
Print Assumptions C121_spherical_first.
Example C121_case : let s := mk6 2 350 (-45) 1 2 3 in 0 < c_0 s /\ 0 <= c_1 s < 360 /\ -90 < c_2 s < 90.
Proof. cbn. lra. Qed.

(* C79: for points off the axis (and not in the core of the ellipsoid) the returned longitude,
   latitude and altitude describe the input position exactly when it lies on the ellipsoid or on
   the equator: the latitude iteration always restarts from the first guess. *)
Theorem C79_geodetic_partial : forall a f s, 0 < a -> 0 < f < 1 -> off_axis s ->
  1 - (1 - f) ^ 2 < scaled_radius a f s ->
  exists g, from_cartesian a f s = Some g /\
    (describes a f g s <-> scaled_radius a f s = 1 \/ c_2 s = 0).
Proof.
  intros a f [x y z vx vy vz] A F O D. rewrite <- (ecc2_eq a f A) in D.
  destruct (geodetic_value a f A F x y z vx vy vz O D 100 (/ 10 ^ 15)) as (v & E & E0 & E1 & E2 & _).
  { assert (/ 10 ^ 15 < 1). { rewrite <- Rinv_1. apply Rinv_lt_contravar; [|apply pow_R1_Rle || idtac]; cbn; lra. }
    assert (1 < 10 ^ 15) by (cbn; lra). lra. }
  unfold from_cartesian. rewrite E. eexists. split; [reflexivity|].
  unfold describes. cbn [g_lon g_lat g_alt]. rewrite E0, E1, E2, !radians_degrees.
  exact (reproduces_iff a f A F x y z vx vy vz O D).
Qed.
Print Assumptions C79_geodetic_partial.
Theorem C79_geodetic_refuted : forall a f, 0 < a -> 0 < f < 1 ->
  exists s g, off_axis s /\ 1 < scaled_radius a f s /\ from_cartesian a f s = Some g /\ ~ describes a f g s.
Proof.
  intros a f A F. set (s := mk6 a 0 (a * (1 - f)) 0 0 0).
  assert (R : scaled_radius a f s = sqrt 2).
  { unfold scaled_radius, s. cbn [c_0 c_1 c_2]. f_equal. field. split; [|lra]. lra. }
  assert (S : 1 < sqrt 2) by (rewrite <- sqrt_1 at 1; apply sqrt_lt_1_alt; lra).
  assert (O : off_axis s) by (left; cbn; lra).
  destruct (C79_geodetic_partial a f s A F O) as (g & E & I); [rewrite R; nra|].
  exists s, g. split; [exact O|]. split; [rewrite R; exact S|]. split; [exact E|].
  intros X. apply I in X. destruct X as [X|X]; [rewrite R in X; lra|]. unfold s in X. cbn [c_2] in X. nra.
Qed.
Print Assumptions C79_geodetic_refuted.
(* a point of the surface *)
Example C79_case : let s := mk6 1 0 0 0 0 0 in off_axis s /\ scaled_radius 1 (1 / 298) s = 1 /\ 1 - (1 - 1 / 298) ^ 2 < scaled_radius 1 (1 / 298) s.
Proof.
  assert (E : scaled_radius 1 (1 / 298) (mk6 1 0 0 0 0 0) = 1).
  { unfold scaled_radius. cbn [c_0 c_1 c_2]. replace ((1 ^ 2 + 0 ^ 2) / 1 ^ 2 + 0 ^ 2 / (1 * (1 - 1 / 298)) ^ 2) with 1 by field. apply sqrt_1. }
  cbv zeta. rewrite E. split; [left; cbn; lra|]. split; [reflexivity|lra].
Qed.
(* on the axis there is no result *)
Theorem C79_axis_refuted : forall a f z vx vy vz, z <> 0 -> from_cartesian a f (mk6 0 0 z vx vy vz) = None.
Proof.
  intros a f z vx vy vz Z.
  unfold from_cartesian, cartesian_to_geodetic. replace (0 ^ 2 + 0 ^ 2) with 0 by ring. rewrite sqrt_0, !Rmult_0_l.
  assert (C : cos (atan2 z 0) = 0).
  { unfold atan2. destruct (Rlt_dec 0 0); [lra|]. destruct (Rlt_dec 0 z); [apply cos_PI2|].
    destruct (Rlt_dec z 0); [rewrite cos_neg; apply cos_PI2|lra]. }
  rewrite C. destruct (Req_EM_T 0 0); [reflexivity|lra].
Qed.
Print Assumptions C79_axis_refuted.

(* C122 refuted: a body above the equator moving straight up has vup = 0 and a northward velocity. *)
Theorem C122_velocities_refuted : forall a f, 0 < a -> 0 < f < 1 ->
  exists s g, from_cartesian a f s = Some g /\ describes a f g s /\
    along (velocity s) (up (radians (g_lon g)) (radians (g_lat g))) = 1 /\
    along (velocity s) (north (radians (g_lon g)) (radians (g_lat g))) = 0 /\
    g_vup g = 0 /\ g_vnorth g = 1.
Proof.
  intros a f A F. set (s := mk6 a 0 0 1 0 0).
  assert (R : scaled_radius a f s = 1).
  { unfold scaled_radius, s. cbn [c_0 c_1 c_2].
    replace ((a ^ 2 + 0 ^ 2) / a ^ 2 + 0 ^ 2 / (a * (1 - f)) ^ 2) with 1 by (field; split; lra). apply sqrt_1. }
  assert (O : off_axis s) by (left; cbn; lra).
  destruct (C79_geodetic_partial a f s A F O) as (g & E & I); [rewrite R; nra|].
  exists s, g. split; [exact E|]. split; [apply I; left; exact R|].
  assert (D : ecc2 a f < scaled_radius a f s) by (rewrite R, (ecc2_eq a f A); nra).
  destruct (geodetic_value a f A F a 0 0 1 0 0 O D 100 (/ 10 ^ 15)) as (v & E' & _ & E1 & E2 & E3 & E4 & E5).
  { assert (/ 10 ^ 15 < 1). { rewrite <- Rinv_1. apply Rinv_lt_contravar; cbn; lra. }
    assert (1 < 10 ^ 15) by (cbn; lra). lra. }
  unfold from_cartesian in E. fold s in E'. rewrite E' in E. injection E as <-.
  cbn [g_lon g_lat g_vup g_vnorth]. rewrite E1, E2, E3, E5, !radians_degrees.
  assert (L : longitude a 0 = 0).
  { unfold longitude. unfold atan2. destruct (Rlt_dec 0 a); [|lra]. replace (0 / a) with 0 by (field; lra). rewrite atan_0. destruct (Rlt_dec 0 0); lra. }
  rewrite L. replace (0 / (sqrt (a ^ 2 + 0 ^ 2) * (1 - ecc2 a f / scaled_radius a f (mk6 a 0 0 1 0 0)))) with 0 by (unfold Rdiv; ring).
  rewrite atan_0. unfold along, up, north, velocity, s. cbn [c_3 c_4 c_5]. rewrite cos_0, sin_0. unfold degrees. repeat split; ring.
Qed.
Print Assumptions C122_velocities_refuted.
(* what the columns hold: the eastward velocity times 180/pi under vup, the northward one under
   veast, the upward one under vnorth *)
Theorem C122_velocities_partial : forall a f s, 0 < a -> 0 < f < 1 -> off_axis s ->
  1 - (1 - f) ^ 2 < scaled_radius a f s ->
  exists g, from_cartesian a f s = Some g /\
    let lon := radians (g_lon g) in let lat := radians (g_lat g) in
    g_vup g = degrees (along (velocity s) (east lon lat)) /\
    g_veast g = degrees (along (velocity s) (north lon lat)) /\
    g_vnorth g = along (velocity s) (up lon lat).
Proof.
  intros a f [x y z vx vy vz] A F O D. rewrite <- (ecc2_eq a f A) in D.
  destruct (geodetic_value a f A F x y z vx vy vz O D 100 (/ 10 ^ 15)) as (v & E & E0 & E1 & E2 & E3 & E4 & E5).
  { assert (/ 10 ^ 15 < 1). { rewrite <- Rinv_1. apply Rinv_lt_contravar; cbn; lra. }
    assert (1 < 10 ^ 15) by (cbn; lra). lra. }
  unfold from_cartesian. rewrite E. eexists. split; [reflexivity|].
  cbv zeta. cbn [g_lon g_lat g_vup g_veast g_vnorth]. rewrite E1, E2, E3, E4, E5, !radians_degrees.
  unfold along, up, north, east, velocity. cbn [c_3 c_4 c_5].
  split; [f_equal; ring|]. split; [f_equal; ring|ring].
Qed.
Print Assumptions C122_velocities_partial.

(* C123 refuted: no table with a covariance can be converted. *)
Theorem C123_covariances_refuted : forall a f origins rows,
  (forall o, In o origins -> o = "EARTH"%string) ->
  from_cartesian_table a f "itrf93" origins rows true = Err TypeError.
Proof.
  intros a f origins rows H. unfold from_cartesian_table. rewrite String.eqb_refl. cbn [negb].
  replace (forallb (String.eqb "EARTH") origins) with true; [reflexivity|]. symmetry. apply forallb_forall.
  intros o I. rewrite (H o I). reflexivity.
Qed.
Print Assumptions C123_covariances_refuted.
(* without covariances every row is converted, in order *)
Theorem C123_covariances_partial : forall a f frame origins rows r,
  from_cartesian_table a f frame origins rows false = Ok r <->
  frame = "itrf93"%string /\ (forall o, In o origins -> o = "EARTH"%string) /\ r = map (from_cartesian a f) rows.
Proof.
  intros. unfold from_cartesian_table. destruct (String.eqb_spec frame "itrf93"); cbn [negb].
  - destruct (forallb (String.eqb "EARTH") origins) eqn:E; cbn [negb].
    + rewrite forallb_forall in E. split; [intros X; injection X as <-; repeat split; auto|intros (_ & _ & ->); reflexivity].
      intros o I. symmetry. apply String.eqb_eq, E, I.
    + split; [discriminate|]. intros (_ & H & _). exfalso. rewrite <- not_true_iff_false in E. apply E.
      apply forallb_forall. intros o I. rewrite (H o I). reflexivity.
  - split; [discriminate|]. intros (H & _); contradiction.
Qed.
Print Assumptions C123_covariances_partial.

(* C124 refuted: in binary64 a direction just below the x-axis has longitude 360, not below it. *)
Theorem C124_longitude_refuted : exists l, is_f64 l /\ - PI < l < 0 /\ longitude64 l = 360.
Proof.
  exists (- bpow radix2 (-60)). split; [|split].
  - apply generic_format_opp. apply (generic_format_bpow radix2 (FLT_exp (-1074) 53)). unfold FLT_exp. lia.
  - pose proof PI2_3_2. assert (0 < bpow radix2 (-60) < 1) by (cbn; lra). lra.
  - apply longitude64_360. cbn. lra.
Qed.
Print Assumptions C124_longitude_refuted.
Theorem C124_longitude_partial : forall l, - pi64 <= l <= pi64 -> 0 <= longitude64 l <= 360.
Proof. exact longitude64_range. Qed.
Print Assumptions C124_longitude_partial.
