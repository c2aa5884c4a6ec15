(* The distance between orbits: theorems about src/adam_core/dynamics/moid.py. *)
From Coq Require Import Reals Lra Psatz Field.
From Verif Require Import Base SphModel KepModel KepElem KepTrip FrameProofs UnivOrbit LightProofs GaussVel LambertModel LambertGeom MoidModel MoidSpec MoidProofs.
Open Scope R_scope.

(* C75: which angles give a point of the ellipse *)
Theorem C75_points_partial : forall a e u X, 0 < a -> 0 <= e < 1 -> curve_point a e u = Some X -> (on_ellipse a e X <-> e = 0 \/ sin (u / 2) = 0).
Proof. exact curve_iff. Qed.
Lemma tan_quarter : tan (PI / 2 / 2) = 1.
Proof. replace (PI / 2 / 2) with (PI / 4) by field. apply tan_PI4. Qed.
Lemma quarter : 0 < sin (PI / 2 / 2) /\ 0 < cos (PI / 2 / 2).
Proof. pose proof PI_RGT_0. split; [apply sin_gt_0; lra|apply cos_gt_0; lra]. Qed.
Theorem C75_points_refuted : exists a e u X, 0 < a /\ 0 < e < 1 /\ 0 < u < 2 * PI /\ curve_point a e u = Some X /\ ~ on_ellipse a e X /\
  forall P, coplanar_distance_to_ellipse P a e u = Some (norm (vminus P X)).
Proof.
  pose proof PI_RGT_0 as PP. destruct quarter as [QS QC].
  assert (D : curve_point 1 (1 / 2) (PI / 2) <> None). { unfold curve_point. destruct (Rle_dec 1 (1 / 2)); [lra|]. destruct (Req_EM_T _ _); [lra|discriminate]. }
  destruct (curve_point 1 (1 / 2) (PI / 2)) as [X|] eqn:H; [|congruence]. exists 1, (1 / 2), (PI / 2), X. repeat split; try lra; try exact H.
  - intro O. apply (curve_iff 1 (1 / 2) (PI / 2) X ltac:(lra) ltac:(lra) H) in O. lra.
  - intro P. unfold coplanar_distance_to_ellipse. rewrite H. reflexivity.
Qed.
(* the two-focus description is the orbit: every position on an orbit in the reference plane with its
   perihelion on the x axis satisfies it *)
Example ellipse_is_orbit : forall a e X, 0 < a -> 0 <= e < 1 -> on_orbit (a * (1 - e ^ 2)) e 0 0 0 X -> on_ellipse a e X.
Proof.
  intros a e X A E (nu & C & ->). rewrite pos_flat by exact C. replace (0 + nu) with nu by ring. apply ellipse_focal; try assumption; [reflexivity|].
  assert (0 < a * (1 - e ^ 2)) by (apply Rmult_lt_0_compat; nra). rewrite norm_plane by (left; apply Rdiv_lt_0_compat; lra). cbn [vx fst]. field. lra.
Qed.

(* C165: the value for two orbits that meet *)
Theorem C165_moid_refuted : exists s1 s2,
  (* two ellipses in the reference plane that have a point in common *)
  s1 = perifocal (3 / 4) (1 / 2) 0 0 0 0 1 /\ s2 = perifocal (3 / 2) (1 / 2) 0 0 PI 0 1 /\
  (exists X, on_orbit (3 / 4) (1 / 2) 0 0 0 X /\ on_orbit (3 / 2) (1 / 2) 0 0 PI X) /\
  (* whatever the minimiser does, the reported distance is at least a quarter *)
  forall minimize propagate period t0 moid t, (forall dt, on_orbit (3 / 4) (1 / 2) 0 0 0 (propagate dt)) ->
    calculate_moid minimize propagate (1 / 2) period s2 t0 1 = Ok (Some moid, t) -> 1 / 4 <= moid.
Proof.
  exists one, two. split; [reflexivity|]. split; [reflexivity|]. split; [exact crossing|]. intros minimize propagate period t0 moid t O H.
  unfold calculate_moid in H. destruct (minimize _ _ _) as [dt ok]. destruct ok; [|discriminate]. apply (far minimize (propagate dt) t0 moid (O dt)). congruence.
Qed.
(* a minimiser with which that search does return a number: it stops a quarter turn in *)
Example moid_returns : exists moid t, calculate_moid (fun _ _ _ => (PI / 2, true)) (fun dt => pos (perifocal (3 / 4) (1 / 2) 0 0 0 0 1)) (1 / 2) 1 (perifocal (3 / 2) (1 / 2) 0 0 PI 0 1) 0 1 = Ok (Some moid, t).
Proof.
  destruct trig0 as (C0 & _). set (P0 := pos _). assert (O : on_orbit (3 / 4) (1 / 2) 0 0 0 P0) by (exists 0; split; [rewrite C0; lra|reflexivity]).
  destruct (first_focal P0 O) as [Z _]. destruct (two_facts P0 0 Z) as (PP & k & K & A & E). unfold calculate_moid, calculate_distance. fold two. rewrite PP. cbn [obind]. rewrite K. cbn [obind]. rewrite A. cbn [obind]. rewrite E.
  unfold minimize_distance, coplanar_distance_to_ellipse, curve_point. cbn [fst]. destruct (Rle_dec 1 (1 / 2)); [lra|]. destruct (Req_EM_T _ _); [pose proof quarter; lra|]. cbn [option_map obind]. eexists. eexists. reflexivity.
Qed.

(* circular secondary orbits in the reference plane *)
Lemma circle_curve : forall a u, cos (u / 2) <> 0 -> curve_point a 0 u = Some (a * cos u, a * sin u, 0).
Proof.
  intros a u C. unfold curve_point. destruct (Rle_dec 1 0); [lra|]. destruct (Req_EM_T _ _); [contradiction|]. cbv zeta. f_equal.
  replace ((1 + 0) / (1 - 0)) with 1 by field. rewrite sqrt_1, Rmult_1_l. destruct (cos_2atan (tan (u / 2))) as [A B]. rewrite A, B. unfold tan.
  pose proof (cos_2a (u / 2)) as CA. pose proof (sin_2a (u / 2)) as SA. replace (2 * (u / 2)) with u in CA, SA by field. rewrite CA, SA. pose proof (sc1 (u / 2)) as S1.
  set (c := cos (u / 2)) in *. set (s := sin (u / 2)) in *. assert (CC : c * c <> 0) by nra. assert (SC : s * s + c * c = 1) by lra.
  apply f_equal2; [apply f_equal2|reflexivity].
  - replace ((1 - s / c * (s / c)) / (1 + s / c * (s / c))) with ((c * c - s * s) / (s * s + c * c)) by (field; repeat split; try assumption; lra). rewrite SC. field.
  - replace (2 * (s / c) / (1 + s / c * (s / c))) with (2 * s * c / (s * s + c * c)) by (field; repeat split; try assumption; lra). rewrite SC. field.
Qed.
Theorem C165_circle_partial : forall a raan ap nu mu t0 minimize P0 d, 0 < a -> 0 < mu ->
  calculate_distance minimize P0 (perifocal a 0 0 raan ap nu mu) t0 mu = Some d ->
  (exists Q, on_orbit a 0 0 raan ap Q /\ d = norm (vminus P0 Q)) /\
  (* if the minimiser is right to within tol, so is the distance, for every point but (-a,0,0) *)
  (forall tol, 0 <= tol -> (forall f u x y, 0 < u < 2 * PI -> f (fst (minimize f 0 (2 * PI))) = Some x -> f u = Some y -> x <= y + tol) ->
     forall Q, on_orbit a 0 0 raan ap Q -> Q <> (- a, 0, 0) -> Q <> (a, 0, 0) -> d <= norm (vminus P0 Q) + tol).
Proof.
  intros a o w nu mu t0 minimize P0 d A M H. split; [exact (circle_right _ _ _ _ _ _ _ _ _ A M H)|]. intros tol T MIN Q OQ NQ NQ'.
  pose proof tol_small. assert (C : 0 < 1 + 0 * cos nu) by lra. set (s := perifocal a 0 0 o w nu mu) in *. unfold calculate_distance in H.
  destruct (project_point_on_plane P0 s) as [P|] eqn:PP; [|discriminate]. cbn [obind] in H. destruct (elements_ae a 0 0 o w nu mu t0 A M ltac:(lra) C) as (k & K & KA & KE). fold s in K. rewrite K in H. cbn [obind] in H. rewrite KA in H. cbn [obind] in H. rewrite KE in H.
  assert (A1 : a / (1 - 0 ^ 2) = a) by field. rewrite A1 in H. unfold minimize_distance in H. set (f := coplanar_distance_to_ellipse P a 0) in *. destruct (f (fst (minimize f 0 (2 * PI)))) as [x|] eqn:FX; [|discriminate]. cbn [obind] in H.
  assert (HD : distance_from_point_to_ellipse P0 P x = d) by congruence.
  assert (QE : exists v, Q = (a * cos v, a * sin v, 0)).
  { destruct OQ as (n & _ & ->). exists (o + w + n). rewrite (pos_s a 0 0 o w n 1 ltac:(lra)). destruct trig0 as (C0 & S0 & _). unfold lin, peri, along_track. rewrite C0, S0, !cos_plus, !sin_plus, !cos_plus. cbn. apply f_equal2; [apply f_equal2|]; field. }
  destruct QE as (v & QE).
  assert (U : exists u, 0 < u < 2 * PI /\ cos (u / 2) <> 0 /\ Q = (a * cos u, a * sin u, 0)).
  { pose proof PI_RGT_0 as PR. pose proof (sc1 v) as SV. assert (CB : -1 <= cos v <= 1) by apply COS_bound.
    assert (NE : cos v <> 1 /\ cos v <> -1).
    { split; intro B; assert (SZ : sin v = 0) by nra; [apply NQ'|apply NQ]; rewrite QE, B, SZ; apply f_equal2; [apply f_equal2| |apply f_equal2|]; ring. }
    pose proof (acos_bound (cos v)) as AB. pose proof (cos_acos (cos v) CB) as CA. set (t := acos (cos v)) in *. pose proof (sc1 t) as ST. rewrite CA in ST.
    assert (T1 : t <> 0) by (intro B; rewrite B, cos_0 in CA; lra). assert (T2 : t <> PI) by (intro B; rewrite B, cos_PI in CA; lra).
    assert (T0 : 0 < t) by (destruct (proj1 AB) as [|B]; [assumption|congruence]). assert (TP : t < PI) by (destruct (proj2 AB) as [|B]; [assumption|congruence]). pose proof (sin_gt_0 t T0 TP) as SP.
    assert (half : forall u, 0 < u < PI -> cos (u / 2) <> 0) by (intros u Hu; apply Rgt_not_eq, cos_gt_0; lra).
    destruct (Rlt_dec (sin v) 0) as [L|L].
    - exists (2 * PI - t). split; [lra|]. split.
      + replace ((2 * PI - t) / 2) with (- (t / 2) + PI) by field. rewrite neg_cos, cos_neg. apply Ropp_neq_0_compat, half. lra.
      + rewrite QE. replace (2 * PI - t) with (- t + 2 * INR 1 * PI) by (cbn; ring). rewrite cos_period, sin_period, cos_neg, sin_neg, CA. replace (- sin t) with (sin v) by nra. reflexivity.
    - exists t. split; [lra|]. split; [apply half; lra|]. rewrite QE, CA. replace (sin t) with (sin v) by nra. reflexivity. }
  destruct U as (u & UB & UC & UE). assert (FU : f u = Some (norm (vminus P Q))) by (unfold f, coplanar_distance_to_ellipse; rewrite circle_curve by exact UC; rewrite UE; reflexivity).
  pose proof (MIN f u x _ UB FX FU) as LE. destruct (projected P0 s P PP) as [_ PR].
  assert (IQ : in_plane s Q). { unfold in_plane, s. rewrite (h_vec a 0 0 o w nu mu A M C), dot_scale_l, QE. unfold pole. rewrite sin_0. cbn. ring. }
  destruct (PR Q IQ) as [_ DQ]. rewrite <- DQ, <- HD. set (y := norm (vminus P Q)) in *. assert (Y : 0 <= y) by apply norm_nonneg.
  assert (X : 0 <= x). { unfold f, coplanar_distance_to_ellipse in FX. destruct (curve_point _ _ _); [|discriminate]. cbn [option_map] in FX. assert (XE : norm (vminus P v0) = x) by congruence. rewrite <- XE. apply norm_nonneg. }
  unfold distance_from_point_to_ellipse. set (q := norm (vminus P P0)). assert (SY : y <= sqrt (q ^ 2 + y ^ 2)) by (rewrite <- (sqrt_pow2 y Y) at 1; apply sqrt_le_1_alt; nra).
  assert (S2 : sqrt (q ^ 2 + y ^ 2) * sqrt (q ^ 2 + y ^ 2) = q ^ 2 + y ^ 2) by (apply sqrt_sqrt; nra). set (z := sqrt (q ^ 2 + y ^ 2)) in *.
  rewrite <- (sqrt_pow2 (z + tol)) by lra. apply sqrt_le_1_alt. assert (x ^ 2 <= (y + tol) ^ 2) by nra. assert (y * tol <= z * tol) by nra. nra.
Qed.
Example circle_meets : exists d, calculate_distance (fun _ _ _ => (PI / 2, true)) (3, 0, 4) (perifocal 1 0 0 0 0 0 1) 0 1 = Some d.
Proof.
  pose proof tol_small. destruct (elements_ae 1 0 0 0 0 0 1 0 ltac:(lra) ltac:(lra) ltac:(lra) ltac:(lra)) as (k & K & KA & KE). unfold calculate_distance, project_point_on_plane.
  rewrite (h_vec 1 0 0 0 0 0 1 ltac:(lra) ltac:(lra) ltac:(lra)), h_norm. pose proof (mp_pos 1 1 ltac:(lra) ltac:(lra)). destruct (Req_EM_T _ _); [lra|]. cbn [obind]. rewrite K. cbn [obind]. rewrite KA. cbn [obind]. rewrite KE. unfold minimize_distance, coplanar_distance_to_ellipse. rewrite circle_curve; [cbn; eexists; reflexivity|].
  cbn [fst]. pose proof quarter. lra.
Qed.

(* C166: splitting the distance into the part across and the part along the plane *)
Theorem C166_projection : forall P0 s P, project_point_on_plane P0 s = Some P ->
  in_plane s P /\
  forall Q, in_plane s Q ->
    dot (vminus P P0) (vminus P Q) = 0 /\ norm (vminus P P0) <= norm (vminus P0 Q) /\
    distance_from_point_to_ellipse P0 P (norm (vminus P Q)) = norm (vminus P0 Q).
Proof.
  intros P0 s P H. destruct (projected P0 s P H) as [I D]. split; [exact I|]. intros Q IQ. destruct (D Q IQ) as [O E]. split; [exact O|]. split; [|exact E].
  rewrite <- E. unfold distance_from_point_to_ellipse. rewrite <- (sqrt_pow2 (norm (vminus P P0)) (norm_nonneg _)) at 1. apply sqrt_le_1_alt. nra.
Qed.
Theorem C166_defined : forall P0 s, (cross (pos s) (vel s) = (0, 0, 0) <-> project_point_on_plane P0 s = None).
Proof.
  intros P0 s. unfold project_point_on_plane. cbv zeta. set (h := cross (pos s) (vel s)). split.
  - intro H. rewrite H. assert (Z : norm (0, 0, 0) = 0) by (apply norm_of; [lra|cbn; ring]). destruct (Req_EM_T _ _); [reflexivity|congruence].
  - destruct (Req_EM_T (norm h) 0) as [Z|]; [|discriminate]. intros _. apply norm_0_vec. exact Z.
Qed.
Example project_some : project_point_on_plane (3, 4, 5) (row_of (1, 0, 0) (0, 2, 0)) = Some (3, 4, 0).
Proof.
  unfold project_point_on_plane. rewrite pos_row, vel_row. cbv zeta. assert (N : norm (cross (1, 0, 0) (0, 2, 0)) = 2) by (apply norm_of; [lra|cbn; ring]). rewrite N. destruct (Req_EM_T 2 0); [lra|]. f_equal. cbn. apply f_equal2; [apply f_equal2|]; field.
Qed.
Print Assumptions C75_points_partial.
Print Assumptions C75_points_refuted.
Print Assumptions C165_moid_refuted.
Print Assumptions C165_circle_partial.
Print Assumptions C166_projection.
Print Assumptions C166_defined.
