From Coq Require Import Reals Lra Psatz Field.
From Verif Require Import Base SphModel KepModel KepElem KepTrip FrameProofs UnivOrbit LightProofs GaussVel LambertModel LambertGeom MoidModel MoidSpec.
Open Scope R_scope.

Lemma cos_2atan : forall z, cos (2 * atan z) = (1 - z * z) / (1 + z * z) /\ sin (2 * atan z) = 2 * z / (1 + z * z).
Proof.
  intro z. assert (P : 0 < 1 + z * z) by nra. pose proof (sqrt_sqrt (1 + z * z) ltac:(lra)) as S. pose proof (sqrt_lt_R0 _ P) as SP.
  rewrite cos_2a, sin_2a, sin_atan, cos_atan. unfold Rsqr. set (q := sqrt (1 + z * z)) in *. rewrite <- S. assert (Z : z * z = q * q - 1) by lra. split; field_simplify_eq; try lra; try nra.
Qed.
Lemma norm_plane : forall r v, 0 <= r -> norm (r * cos v, r * sin v, 0) = r.
Proof. intros r v H. apply norm_of; [exact H|]. cbn. pose proof (sc1 v). nra. Qed.
(* the curve in terms of t = tan (u/2) *)
Lemma curve_is : forall a e u X, 0 < a -> 0 <= e < 1 -> curve_point a e u = Some X ->
  let t := tan (u / 2) * tan (u / 2) in
  exists r c, X = (r * c, vy X, 0) /\ norm X = r /\ 0 < r /\ r = a * (1 - e) * (1 + e) * (1 + t) / ((1 + e) + (1 - e) * t) /\ c = ((1 - e) - (1 + e) * t) / ((1 - e) + (1 + e) * t).
Proof.
  intros a e u X A E H t. unfold curve_point in H. destruct (Rle_dec 1 e) as [|_]; [lra|]. destruct (Req_EM_T _ _) as [|_]; [discriminate|].
  cbv zeta in H. assert (T : 0 <= t) by (unfold t; nra).
  assert (K1 : sqrt ((1 - e) / (1 + e)) * sqrt ((1 - e) / (1 + e)) = (1 - e) / (1 + e)) by (apply sqrt_sqrt; left; apply Rdiv_lt_0_compat; lra).
  assert (K2 : sqrt ((1 + e) / (1 - e)) * sqrt ((1 + e) / (1 - e)) = (1 + e) / (1 - e)) by (apply sqrt_sqrt; left; apply Rdiv_lt_0_compat; lra).
  set (k1 := sqrt ((1 - e) / (1 + e))) in *. set (k2 := sqrt ((1 + e) / (1 - e))) in *. set (z := tan (u / 2)) in *.
  pose proof (cos_2atan (k1 * z)) as [C1 _]. pose proof (cos_2atan (k2 * z)) as [C2 _].
  replace (k1 * z * (k1 * z)) with ((1 - e) / (1 + e) * t) in C1 by (rewrite <- K1; unfold t; ring). replace (k2 * z * (k2 * z)) with ((1 + e) / (1 - e) * t) in C2 by (rewrite <- K2; unfold t; ring).
  assert (D1 : 0 < (1 + e) + (1 - e) * t) by nra. assert (D2 : 0 < (1 - e) + (1 + e) * t) by nra.
  set (r := a * (1 - e * cos (2 * atan (k1 * z)))) in *.
  assert (R : r = a * (1 - e) * (1 + e) * (1 + t) / ((1 + e) + (1 - e) * t)) by (unfold r; rewrite C1; field; repeat split; lra).
  assert (RP : 0 < r). { rewrite R. apply Rdiv_lt_0_compat; [|exact D1]. repeat apply Rmult_lt_0_compat; lra. }
  assert (XE : X = (r * cos (2 * atan (k2 * z)), r * sin (2 * atan (k2 * z)), 0)) by congruence.
  exists r, (cos (2 * atan (k2 * z))). rewrite XE. split; [reflexivity|]. split; [apply norm_plane; lra|]. split; [exact RP|]. split; [exact R|]. rewrite C2. field. repeat split; lra.
Qed.
Lemma vx_norm : forall X, - norm X <= vx X <= norm X.
Proof.
  intro X. pose proof (norm_nonneg X) as N. pose proof (norm_sq X) as S. set (n := norm X) in *. clearbody n. destruct X as [[x y] z]. cbn in S |- *. assert (x * x <= n * n) by nra. nra.
Qed.
(* foci and directrix *)
Lemma ellipse_focal : forall a e X, 0 < a -> 0 <= e < 1 -> vz X = 0 -> (on_ellipse a e X <-> norm X + e * vx X = a * (1 - e) * (1 + e)).
Proof.
  intros a e X A E Z. unfold on_ellipse. pose proof (norm_nonneg X) as N. set (f := vminus X (- (2 * a * e), 0, 0)). pose proof (norm_nonneg f) as NF.
  assert (Q : norm f ^ 2 = norm X ^ 2 + 4 * a * e * vx X + 4 * a * a * e * e). { rewrite !norm_sq. unfold f. destruct X as [[x y] z]. cbn. ring. }
  pose proof (vx_norm X) as XB.
  split.
  - intros [_ H]. assert (F : norm f = 2 * a - norm X) by lra. rewrite F in Q. nra.
  - intro H. split; [exact Z|]. assert (F : norm f = 2 * a - norm X); [|lra].
    assert (B : norm X <= a * (1 + e)).
    { apply Rmult_le_reg_r with (1 - e); [lra|]. assert (e * (- norm X) <= e * vx X) by (apply Rmult_le_compat_l; lra). lra. }
    assert (B2 : norm X <= 2 * a) by nra. assert (S : norm f ^ 2 = (2 * a - norm X) ^ 2).
    { rewrite Q. replace (norm X) with (a * (1 - e) * (1 + e) - e * vx X) at 2 by lra. replace (norm X) with (a * (1 - e) * (1 + e) - e * vx X) by lra. ring. }
    nra.
Qed.
Lemma curve_iff : forall a e u X, 0 < a -> 0 <= e < 1 -> curve_point a e u = Some X -> (on_ellipse a e X <-> e = 0 \/ sin (u / 2) = 0).
Proof.
  intros a e u X A E H. destruct (curve_is a e u X A E H) as (r & c & XE & NX & RP & R & C).
  assert (CN : cos (u / 2) <> 0). { unfold curve_point in H. destruct (Rle_dec 1 e); [lra|]. destruct (Req_EM_T _ _); [discriminate|assumption]. }
  set (t := tan (u / 2) * tan (u / 2)) in *. assert (T : 0 <= t) by (unfold t; nra).
  assert (TS : t = 0 <-> sin (u / 2) = 0).
  { unfold t, tan. split; intro Q.
    - assert (W : sin (u / 2) / cos (u / 2) = 0) by nra. replace (sin (u / 2)) with (sin (u / 2) / cos (u / 2) * cos (u / 2)) by (field; exact CN). rewrite W. ring.
    - rewrite Q. unfold Rdiv. ring. }
  assert (Z : vz X = 0) by (rewrite XE; reflexivity). assert (VX : vx X = r * c) by (rewrite XE; reflexivity). rewrite (ellipse_focal a e X A E Z), NX, VX, R, C.
  assert (D1 : 0 < (1 + e) + (1 - e) * t) by nra. assert (D2 : 0 < (1 - e) + (1 + e) * t) by nra.
  assert (K : a * (1 - e) * (1 + e) * (1 + t) / (1 + e + (1 - e) * t) + e * (a * (1 - e) * (1 + e) * (1 + t) / (1 + e + (1 - e) * t) * ((1 - e - (1 + e) * t) / (1 - e + (1 + e) * t))) - a * (1 - e) * (1 + e)
    = - (4 * a * (1 - e) * (1 + e)) * (e * e * t) / ((1 + e + (1 - e) * t) * (1 - e + (1 + e) * t))) by (field; split; lra).
  set (q := 4 * a * (1 - e) * (1 + e)) in *. assert (Q : 0 < q) by (unfold q; repeat apply Rmult_lt_0_compat; lra).
  set (d := (1 + e + (1 - e) * t) * (1 - e + (1 + e) * t)) in *. assert (D : 0 < d) by (apply Rmult_lt_0_compat; assumption). split.
  - intro W. rewrite W in K. assert (V : e * e * t = 0). { replace (e * e * t) with (- (- q * (e * e * t) / d) * d / q) by (field; lra). rewrite <- K. field. lra. }
    apply Rmult_integral in V as [V|V]; [left; nra|right; apply TS, V].
  - intro W. assert (V : e * e * t = 0) by (destruct W as [W|W]; [rewrite W; ring|rewrite (proj2 TS W); ring]). rewrite V in K. assert (Z0 : - q * 0 / d = 0) by (field; lra). rewrite Z0 in K. lra.
Qed.
(* C166: the projection *)
Lemma projected : forall P0 s P, project_point_on_plane P0 s = Some P -> in_plane s P /\
  (forall Q, in_plane s Q -> dot (vminus P P0) (vminus P Q) = 0 /\ distance_from_point_to_ellipse P0 P (norm (vminus P Q)) = norm (vminus P0 Q)).
Proof.
  intros P0 s P H. unfold project_point_on_plane in H. set (h := cross (pos s) (vel s)) in *. unfold in_plane. fold h. destruct (Req_EM_T (norm h) 0) as [|N]; [discriminate|].
  apply (f_equal (fun o => match o with Some z => z | None => P end)) in H. cbv beta iota zeta in H. rewrite <- H. clear H. pose proof (norm_sq h) as H2.
  rewrite dot_scale_r, scale_scale. set (k := / norm h * dot P0 h * / norm h).
  assert (KH : k * dot h h = dot P0 h) by (rewrite <- H2; unfold k; field; exact N).
  assert (O : forall Q, dot h (vminus P0 (scale k h)) = 0 /\ dot (vminus (vminus P0 (scale k h)) P0) (vminus (vminus P0 (scale k h)) Q) = k * dot h Q).
  { intro Q. destruct h as [[h1 h2] h3], P0 as [[p1 p2] p3], Q as [[q1 q2] q3]. cbn in KH |- *. split; [nra|].
    transitivity (k * (k * (h1 * h1 + h2 * h2 + h3 * h3) - (p1 * h1 + p2 * h2 + p3 * h3)) + k * (h1 * q1 + h2 * q2 + h3 * q3)); [ring|]. rewrite KH. ring. }
  split; [exact (proj1 (O P0))|]. intros Q IQ. destruct (O Q) as [OA OB]. rewrite IQ, Rmult_0_r in OB. split; [exact OB|].
  unfold distance_from_point_to_ellipse. apply sqrt_lem_1; [nra|apply norm_nonneg|]. set (W := vminus P0 (scale k h)) in *. replace (norm (vminus P0 Q) * norm (vminus P0 Q)) with (norm (vminus P0 Q) ^ 2) by ring. rewrite !norm_sq.
  clearbody W. destruct W as [[x y] z], P0 as [[p1 p2] p3], Q as [[q1 q2] q3]. cbn in OB |- *. nra.
Qed.
(* the elements of a state on a conic *)
Lemma elements_ae : forall p e i o w nu mu t0, 0 < p -> 0 < mu -> 0 <= e <= 1 - float_tol -> 0 < 1 + e * cos nu ->
  exists k, cartesian_to_keplerian (perifocal p e i o w nu mu) t0 mu = Some k /\ k_a k = Some (p / (1 - e ^ 2)) /\ k_e k = e.
Proof.
  intros p e i o w nu mu t0 P M E C. pose proof tol_pos as TP. assert (E0 : 0 <= e) by lra. unfold cartesian_to_keplerian.
  rewrite (e_vec_is p e i o w nu mu P M C), (sme_is p e i o w nu mu P M C), (e_norm e i o w E0). rewrite (r_norm p e i o w nu mu P C).
  assert (RN : p / (1 + e * cos nu) <> 0) by (apply Rgt_not_eq, Rdiv_lt_0_compat; lra).
  destruct (Req_EM_T (p / (1 + e * cos nu)) 0) as [|_]; [contradiction|]. eexists. split; [reflexivity|]. cbn [k_a k_e]. split; [|reflexivity].
  rewrite not_parabolic_low by lra. assert (E1 : 0 < 1 - e ^ 2) by (pose proof tol_small; nra). rewrite odiv_some.
  - f_equal. field. split; [lra|]. nra.
  - replace (-2 * - (mu * (1 - e ^ 2) / (2 * p))) with (mu * (1 - e ^ 2) / p) by (field; lra). apply Rgt_not_eq, Rdiv_lt_0_compat; nra.
Qed.
(* C165: two crossing orbits *)
Definition one := perifocal (3 / 4) (1 / 2) 0 0 0 0 1.
Definition two := perifocal (3 / 2) (1 / 2) 0 0 PI 0 1.
Lemma sqrt_53 : sqrt (5 / 9) * sqrt (5 / 9) = 5 / 9.
Proof. apply sqrt_sqrt. lra. Qed.
Lemma trig0 : cos 0 = 1 /\ sin 0 = 0 /\ cos PI = -1 /\ sin PI = 0.
Proof. repeat split; [apply cos_0|apply sin_0|apply cos_PI|apply sin_PI]. Qed.
Lemma pos_flat : forall p e w nu, 0 < 1 + e * cos nu -> pos (perifocal p e 0 0 w nu 1) = (p / (1 + e * cos nu) * cos (w + nu), p / (1 + e * cos nu) * sin (w + nu), 0).
Proof.
  intros p e w nu C. rewrite (pos_s p e 0 0 w nu 1 C). destruct trig0 as (A & B & _). unfold lin, peri, along_track. rewrite A, B, cos_plus, sin_plus. cbn. apply f_equal2; [apply f_equal2|]; field; lra.
Qed.
Lemma crossing : exists X, on_orbit (3 / 4) (1 / 2) 0 0 0 X /\ on_orbit (3 / 2) (1 / 2) 0 0 PI X.
Proof.
  set (nu := acos (-2 / 3)). assert (C : cos nu = -2 / 3) by (apply cos_acos; lra).
  set (nu' := nu - PI). assert (C' : cos nu' = 2 / 3) by (unfold nu'; rewrite cos_minus, cos_PI, sin_PI, C; field).
  exists (pos (perifocal (3 / 4) (1 / 2) 0 0 0 nu 1)). split; [exists nu; split; [rewrite C; lra|reflexivity]|].
  exists nu'. split; [rewrite C'; lra|]. rewrite !pos_flat by (rewrite ?C, ?C'; lra). rewrite C, C'. replace (PI + nu') with nu by (unfold nu'; ring). replace (0 + nu) with nu by ring. apply f_equal2; [apply f_equal2|]; field.
Qed.
Lemma first_focal : forall X, on_orbit (3 / 4) (1 / 2) 0 0 0 X -> vz X = 0 /\ norm X + vx X / 2 = 3 / 4.
Proof.
  intros X (nu & C & ->). rewrite pos_flat by exact C. replace (0 + nu) with nu by ring. split; [reflexivity|]. set (r := 3 / 4 / (1 + 1 / 2 * cos nu)).
  rewrite norm_plane by (left; apply Rdiv_lt_0_compat; lra). cbn. unfold r. field. lra.
Qed.
Lemma second_curve : forall u X, curve_point 2 (1 / 2) u = Some X -> vz X = 0 /\ 9 / 8 <= norm X + vx X / 2.
Proof.
  intros u X H. destruct (curve_is 2 (1 / 2) u X ltac:(lra) ltac:(lra) H) as (r & c & XE & NX & RP & R & C). split; [rewrite XE; reflexivity|].
  assert (VX : vx X = r * c) by (rewrite XE; reflexivity). rewrite NX, VX, R, C. set (t := tan (u / 2) * tan (u / 2)). assert (T : 0 <= t) by (unfold t; nra).
  match goal with |- _ <= ?v => assert (V : 0 <= v - 9 / 8) end; [|lra].
  match goal with |- 0 <= ?v => replace v with (9 * (1 - t) ^ 2 / (8 * ((3 + t) * (1 + 3 * t)))) by (field; lra) end.
  apply Rmult_le_pos; [pose proof (pow2_ge_0 (1 - t)); lra|left; apply Rinv_0_lt_compat; nra].
Qed.
Lemma apart : forall A B, vz A = 0 -> vz B = 0 -> norm A + vx A / 2 = 3 / 4 -> 9 / 8 <= norm B + vx B / 2 -> 1 / 4 <= norm (vminus A B).
Proof.
  intros A B ZA ZB FA FB. pose proof (norm_nonneg (vminus A B)) as N. pose proof (norm_sq (vminus A B)) as S.
  assert (T : norm B <= norm (vminus A B) + norm A).
  { assert (E : B = vminus A (vminus A B)) by (destruct A as [[? ?] ?], B as [[? ?] ?]; cbn; vring). rewrite E at 1. pose proof (triangle (vminus A B) A). lra. }
  assert (D : vx B - vx A <= norm (vminus A B)). { pose proof (vx_norm (vminus A B)) as V. destruct A as [[a1 a2] a3], B as [[b1 b2] b3]. cbn [vminus vx vy vz vplus scale fst snd] in V |- *. cbn in V. lra. }
  lra.
Qed.
Lemma two_facts : forall P0 t0, vz P0 = 0 -> project_point_on_plane P0 two = Some P0 /\
  exists k, cartesian_to_keplerian two t0 1 = Some k /\ k_a k = Some 2 /\ k_e k = 1 / 2.
Proof.
  intros P0 t0 Z. destruct trig0 as (C0 & S0 & _). pose proof tol_small. assert (C : 0 < 1 + 1 / 2 * cos 0) by (rewrite C0; lra). split.
  - unfold project_point_on_plane, two. rewrite (h_vec (3 / 2) (1 / 2) 0 0 PI 0 1 ltac:(lra) ltac:(lra) C). rewrite h_norm.
    pose proof (mp_pos (3 / 2) 1 ltac:(lra) ltac:(lra)) as M. set (m := sqrt (1 * (3 / 2))) in *. destruct (Req_EM_T m 0) as [|_]; [lra|]. f_equal. unfold pole. rewrite C0, S0. destruct P0 as [[x y] z]. cbn in Z |- *. subst z. apply f_equal2; [apply f_equal2|]; field; lra.
  - destruct (elements_ae (3 / 2) (1 / 2) 0 0 PI 0 1 t0 ltac:(lra) ltac:(lra) ltac:(lra) C) as (k & K & A & E). exists k. split; [exact K|]. split; [rewrite A; f_equal; field|exact E].
Qed.
Lemma far : forall minimize P0 t0 d, on_orbit (3 / 4) (1 / 2) 0 0 0 P0 -> calculate_distance minimize P0 two t0 1 = Some d -> 1 / 4 <= d.
Proof.
  intros minimize P0 t0 d O H. destruct (first_focal P0 O) as [Z F]. destruct (two_facts P0 t0 Z) as (PP & k & K & A & E). unfold calculate_distance in H. rewrite PP in H. cbn [obind] in H. rewrite K in H. cbn [obind] in H. rewrite A in H. cbn [obind] in H. rewrite E in H.
  unfold minimize_distance in H. set (u := fst _) in H. unfold coplanar_distance_to_ellipse in H. destruct (curve_point 2 (1 / 2) u) as [X|] eqn:CP; [|discriminate]. cbn [option_map obind] in H.
  assert (HD : distance_from_point_to_ellipse P0 P0 (norm (vminus P0 X)) = d) by congruence. rewrite <- HD. destruct (second_curve u X CP) as [ZX FX]. pose proof (apart P0 X Z ZX F FX) as AP.
  unfold distance_from_point_to_ellipse. apply Rle_trans with (sqrt (norm (vminus P0 X) ^ 2)).
  - rewrite sqrt_pow2; [exact AP|apply norm_nonneg].
  - apply sqrt_le_1_alt. nra.
Qed.
(* circular orbits in the reference plane *)
Lemma circle_right : forall a raan ap nu mu t0 minimize P0 d, 0 < a -> 0 < mu ->
  calculate_distance minimize P0 (perifocal a 0 0 raan ap nu mu) t0 mu = Some d -> exists Q, on_orbit a 0 0 raan ap Q /\ d = norm (vminus P0 Q).
Proof.
  intros a o w nu mu t0 minimize P0 d A M H. pose proof tol_small. assert (C : 0 < 1 + 0 * cos nu) by lra. set (s := perifocal a 0 0 o w nu mu) in *.
  unfold calculate_distance in H. destruct (project_point_on_plane P0 s) as [P|] eqn:PP; [|discriminate]. cbn [obind] in H.
  destruct (elements_ae a 0 0 o w nu mu t0 A M ltac:(lra) C) as (k & K & KA & KE). fold s in K. rewrite K in H. cbn [obind] in H. rewrite KA in H. cbn [obind] in H. rewrite KE in H.
  unfold minimize_distance in H. set (u := fst _) in H. unfold coplanar_distance_to_ellipse in H. destruct (curve_point _ 0 u) as [X|] eqn:CP; [|discriminate]. cbn [option_map obind] in H.
  assert (HD : distance_from_point_to_ellipse P0 P (norm (vminus P X)) = d) by congruence. exists X.
  assert (A1 : a / (1 - 0 ^ 2) = a) by field. rewrite A1 in CP.
  unfold curve_point in CP. destruct (Rle_dec 1 0) as [|_]; [lra|]. destruct (Req_EM_T _ _) as [|_]; [discriminate|]. cbv zeta in CP.
  set (v := 2 * atan (sqrt ((1 + 0) / (1 - 0)) * tan (u / 2))) in *. assert (XE : X = (a * cos v, a * sin v, 0)). { apply (f_equal (fun o => match o with Some z => z | None => X end)) in CP. rewrite <- CP. apply f_equal2; [apply f_equal2|]; ring. }
  assert (PS : forall n, pos (perifocal a 0 0 o w n 1) = (a * cos (o + w + n), a * sin (o + w + n), 0)).
  { intro n. rewrite (pos_s a 0 0 o w n 1 ltac:(lra)). destruct trig0 as (C0 & S0 & _). unfold lin, peri, along_track. rewrite C0, S0, !cos_plus, !sin_plus, !cos_plus. cbn. apply f_equal2; [apply f_equal2|]; field. }
  split.
  - exists (v - o - w). split; [lra|]. rewrite PS, XE. replace (o + w + (v - o - w)) with v by ring. reflexivity.
  - destruct (projected P0 s P PP) as [_ D]. rewrite <- HD. apply D. unfold in_plane, s. rewrite (h_vec a 0 0 o w nu mu A M C). rewrite dot_scale_l, XE. unfold pole. rewrite sin_0. cbn. ring.
Qed.
