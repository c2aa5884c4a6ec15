(* Theorems about units, frames and the RIC triad. *)
From Coq Require Import Reals Lra Lia List String.
From Verif Require Import Base SphModel KepModel KepSpec KepElem UnivModel UnivSpec UnivOrbit UnivTime UnivProofs LightModel LightProofs FrameModel FrameSpec FrameProofs.
Import ListNotations.
Open Scope R_scope.

(* C77 *)
Theorem C77_units :
  (forall x, km_to_au (au_to_km x) = x /\ au_to_km (km_to_au x) = x /\
     km_per_s_to_au_per_day (au_per_day_to_km_per_s x) = x /\ au_per_day_to_km_per_s (km_per_s_to_au_per_day x) = x) /\
  (forall v i, values_km_to_au (values_au_to_km v) i = v i /\ values_au_to_km (values_km_to_au v) i = v i) /\
  (forall c i j, covariance_km_to_au (covariance_au_to_km c) i j = c i j /\ covariance_au_to_km (covariance_km_to_au c) i j = c i j).
Proof.
  pose proof km_pos as K. pose proof day_pos as D. split; [|split].
  - intro x. unfold km_to_au, au_to_km, km_per_s_to_au_per_day, au_per_day_to_km_per_s. repeat split; field; lra.
  - intros v i. pose proof (unit_inv i) as U. rewrite unit_values_back, unit_values, unit_values, unit_values_back.
    split; [rewrite Rmult_assoc, U|rewrite Rmult_assoc, (Rmult_comm (unit_km_to_au i)), U]; ring.
  - intros c i j. pose proof (unit_inv i) as U. pose proof (unit_inv j) as W. unfold covariance_km_to_au, covariance_au_to_km.
    destruct (c i j) as [x|]; cbn [option_map]; [|split; reflexivity]. split; f_equal.
    + transitivity (x * (unit_au_to_km i * unit_km_to_au i) * (unit_au_to_km j * unit_km_to_au j)); [ring|rewrite U, W; ring].
    + transitivity (x * (unit_au_to_km i * unit_km_to_au i) * (unit_au_to_km j * unit_km_to_au j)); [ring|rewrite U, W; ring].
Qed.
Print Assumptions C77_units.
(* the converted covariance of any weighted samples is the covariance of the converted samples *)
Theorem C77_covariance : forall (c : covariance) ws,
  (forall i j, c i j = Some (covariance_of ws i j)) ->
  (forall i j, covariance_au_to_km c i j = Some (covariance_of (map (fun wx => (fst wx, values_au_to_km (snd wx))) ws) i j)) /\
  (forall i j, covariance_km_to_au c i j = Some (covariance_of (map (fun wx => (fst wx, values_km_to_au (snd wx))) ws) i j)).
Proof.
  intros c ws H. split; intros i j.
  - rewrite (map_values values_au_to_km unit_au_to_km) by (exact unit_values). rewrite covariance_scaled. unfold covariance_au_to_km. rewrite H. reflexivity.
  - rewrite (map_values values_km_to_au unit_km_to_au) by (exact unit_values_back). rewrite covariance_scaled. unfold covariance_km_to_au. rewrite H. reflexivity.
Qed.
Print Assumptions C77_covariance.
(* two states, one au and one au/d apart *)
Example C77_case : let ws := [(1 / 2, fun _ => 0); (1 / 2, fun _ => 1)] in
  covariance_of ws 0 3 = 1 / 4 /\ au_to_km 1 = 1495978707 / 10 /\ au_per_day_to_km_per_s 1 = 1495978707 / 864000.
Proof.
  unfold covariance_of, au_to_km, au_per_day_to_km_per_s, km_p_au, s_p_day. cbn [spread_of mean_of]. repeat split; field.
Qed.

(* C78: between the ecliptic and the equatorial frame and back *)
Theorem C78_frames : forall itrf c f g v, (f = "ecliptic" /\ g = "equatorial" \/ f = "equatorial" /\ g = "ecliptic")%string ->
  c_frame c = f -> (forall i, (i < 6)%nat -> c_values c i = Some (v i)) ->
  exists c1 c2 w, cartesian_to_frame itrf c g = Ok c1 /\ cartesian_to_frame itrf c1 f = Ok c2 /\ c_frame c1 = g /\ c_frame c2 = f /\
    (forall i, (i < 6)%nat -> c_values c1 i = Some (w i)) /\ position2 w = position2 v /\ velocity2 w = velocity2 v /\
    (forall i, (i < 6)%nat -> c_values c2 i = c_values c i) /\
    forall k, (forall i j, (i < 6)%nat -> (j < 6)%nat -> c_cov c i j = Some (k i j)) ->
    forall i j, (i < 6)%nat -> (j < 6)%nat -> exists y, c_cov c2 i j = Some y /\ Rabs (y - k i j) <= 3 * / 10 ^ 25.
Proof.
  intros itrf c f g v FG F H.
  assert (G : exists m, (m = eq2ec \/ m = ec2eq) /\ turns m /\ cartesian_to_frame itrf c g = Ok (rotate m g c) /\
    forall c', c_frame c' = g -> cartesian_to_frame itrf c' f = Ok (rotate (transpose m) f c')).
  { destruct FG as [[-> ->]|[-> ->]]; [exists ec2eq|exists eq2ec].
    - split; [right; reflexivity|]. split; [apply ec2eq_turns|]. unfold cartesian_to_frame. rewrite F. split; [reflexivity|]. intros c' F'. rewrite F'. reflexivity.
    - split; [left; reflexivity|]. split; [apply eq2ec_turns|]. unfold cartesian_to_frame. rewrite F. split; [reflexivity|]. intros c' F'. rewrite F'. reflexivity. }
  destruct G as (m & E & M & A & B). exists (rotate m g c), (rotate (transpose m) f (rotate m g c)), (fun i => sum6 (fun j => m i j * v j)).
  destruct (lengths m v M E) as [L1 L2].
  split; [exact A|]. split; [apply B; reflexivity|]. split; [reflexivity|]. split; [reflexivity|].
  split; [intros i _; apply rotate_complete; exact H|]. split; [exact L1|]. split; [exact L2|].
  split; [intros i I; cbn [c_values rotate]; apply (rotate_back m _ v M H i I)|].
  intros k K i j I J. destruct (covariance_back m (c_cov c) k M K i j I J) as (y & Y & D & _). exists y. split; [exact Y|exact D].
Qed.
Print Assumptions C78_frames.
Theorem C78_other_frames : forall itrf c f,
  (f = c_frame c -> (f = "ecliptic" \/ f = "equatorial" \/ f = "itrf93")%string -> cartesian_to_frame itrf c f = Ok c) /\
  ((c_frame c = "ecliptic" \/ c_frame c = "equatorial")%string -> (f <> "ecliptic" /\ f <> "equatorial" /\ f <> "itrf93")%string ->
     cartesian_to_frame itrf c f = Err ValueError).
Proof.
  intros itrf c f. split.
  - intros E [-> |[-> | ->]]; unfold cartesian_to_frame; rewrite <- E; reflexivity.
  - intros E (A & B & D). unfold cartesian_to_frame. apply String.eqb_neq in A, B, D. rewrite A, B, D. cbn [andb negb].
    assert (N : f <> c_frame c) by (intro Q; destruct E as [E|E]; rewrite E in Q; subst f; [rewrite String.eqb_refl in A|rewrite String.eqb_refl in B]; discriminate).
    apply String.eqb_neq in N. rewrite N. destruct E as [-> | ->]; reflexivity.
Qed.
Print Assumptions C78_other_frames.
(* the pole of the ecliptic is tilted in the equatorial frame *)
Example C78_case : rotate_values ec2eq (fun i => Some (if Nat.eqb i 2 then 1 else 0)) 1%nat = Some (- sin obliquity) /\ sin obliquity <> 0.
Proof.
  split.
  - rewrite (rotate_complete ec2eq _ (fun i => if Nat.eqb i 2 then 1 else 0)) by reflexivity. f_equal. unfold sum6, ec2eq, eq2ec, rot3. cbn [Nat.ltb Nat.leb andb Nat.sub Nat.eqb]. ring.
  - pose proof sin2_oblique. nra.
Qed.

(* C137 refuted: coordinates without velocities come out of a change of frame at rest *)
Theorem C137_missing_refuted : exists c c', c_frame c = "ecliptic"%string /\
  (forall i, (i < 3)%nat -> c_values c i <> None) /\ (forall i, (3 <= i < 6)%nat -> c_values c i = None) /\
  (forall itrf, cartesian_to_frame itrf c "equatorial" = Ok c') /\ forall i, (3 <= i < 6)%nat -> c_values c' i = Some 0.
Proof.
  exists (mkcoords (fun i => if Nat.ltb i 3 then Some 1 else None) (fun _ _ => None) "ecliptic"). eexists. split; [reflexivity|].
  split; [intros i I; cbn [c_values]; destruct (Nat.ltb_spec i 3); [discriminate|lia]|].
  split; [intros i I; cbn [c_values]; destruct (Nat.ltb_spec i 3); [lia|reflexivity]|].
  split; [intro itrf; reflexivity|]. intros i I. cbn [c_values rotate]. unfold rotate_values. cbn [Nat.ltb Nat.leb missing andb]. f_equal.
  unfold sum6. cbn [Nat.ltb Nat.leb fill0].
  assert (Z : forall j, (j < 3)%nat -> ec2eq i j = 0).
  { intros j J. unfold ec2eq, eq2ec. destruct (Nat.ltb_spec j 3); [|lia]. destruct (Nat.ltb_spec i 3); [lia|]. cbn [andb].
    destruct (Nat.leb_spec 3 j); [lia|reflexivity]. }
  rewrite !Z by lia. ring.
Qed.
Print Assumptions C137_missing_refuted.
(* what holds: a row with nothing known stays so; a translation keeps what is missing missing *)
Theorem C137_missing_partial :
  (forall m v, (forall j, (j < 6)%nat -> v j = None) -> forall i, rotate_values m v i = None) /\
  (forall w v i, translate_values w v i = None <-> v i = None) /\
  (forall w v i x, v i = Some x -> translate_values w v i = Some (x + w i)).
Proof.
  split; [|split].
  - intros m v H i. unfold rotate_values. rewrite !H by lia. reflexivity.
  - intros w v i. unfold translate_values. destruct (v i); cbn [option_map]; split; congruence.
  - intros w v i x H. unfold translate_values. rewrite H. reflexivity.
Qed.
Print Assumptions C137_missing_partial.

(* C138 refuted: variances without correlations lose more than a fifth of their size there and back *)
Theorem C138_covariance_refuted : exists c c1 c2 y, c_frame c = "equatorial"%string /\
  (forall i, (i < 6)%nat -> c_cov c i i <> None) /\ (forall i j, i <> j -> c_cov c i j = None) /\ c_cov c 1%nat 1%nat = Some 1 /\
  (forall itrf, cartesian_to_frame itrf c "ecliptic" = Ok c1 /\ cartesian_to_frame itrf c1 "equatorial" = Ok c2) /\
  c_cov c2 1%nat 1%nat = Some y /\ y < 8 / 10.
Proof.
  destruct diag_back as (y & Y & L). exists (mkcoords (fun _ => Some 1) diag_y "equatorial"). do 2 eexists. exists y.
  split; [reflexivity|]. split; [intros i _; cbn [c_cov]; unfold diag_y; rewrite Nat.eqb_refl; discriminate|].
  split; [intros i j N; cbn [c_cov]; unfold diag_y; apply Nat.eqb_neq in N; rewrite N; reflexivity|]. split; [reflexivity|].
  split; [intro itrf; split; reflexivity|]. split; [exact Y|exact L].
Qed.
Print Assumptions C138_covariance_refuted.
(* what holds: missing elements stay missing and no others go missing; a covariance of the position
   alone comes back *)
Theorem C138_covariance_partial : forall m c, m = eq2ec \/ m = ec2eq ->
  (forall i j, rotate_covariance m c i j = None <-> c i j = None) /\
  ((forall i j, (i < 6)%nat -> (j < 6)%nat -> (c i j = None <-> ~ ((i < 3)%nat /\ (j < 3)%nat))) ->
   forall i j, (i < 3)%nat -> (j < 3)%nat -> exists x y, c i j = Some x /\
     rotate_covariance (fun a b => m b a) (rotate_covariance m c) i j = Some y /\ Rabs (y - x) <= 3 * / 10 ^ 25).
Proof.
  intros m c E. split; [apply mask_kept|]. intros P i j I J. apply (position_back m c); try assumption.
  destruct E as [-> | ->]; [apply eq2ec_turns|apply ec2eq_turns].
Qed.
Print Assumptions C138_covariance_partial.

(* C80 refuted: propagated from the equatorial frame, the states are the equatorial ones but are
   labelled ecliptic *)
Definition to_ecliptic (u : vec) : vec :=
  (vx u, cos obliquity * vy u + sin obliquity * vz u, - sin obliquity * vy u + cos obliquity * vz u).
Theorem C80_label_refuted : exists s mu X V, two_body mu X V /\ X 0 = pos s /\ V 0 = vel s /\ turn to_ecliptic s <> s /\
  forall max_iter tol t, 0 <= tol < 10 ^ 15 -> propagate_row "equatorial" s 0 t mu max_iter tol = Some ("ecliptic"%string, row_of (X t) (V t)).
Proof.
  destruct (motion_start (pos circ) (vel circ) 1 Rlt_0_1 circ_free) as [A B].
  pose proof (motion_two_body (pos circ) (vel circ) 1 Rlt_0_1 circ_free) as L.
  exists circ, 1. do 2 eexists. split; [exact L|]. split; [exact A|]. split; [exact B|]. split.
  - intro Q. apply (f_equal c_5) in Q. unfold turn, to_ecliptic, row_of, circ, vel, vx, vy, vz in Q. cbn [c_3 c_4 c_5 fst snd] in Q.
    pose proof sin2_oblique. nra.
  - intros n tol t T. unfold propagate_row. replace t with (0 - - t) at 1 by ring.
    rewrite (prop_motion circ 0 1 n tol _ _ Rlt_0_1 circ_free L A B (proj2 T)) by (intro dt; apply circ_exact; exact T). rewrite Ropp_involutive. reflexivity.
Qed.
Print Assumptions C80_label_refuted.
(* what holds: the numbers are the right ones in the frame of the input, whatever the axes, and the
   label is right for ecliptic input *)
Theorem C80_axes_partial : forall s t0 t1 mu max_iter tol,
  (forall q, isometry q -> propagate (turn q s) t0 t1 mu max_iter tol = option_map (turn q) (propagate s t0 t1 mu max_iter tol)) /\
  (forall f s', propagate_row "ecliptic" s t0 t1 mu max_iter tol = Some (f, s') -> f = "ecliptic"%string /\ propagate s t0 t1 mu max_iter tol = Some s').
Proof.
  intros s t0 t1 mu n tol. split; [intros q Q; apply q_propagate; exact Q|].
  intros f s' H. unfold propagate_row in H. destruct (propagate s t0 t1 mu n tol) as [x|]; [|discriminate]. cbn [option_map] in H. split; congruence.
Qed.
Print Assumptions C80_axes_partial.
Example C80_case : isometry to_ecliptic.
Proof.
  pose proof trig_one as T. split.
  - intros [[a b] c] [[x y] z]. unfold to_ecliptic, dot, vx, vy, vz. cbn [fst snd].
    transitivity (a * x + (b * y + c * z) * (cos obliquity * cos obliquity + sin obliquity * sin obliquity)); [ring|rewrite T; ring].
  - intros p q [[a b] c] [[x y] z]. unfold to_ecliptic, vplus, scale, vx, vy, vz. cbn [fst snd]. vring.
Qed.

(* C139: the rows of the RIC matrix *)
Theorem C139_ric : forall s, let '(r, i, c) := ric3 s in
  orthonormal r i c /\ cross r i = c /\
  (/ 10 ^ 20 <= norm (cross (pos s) (vel s)) ->
     pos s = scale (norm (pos s)) r /\ cross (pos s) (vel s) = scale (norm (cross (pos s) (vel s))) c /\ dot (vel s) c = 0 /\ 0 < dot (vel s) i) /\
  (norm (cross (pos s) (vel s)) < / 10 ^ 20 -> r = (1, 0, 0) /\ i = (0, 1, 0) /\ c = (0, 0, 1)).
Proof.
  intro s. assert (HT : 0 < h_tol) by (apply Rinv_0_lt_compat, pow_lt; lra). unfold ric3. change (/ 10 ^ 20) with h_tol.
  assert (UV : forall a b, dot a a = 1 -> dot b a = 0 -> cross a (cross b a) = b).
  { intros [[a1 a2] a3] [[b1 b2] b3] A B. unfold dot in A, B. unfold cross.
    assert (E : forall x k, x = x * (a1 * a1 + a2 * a2 + a3 * a3) - k * (b1 * a1 + b2 * a2 + b3 * a3)) by (intros; rewrite A, B; ring).
    f_equal; [f_equal|]; [eapply eq_trans; [|symmetry; apply (E b1 a1)]|eapply eq_trans; [|symmetry; apply (E b2 a2)]|eapply eq_trans; [|symmetry; apply (E b3 a3)]]; ring. }
  destruct (Rlt_dec (norm (cross (pos s) (vel s))) h_tol) as [D|D].
  - rewrite Rinv_1. assert (E : scale 1 (1, 0, 0) = (1, 0, 0) /\ scale 1 (0, 0, 1) = (0, 0, 1)) by (unfold scale; split; vring). destruct E as [E1 E2]. rewrite E1, E2.
    assert (O : orthonormal (1, 0, 0) (cross (0, 0, 1) (1, 0, 0)) (0, 0, 1)) by (apply triad; unfold dot; ring).
    split; [exact O|]. split; [apply UV; unfold dot; ring|]. split; [intro Q; exfalso; lra|]. intros _.
    split; [reflexivity|]. split; [unfold cross; vring|reflexivity].
  - set (h := cross (pos s) (vel s)) in *.
    assert (HP : 0 < norm h) by lra.
    assert (RP : 0 < norm (pos s)).
    { destruct (norm_nonneg (pos s)) as [Z|Z]; [exact Z|]. exfalso. pose proof (norm_sq h) as N. unfold h in N at 2 3. rewrite cross_len, <- (norm_sq (pos s)), <- Z in N.
      pose proof (Rle_0_sqr (dot (pos s) (vel s))) as Q. unfold Rsqr in Q. nra. }
    assert (A : dot (scale (/ norm (pos s)) (pos s)) (scale (/ norm (pos s)) (pos s)) = 1) by (rewrite dot_scale, <- norm_sq; field; lra).
    assert (C : dot (scale (/ norm h) h) (scale (/ norm h) h) = 1) by (rewrite dot_scale, <- norm_sq; field; lra).
    assert (Z : dot (scale (/ norm h) h) (scale (/ norm (pos s)) (pos s)) = 0) by (rewrite dot_scale; unfold h; rewrite dot_cross_l; ring).
    split; [apply triad; assumption|]. split; [apply UV; assumption|]. split; [|intro Q; exfalso; lra]. intros _.
    assert (SS : forall k u, k <> 0 -> u = scale k (scale (/ k) u)) by (intros k [[? ?] ?] K; unfold scale; f_equal; [f_equal|]; field; exact K).
    split; [apply SS; lra|]. split; [apply SS; lra|]. split.
    + unfold h. destruct (pos s) as [[? ?] ?], (vel s) as [[? ?] ?]. unfold scale, cross, dot. ring.
    + assert (E : dot (vel s) (cross (scale (/ norm h) h) (scale (/ norm (pos s)) (pos s))) = / norm h * / norm (pos s) * dot h h).
      { generalize (/ norm h). generalize (/ norm (pos s)). unfold h. intros p q. destruct (pos s) as [[? ?] ?], (vel s) as [[? ?] ?]. unfold scale, cross, dot. ring. }
      rewrite E, <- norm_sq. repeat apply Rmult_lt_0_compat; try apply Rinv_0_lt_compat; nra.
Qed.
Print Assumptions C139_ric.
Example C139_case : / 10 ^ 20 <= norm (cross (pos (mk6 1 0 0 1 1 0)) (vel (mk6 1 0 0 1 1 0))).
Proof.
  assert (E : norm (cross (pos (mk6 1 0 0 1 1 0)) (vel (mk6 1 0 0 1 1 0))) = 1) by (apply norm_of; [lra|]; unfold pos, vel, cross, dot; cbn [c_0 c_1 c_2 c_3 c_4 c_5]; ring).
  rewrite E, <- Rinv_1. apply Rinv_le_contravar; [lra|]. apply pow_R1_Rle. lra.
Qed.
