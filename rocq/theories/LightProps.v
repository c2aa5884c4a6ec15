(* Theorems about light time and stellar aberration. *)
From Coq Require Import Reals Lra Lia.
From Verif Require Import SphModel KepModel KepSpec KepElem UnivModel UnivSpec UnivOrbit UnivTime UnivProofs LightModel LightProofs.
Open Scope R_scope.

(* C69: a reported light time l comes with the original orbit at t - l; if the orbit moves slower than
   light, l solves the light-time equation to the tolerance. *)
Theorem C69_solution : forall s t0 obs lt_tol mu max_iter tol max_lt_iter st l, lt_tol < 10 ^ 30 ->
  add_light_time s t0 obs lt_tol mu max_iter tol max_lt_iter = (st, Some l) ->
  st = propagate s t0 (t0 - l) mu max_iter tol /\
  (distance (pos s) obs / light + lt_tol < 10 ^ 30 ->
   (forall a b sa sb, propagate s t0 (t0 - a) mu max_iter tol = Some sa -> propagate s t0 (t0 - b) mu max_iter tol = Some sb ->
      distance (pos sa) (pos sb) <= light * Rabs (a - b)) ->
   forall s', st = Some s' -> Rabs (l - distance (pos s') obs / light) <= lt_tol).
Proof.
  intros s t0 obs lt_tol mu n tol k st l T H. split; [exact (proj1 (light_time_epoch _ _ _ _ _ _ _ _ _ _ T H))|].
  intros F L s' E. subst st. rewrite <- (Rmult_1_l lt_tol).
  apply (light_time_error s t0 obs lt_tol mu n tol 1) with k; [|exact T|lra|exact F|exact H].
  intros a b sa sb A B. rewrite Rmult_1_l. apply L; assumption.
Qed.
Print Assumptions C69_solution.
(* C69, with Newton's law: the motion X, V of a body no faster than beta times the speed of light.
   The light time is reported as soon as max_lt_iter allows for the contraction, the state is the one
   of the motion, and the true light time is found to beta lt_tol / (1 - beta). *)
Theorem C69_newton : forall s t0 obs lt_tol mu max_iter tol max_lt_iter beta X V,
  0 < mu -> not_radial s -> two_body mu X V -> X 0 = pos s -> V 0 = vel s ->
  tol < 10 ^ 15 -> (forall dt, last_step s dt mu max_iter tol 0) ->
  0 <= beta < 1 -> (forall t, norm (V t) <= beta * light) ->
  lt_tol < 10 ^ 30 -> distance (pos s) obs / light + lt_tol < 10 ^ 30 ->
  (forall st l, add_light_time s t0 obs lt_tol mu max_iter tol max_lt_iter = (st, Some l) ->
     st = Some (row_of (X (- l)) (V (- l))) /\
     Rabs (l - distance (X (- l)) obs / light) <= beta * lt_tol /\
     forall lstar, lstar = distance (X (- lstar)) obs / light -> Rabs (l - lstar) <= beta * lt_tol / (1 - beta)) /\
  (forall j, beta ^ S j * (distance (pos s) obs / light) <= lt_tol -> (j + 3 <= max_lt_iter)%nat ->
     exists st l, add_light_time s t0 obs lt_tol mu max_iter tol max_lt_iter = (st, Some l)).
Proof.
  intros s t0 obs lt_tol mu n tol k beta X V M F L X0 V0 T R B S LT D.
  pose proof (prop_motion s t0 mu n tol X V M F L X0 V0 T R) as P.
  pose proof (motion_slow s t0 mu n tol beta X V M F L X0 V0 T R S) as SL.
  split.
  - intros st l H. pose proof (proj1 (light_time_epoch _ _ _ _ _ _ _ _ _ _ LT H)) as E. rewrite P in E. split; [exact E|]. subst st.
    pose proof (light_time_error s t0 obs lt_tol mu n tol beta SL k _ l LT (proj1 B) D H) as G. rewrite pos_row in G. split; [exact G|].
    intros lstar E. apply (light_time_true s t0 obs lt_tol mu n tol beta SL k _ l _ lstar LT B D H (P lstar)). rewrite pos_row. exact E.
  - intros j G K. destruct (light_time_found s t0 obs lt_tol mu n tol beta SL j k (proj1 B)) as (s' & l & W);
      [intro l; rewrite P; eexists; reflexivity| |exact G|exact K|exists (Some s'), l; exact W].
    eexists. split; [apply P|]. rewrite pos_row, Ropp_0. exact X0.
Qed.
Print Assumptions C69_newton.
(* the default settings and a circular orbit seen from three times its radius *)
Example C69_case : exists X V, two_body 1 X V /\ X 0 = pos circ /\ V 0 = vel circ /\
  exists l, add_light_time circ 0 (3, 0, 0) (/ 10 ^ 10) 1 1000 (/ 10 ^ 15) 10 = (Some (row_of (X (- l)) (V (- l))), Some l) /\
    Rabs (l - distance (X (- l)) (3, 0, 0) / light) <= / 10 ^ 12.
Proof.
  destruct (motion_start (pos circ) (vel circ) 1 Rlt_0_1 circ_free) as [A B].
  pose proof (motion_two_body (pos circ) (vel circ) 1 Rlt_0_1 circ_free) as L.
  do 2 eexists. split; [exact L|]. split; [exact A|]. split; [exact B|].
  pose proof light_big as LB.
  assert (P10 : 10 ^ 10 = 10000000000) by lra. assert (P15 : 10 ^ 15 = 1000000000000000) by lra. assert (P12 : 10 ^ 12 = 1000000000000) by lra.
  assert (P30 : 10 ^ 15 < 10 ^ 30) by (apply Rlt_pow; [lra|lia]).
  assert (D : distance (pos circ) (3, 0, 0) = 2).
  { rewrite distance_norm. apply norm_of; [lra|]. unfold circ, pos, vminus, vplus, scale, dot. cbn [c_0 c_1 c_2]. ring. }
  assert (I : 0 < 2 / light < 1).
  { split; [apply Rdiv_lt_0_compat; lra|]. apply Rmult_lt_reg_r with light; [lra|]. unfold Rdiv. rewrite Rmult_assoc, Rinv_l by lra. lra. }
  destruct (C69_newton circ 0 (3, 0, 0) (/ 10 ^ 10) 1 1000 (/ 10 ^ 15) 10 (1 / 100) _ _ Rlt_0_1 circ_free L A B) as [Q1 Q2].
  - rewrite P15. lra.
  - intro dt. apply circ_exact. rewrite P15. lra.
  - lra.
  - intro t. rewrite (proj2 (circ_motion _ _ t L A B)). lra.
  - rewrite P10. lra.
  - rewrite D, P10. lra.
  - destruct (Q2 4%nat) as (st & l & W); [rewrite D, P10; lra|lia|]. destruct (Q1 st l W) as (E & G & _).
    exists l. split; [rewrite W, E; reflexivity|]. eapply Rle_trans; [exact G|]. rewrite P10, P12. lra.
Qed.

(* C135 refuted: a light time that has converged, exactly, in the last iteration allowed is dropped:
   with max_lt_iter = 2 it is NaN; with any larger limit the same state comes with its light time. *)
Theorem C135_last_iteration_refuted : exists s t0 obs lt_tol mu max_iter tol s' l,
  0 < lt_tol /\ add_light_time s t0 obs lt_tol mu max_iter tol 2 = (Some s', None) /\
  (forall k, add_light_time s t0 obs lt_tol mu max_iter tol (3 + k) = (Some s', Some l)) /\ l = distance (pos s') obs / light.
Proof.
  assert (T : 0 <= 0 < 10 ^ 15) by (split; [lra|apply pow_lt; lra]). assert (U : 0 <= 1 < 10 ^ 29) by (split; [lra|apply Rlt_pow_R1; [lra|lia]]).
  destruct (light_time_last 0 1000 0 1 T U) as (s' & A & B & C).
  exists circ, 0, (0, 0, 0), 1, 1, 1000%nat, 0, s', (1 / light). split; [lra|]. split; [exact A|]. split; [exact B|]. symmetry. exact C.
Qed.
Print Assumptions C135_last_iteration_refuted.
(* what holds: a missing light time means the limit was reached or the propagation failed; no state is
   reported with a light time beyond the tolerance *)
Theorem C135_found_partial : forall s t0 obs lt_tol mu max_iter tol max_lt_iter beta,
  (forall a b sa sb, propagate s t0 (t0 - a) mu max_iter tol = Some sa -> propagate s t0 (t0 - b) mu max_iter tol = Some sb ->
      distance (pos sa) (pos sb) <= beta * light * Rabs (a - b)) ->
  0 <= beta -> (forall l, exists s1, propagate s t0 (t0 - l) mu max_iter tol = Some s1) ->
  (exists s1, propagate s t0 (t0 - 0) mu max_iter tol = Some s1 /\ pos s1 = pos s) ->
  forall j, beta ^ S j * (distance (pos s) obs / light) <= lt_tol -> (j + 3 <= max_lt_iter)%nat ->
  exists s' l, add_light_time s t0 obs lt_tol mu max_iter tol max_lt_iter = (Some s', Some l).
Proof.
  intros s t0 obs lt_tol mu n tol k beta SL B Tot Z j G K. exact (light_time_found s t0 obs lt_tol mu n tol beta SL j k B Tot Z G K).
Qed.
Print Assumptions C135_found_partial.

(* C136: stellar aberration keeps the distance, turns the direction towards the observer's motion and
   is undone by the opposite motion. *)
Theorem C136_aberration : forall s obs, norm (vel obs) < light -> pos s <> pos obs ->
  exists w, aberrate s obs = Some w /\ norm w = distance (pos s) (pos obs) /\
    dot (vplus (pos s) (scale (-1) (pos obs))) (vel obs) <= dot w (vel obs) /\
    forall s2 obs2, vel obs2 = scale (-1) (vel obs) -> pos s2 = vplus (pos obs2) w ->
      aberrate s2 obs2 = Some (vplus (pos s) (scale (-1) (pos obs))).
Proof.
  intros s obs H N. pose proof light_pos as LP. destruct (aberrate_tilt s obs H N) as (U & G & E).
  set (topo := vminus (pos s) (pos obs)) in *. fold (vminus (pos s) (pos obs)). fold topo.
  set (u := scale (/ norm topo) topo) in *. set (g := scale (/ light) (vel obs)) in *. set (w := scale (norm topo) (tilt u g)) in *.
  assert (TP : 0 < norm topo).
  { destruct (norm_nonneg topo) as [Z|Z]; [exact Z|]. exfalso. assert (Q : norm u = 0) by (unfold u; rewrite norm_scale, <- Z; ring). lra. }
  assert (NW : norm w = norm topo) by (unfold w; rewrite norm_scale, (tilt_norm u g U G), Rabs_right by lra; ring).
  assert (TU : topo = scale (norm topo) u) by (unfold u; destruct topo as [[? ?] ?]; unfold scale in *; f_equal; [f_equal|]; field; lra).
  exists w. split; [exact E|]. split; [rewrite distance_norm; exact NW|]. split.
  - assert (VG : vel obs = scale light g) by (unfold g; destruct (vel obs) as [[? ?] ?]; unfold scale; f_equal; [f_equal|]; field; lra).
    rewrite TU. unfold w. rewrite VG. pose proof (tilt_towards u g U G) as Q.
    assert (S : forall x y p q, dot (scale p x) (scale q y) = p * q * dot x y) by (intros [[? ?] ?] [[? ?] ?] p q; unfold scale, dot; ring).
    rewrite !S. apply Rmult_le_compat_l; [apply Rmult_le_pos; lra|exact Q].
  - intros s2 obs2 V P.
    assert (T2 : vminus (pos s2) (pos obs2) = w) by (rewrite P; destruct (pos obs2) as [[? ?] ?], w as [[? ?] ?]; unfold vminus, vplus, scale; vring).
    assert (N2 : pos s2 <> pos obs2).
    { intro Q. rewrite Q in T2. assert (Z : norm w = 0).
      { rewrite <- T2. apply norm_of; [lra|]. destruct (pos obs2) as [[? ?] ?]. unfold vminus, vplus, scale, dot. ring. } lra. }
    assert (H2 : norm (vel obs2) < light) by (rewrite V, norm_scale, Rabs_left by lra; lra).
    destruct (aberrate_tilt s2 obs2 H2 N2) as (_ & _ & E2). rewrite E2, T2, NW, V. f_equal.
    assert (WU : scale (/ norm topo) w = tilt u g) by (unfold w; destruct (tilt u g) as [[? ?] ?]; unfold scale; f_equal; [f_equal|]; field; lra).
    assert (GV : scale (/ light) (scale (-1) (vel obs)) = scale (-1) g) by (unfold g; destruct (vel obs) as [[? ?] ?]; unfold scale; vring).
    rewrite WU, GV, (tilt_back u g U G). symmetry. exact TU.
Qed.
Print Assumptions C136_aberration.
Example C136_case : norm (vel (mk6 1 0 0 0 (17 / 1000) 0)) < light /\ pos (mk6 2 1 0 0 0 0) <> pos (mk6 1 0 0 0 (17 / 1000) 0) /\
  dot (vplus (pos (mk6 2 1 0 0 0 0)) (scale (-1) (pos (mk6 1 0 0 0 (17 / 1000) 0)))) (vel (mk6 1 0 0 0 (17 / 1000) 0)) <> 0.
Proof.
  pose proof light_big. repeat split.
  - assert (E : norm (vel (mk6 1 0 0 0 (17 / 1000) 0)) = 17 / 1000) by (apply norm_of; [lra|]; unfold vel, dot; cbn [c_3 c_4 c_5]; ring). rewrite E. lra.
  - unfold pos. cbn [c_0 c_1 c_2]. intro E. assert (2 = 1) by congruence. lra.
  - unfold pos, vel, vplus, scale, dot. cbn [c_0 c_1 c_2 c_3 c_4 c_5]. lra.
Qed.
