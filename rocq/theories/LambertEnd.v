(* From the pieces to the returned velocities. *)
From Coq Require Import Reals ZArith Bool Lra Lia Psatz Field List.
From Verif Require Import Base SphModel KepModel KepSpec KepElem KepHyp FrameProofs UnivModel UnivSpec UnivFun UnivOrbit UnivTime UnivUnique UnivProofs GaussVel LightProofs
  LambertModel LambertPlane LambertGeom LambertOrbit LambertTime LambertSeries LambertDeriv LambertRun.
Open Scope R_scope.

Lemma some_inj : forall (a b : R), Some a = Some b -> a = b.
Proof. intros a b H. congruence. Qed.
Lemma T_of_0 : forall r1 r2 tof mu, T_of r1 r2 tof 0 = 0 /\ (0 < semi r1 r2 -> 0 < mu -> 0 < sqrt (2 * mu / semi r1 r2 ^ 3)) /\ T_of r1 r2 tof mu = sqrt (2 * mu / semi r1 r2 ^ 3) * tof.
Proof.
  intros r1 r2 tof mu. split; [|split; [|reflexivity]].
  - unfold T_of. rewrite Rmult_0_r. unfold Rdiv. rewrite Rmult_0_l, sqrt_0. ring.
  - intros S P. apply sqrt_lt_R0. apply Rdiv_lt_0_compat; [lra|]. apply pow_lt. exact S.
Qed.
Lemma izzo_inv : forall r1 r2 tof mu o v1 v2, izzo_lambert r1 r2 tof mu o = Some (v1, v2) ->
  norm r1 <> 0 /\ norm r2 <> 0 /\ norm (vminus r2 r1) <> 0 /\ 0 < mu /\ 0 < tof /\ exists x, solution_x r1 r2 tof mu o = Some x /\ (v1, v2) = velocities r1 r2 mu (o_prograde o) x.
Proof.
  intros r1 r2 tof mu o v1 v2 H. unfold izzo_lambert in H.
  destruct (Req_EM_T (norm r1) 0) as [|N1]; [discriminate|]. destruct (Req_EM_T (norm r2) 0) as [|N2]; [discriminate|].
  destruct (Req_EM_T (norm (vminus r2 r1)) 0) as [|NC]; [discriminate|]. destruct (Rlt_dec mu 0) as [|MU]; [discriminate|].
  destruct (solution_x r1 r2 tof mu o) as [x|] eqn:S; [|discriminate]. cbn [option_map] in H. assert (H' : velocities r1 r2 mu (o_prograde o) x = (v1, v2)) by congruence. clear H. pose proof (s_pos r1 r2 N1 N2 NC) as SP.
  destruct (T_of_0 r1 r2 tof mu) as (T0 & K & TE).
  assert (TP : 0 < T_of r1 r2 tof mu). { destruct (Rlt_dec 0 (T_of r1 r2 tof mu)) as [|N]; [assumption|]. unfold solution_x in S. rewrite no_time in S by lra. discriminate. }
  assert (MP : 0 < mu). { destruct (Req_EM_T mu 0) as [E|E]; [rewrite E, T0 in TP; lra|lra]. }
  specialize (K SP MP). split; [assumption|]. split; [assumption|]. split; [assumption|]. split; [assumption|]. split.
  - rewrite TE in TP. destruct (Rlt_dec 0 tof) as [|N]; [assumption|]. exfalso. nra.
  - exists x. split; [reflexivity|]. symmetry. exact H'.
Qed.

(* same direction *)
Lemma units_same : forall r1 r2, norm r1 <> 0 -> norm r2 <> 0 -> dot r1 r2 = norm r1 * norm r2 -> unit_of r1 = unit_of r2.
Proof.
  intros r1 r2 N1 N2 H. symmetry. apply vminus_0. apply norm_0_vec.
  assert (E : norm (vminus (unit_of r2) (unit_of r1)) ^ 2 = 0).
  { rewrite chord_sq, !norm_sq, !unit_1 by assumption. unfold unit_of. rewrite dot_scale_l, dot_scale_r, H. field. split; assumption. }
  pose proof (norm_nonneg (vminus (unit_of r2) (unit_of r1))). nra.
Qed.
Lemma collinear : forall r1 r2, cross r1 r2 = (0, 0, 0) -> dot r1 r2 <> - (norm r1 * norm r2) -> dot r1 r2 = norm r1 * norm r2.
Proof.
  intros r1 r2 C O. pose proof (cross_len r1 r2) as L. rewrite C in L. replace (dot (0, 0, 0) (0, 0, 0)) with 0 in L by (cbn; ring). rewrite <- !norm_sq in L.
  assert (K : (dot r1 r2 - norm r1 * norm r2) * (dot r1 r2 + norm r1 * norm r2) = 0) by lra. apply Rmult_integral in K. destruct K; lra.
Qed.
Section line.
Variables (r1 r2 : vec) (mu : R) (pro : bool) (x : R).
Hypotheses (mu_pos : 0 < mu) (n1 : norm r1 <> 0) (n2 : norm r2 <> 0) (nc : norm (vminus r2 r1) <> 0).
Let q := q_of r1 r2.
Let m := sqrt mu.
Let l := ll_of r1 r2 pro.
Let y := compute_y x l.
Let h := h_of r1 r2.
Let g := g_of r1 r2.
Lemma vel_pair : velocities r1 r2 mu pro x =
  (lin (A1 q m l x y h) (B1 q m l x y h g) (unit_of r1) (track r1 r2 pro r1), lin (A2 q m l x y h) (B2 q m l x y h g) (unit_of r2) (track r1 r2 pro r2)).
Proof.
  unfold velocities, lin, A1, A2, B1, B2. unfold q, l, h. rewrite (R1_is r1 r2 pro n1 n2 nc), (R2_is r1 r2 pro n1 n2 nc). rewrite (gamma_is r1 r2 mu n1 n2 nc mu_pos). apply f_equal2; [reflexivity|]. apply f_equal2; [|reflexivity]. apply f_equal2; [|reflexivity]. unfold m, y, l, h_of. field. split; assumption.
Qed.
Hypothesis flat : cross (unit_of r1) (unit_of r2) = (0, 0, 0).
Lemma pole_flat : pole_of r1 r2 = (0, 0, 0).
Proof. unfold pole_of. rewrite flat. destruct (Rlt_dec 0 (norm (0, 0, 0))); [apply scale_000|reflexivity]. Qed.
Lemma track_flat : forall r, track r1 r2 pro r = (0, 0, 0).
Proof. intro r. unfold track. rewrite pole_flat, cross_0_l. apply scale_000. Qed.
Lemma vel_flat : velocities r1 r2 mu pro x = (scale (A1 q m l x y h) (unit_of r1), scale (A2 q m l x y h) (unit_of r2)).
Proof.
  rewrite vel_pair, !track_flat. assert (E : forall a b u, lin a b u (0, 0, 0) = scale a u) by (intros a b [[? ?] ?]; unfold lin; cbn; vring). rewrite !E. reflexivity.
Qed.
Lemma momentum_flat : cross r1 (fst (velocities r1 r2 mu pro x)) = (0, 0, 0) /\ cross r2 (snd (velocities r1 r2 mu pro x)) = (0, 0, 0).
Proof. rewrite vel_flat. cbn [fst snd]. unfold unit_of. rewrite !cross_scale_r, !cross_self, !scale_000. split; reflexivity. Qed.
Lemma energy_flat : energy mu (row_of r1 (fst (velocities r1 r2 mu pro x))) = - (mu * (1 - x * x) / semi r1 r2) - (B1 q m l x y h g) ^ 2 / 2 /\
  energy mu (row_of r2 (snd (velocities r1 r2 mu pro x))) = - (mu * (1 - x * x) / semi r1 r2) - (B2 q m l x y h g) ^ 2 / 2.
Proof.
  destruct (abc r1 r2 n1 n2 nc) as (AP & BP & _). pose proof (q_pos' r1 r2 n1 n2 nc) as QP. fold q in QP. pose proof (q_sq r1 r2 n1 n2 nc) as Q2. fold q in Q2.
  pose proof (y_sq' r1 r2 pro n1 n2 nc x) as Y. cbv zeta in Y. fold l in Y. fold y in Y. pose proof (g_sq' r1 r2 n1 n2 nc) as G. fold g h in G.
  pose proof (R1_is r1 r2 pro n1 n2 nc) as E1. pose proof (R2_is r1 r2 pro n1 n2 nc) as E2. fold q l h in E1, E2.
  pose proof (s_pos r1 r2 n1 n2 nc) as SP.
  assert (MM : m * m = mu) by (apply sqrt_sqrt; lra).
  pose proof (speed1 q m l x y h g QP Y G ltac:(rewrite E1; exact AP)) as S1. pose proof (speed2 q m l x y h g QP Y G ltac:(rewrite E2; exact BP)) as S2.
  rewrite E1, MM, Q2 in S1. rewrite E2, MM, Q2 in S2.
  unfold energy. rewrite !pos_row, !vel_row, !norm_sq, vel_flat. cbn [fst snd]. rewrite !KepElem.dot_scale, !unit_1 by assumption. split.
  - replace ((A1 q m l x y h) ^ 2 * 1 / 2) with ((mu * (2 / norm r1 - (1 - x * x) / (semi r1 r2 / 2)) - B1 q m l x y h g * B1 q m l x y h g) / 2) by (rewrite <- S1; field). field. split; lra.
  - replace ((A2 q m l x y h) ^ 2 * 1 / 2) with ((mu * (2 / norm r2 - (1 - x * x) / (semi r1 r2 / 2)) - B2 q m l x y h g * B2 q m l x y h g) / 2) by (rewrite <- S2; field). field. split; lra.
Qed.
End line.
(* C76 *)
Lemma conserved : forall r1 r2 tof mu o v1 v2, dot r1 r2 <> - (norm r1 * norm r2) -> izzo_lambert r1 r2 tof mu o = Some (v1, v2) ->
  let s1 := row_of r1 v1 in let s2 := row_of r2 v2 in
  momentum s2 = momentum s1 /\ energy mu s2 = energy mu s1 /\ eccentricity mu s2 = eccentricity mu s1.
Proof.
  intros r1 r2 tof mu o v1 v2 O H. destruct (izzo_inv _ _ _ _ _ _ _ H) as (N1 & N2 & NC & MP & _ & x & _ & E).
  assert (E1 : v1 = fst (velocities r1 r2 mu (o_prograde o) x)) by (rewrite <- E; reflexivity).
  assert (E2 : v2 = snd (velocities r1 r2 mu (o_prograde o) x)) by (rewrite <- E; reflexivity). intros s1 s2. unfold s1, s2. rewrite E1, E2.
  destruct (Req_EM_T (norm (cross r1 r2)) 0) as [Z|Z].
  - apply norm_0_vec in Z. pose proof (collinear r1 r2 Z O) as D. pose proof (units_same r1 r2 N1 N2 D) as U.
    assert (F : cross (unit_of r1) (unit_of r2) = (0, 0, 0)) by (rewrite U; apply cross_self).
    destruct (momentum_flat r1 r2 mu (o_prograde o) x MP N1 N2 NC F) as [K1 K2]. destruct (energy_flat r1 r2 mu (o_prograde o) x MP N1 N2 NC F) as [L1 L2].
    assert (G0 : g_of r1 r2 = 0).
    { unfold g_of, h_of. pose proof (chord_sq r1 r2) as Q. rewrite D in Q. replace (1 - ((norm r1 - norm r2) / norm (vminus r2 r1)) ^ 2) with 0; [apply sqrt_0|].
      replace (((norm r1 - norm r2) / norm (vminus r2 r1)) ^ 2) with ((norm r1 - norm r2) ^ 2 / norm (vminus r2 r1) ^ 2) by (field; exact NC).
      replace ((norm r1 - norm r2) ^ 2) with (norm (vminus r2 r1) ^ 2) by (rewrite Q; ring). field. exact NC. }
    assert (M0 : momentum (row_of r1 (fst (velocities r1 r2 mu (o_prograde o) x))) = (0, 0, 0) /\ momentum (row_of r2 (snd (velocities r1 r2 mu (o_prograde o) x))) = (0, 0, 0)) by (unfold momentum; rewrite !pos_row, !vel_row; split; assumption).
    destruct M0 as [M1 M2]. split; [rewrite M1, M2; reflexivity|]. split.
    + rewrite L1, L2, G0. unfold B1, B2. unfold Rdiv. rewrite !Rmult_0_r, !Rmult_0_l. ring.
    + unfold eccentricity. rewrite M1, M2, !cross_0_r, !pos_row.
      replace (scale (- mu / norm r1) r1) with (scale (- mu) (unit_of r1)) by (unfold unit_of; rewrite scale_scale; f_equal).
      replace (scale (- mu / norm r2) r2) with (scale (- mu) (unit_of r2)) by (unfold unit_of; rewrite scale_scale; f_equal). rewrite U. reflexivity.
  - assert (S : cross r1 r2 <> (0, 0, 0)). { intro Q. apply Z. rewrite Q. apply norm_of; [lra|]. cbn. ring. }
    split; [apply same_momentum; assumption|]. split; [apply same_energy; assumption|apply same_eccentricity; assumption].
Qed.
(* C159 *)
Lemma opposite_flat : forall r1 r2, dot r1 r2 = - (norm r1 * norm r2) -> norm r1 <> 0 -> norm r2 <> 0 -> cross (unit_of r1) (unit_of r2) = (0, 0, 0).
Proof.
  intros r1 r2 D N1 N2. apply norm_0_vec. assert (E : norm (cross (unit_of r1) (unit_of r2)) ^ 2 = 0).
  { rewrite norm_sq, cross_len, !unit_1 by assumption. unfold unit_of. rewrite dot_scale_l, dot_scale_r, D. field. split; assumption. }
  pose proof (norm_nonneg (cross (unit_of r1) (unit_of r2))). nra.
Qed.
Lemma half_turn : forall r1 r2 tof mu o v1 v2, dot r1 r2 = - (norm r1 * norm r2) -> izzo_lambert r1 r2 tof mu o = Some (v1, v2) ->
  cross r1 v1 = (0, 0, 0) /\ cross r2 v2 = (0, 0, 0) /\
  energy mu (row_of r2 v2) - energy mu (row_of r1 v1) = mu * (norm r2 - norm r1) / (norm r1 * norm r2).
Proof.
  intros r1 r2 tof mu o v1 v2 D H. destruct (izzo_inv _ _ _ _ _ _ _ H) as (N1 & N2 & NC & MP & _ & x & _ & E).
  assert (E1 : v1 = fst (velocities r1 r2 mu (o_prograde o) x)) by (rewrite <- E; reflexivity).
  assert (E2 : v2 = snd (velocities r1 r2 mu (o_prograde o) x)) by (rewrite <- E; reflexivity). rewrite E1, E2.
  pose proof (opposite_flat r1 r2 D N1 N2) as F. destruct (momentum_flat r1 r2 mu (o_prograde o) x MP N1 N2 NC F) as [K1 K2]. destruct (energy_flat r1 r2 mu (o_prograde o) x MP N1 N2 NC F) as [L1 L2].
  split; [exact K1|]. split; [exact K2|]. rewrite L1, L2. destruct (abc r1 r2 N1 N2 NC) as (AP & BP & CP & CL).
  pose proof (chord_sq r1 r2) as Q. rewrite D in Q. assert (C : norm (vminus r2 r1) = norm r1 + norm r2) by nra.
  assert (S : semi r1 r2 = norm r1 + norm r2) by (unfold semi; rewrite C; field).
  assert (L0 : ll_of r1 r2 (o_prograde o) = 0). { pose proof (l_sq r1 r2 (o_prograde o) N1 N2 NC) as LS. rewrite C, S in LS. replace ((norm r1 + norm r2) / (norm r1 + norm r2)) with 1 in LS by (field; lra). nra. }
  set (g := g_of r1 r2). set (h := h_of r1 r2). pose proof (g_sq' r1 r2 N1 N2 NC) as G. fold g h in G. pose proof (q_sq r1 r2 N1 N2 NC) as QQ. set (q := q_of r1 r2) in *.
  unfold B1, B2. unfold h, q. rewrite (R1_is r1 r2 (o_prograde o) N1 N2 NC), (R2_is r1 r2 (o_prograde o) N1 N2 NC). fold h q. rewrite L0. unfold compute_y. replace (1 - 0 ^ 2 * (1 - x ^ 2)) with 1 by ring. rewrite sqrt_1.
  pose proof (sqrt_sqrt mu ltac:(lra)) as MM. set (m := sqrt mu) in *.
  assert (HH : h = (norm r1 - norm r2) / (norm r1 + norm r2)) by (unfold h, h_of; rewrite C; reflexivity).
  assert (GG : g * g = 4 * (norm r1 * norm r2) / (norm r1 + norm r2) ^ 2) by (rewrite G, HH; field; lra).
  set (a := norm r1) in *. set (b := norm r2) in *.
  replace ((m * q * g * (1 + 0 * x) / a) ^ 2) with ((m * m) * (q * q) * (g * g) / (a * a)) by (field; lra).
  replace ((m * q * g * (1 + 0 * x) / b) ^ 2) with ((m * m) * (q * q) * (g * g) / (b * b)) by (field; lra). rewrite MM, QQ, GG, S. field. repeat split; lra.
Qed.
(* C160 *)
Lemma senses : forall r1 r2 tof mu o v1 v2, izzo_lambert r1 r2 tof mu o = Some (v1, v2) ->
  (if o_prograde o then 0 <= vz (cross r1 v1) else vz (cross r1 v1) <= 0) /\ (vz (cross r1 r2) <> 0 -> vz (cross r1 v1) <> 0).
Proof.
  intros r1 r2 tof mu o v1 v2 H. destruct (izzo_inv _ _ _ _ _ _ _ H) as (N1 & N2 & NC & MP & _ & x & _ & E).
  assert (E1 : v1 = fst (velocities r1 r2 mu (o_prograde o) x)) by (rewrite <- E; reflexivity). rewrite E1.
  destruct (Req_EM_T (norm (cross r1 r2)) 0) as [Z|Z].
  - apply norm_0_vec in Z. assert (F : cross (unit_of r1) (unit_of r2) = (0, 0, 0)) by (unfold unit_of; rewrite cross_scale_l, cross_scale_r, Z, !scale_000; reflexivity).
    destruct (momentum_flat r1 r2 mu (o_prograde o) x MP N1 N2 NC F) as [K1 _]. rewrite K1, Z. cbn. split; [destruct (o_prograde o); lra|lra].
  - assert (S : cross r1 r2 <> (0, 0, 0)). { intro Q. apply Z. rewrite Q. apply norm_of; [lra|]. cbn. ring. }
    rewrite momentum_1, e1_x_t1 by assumption. rewrite scale_scale. pose proof (h'_pos r1 r2 mu (o_prograde o) x MP S) as HP. set (h := LambertPlane.H _ _ _ _ _ _) in *. clearbody h.
    assert (V : forall k u, vz (scale k u) = k * vz u) by (intros k [[? ?] ?]; reflexivity). rewrite V. split.
    + unfold sense. set (z := vz (pole_of r1 r2)). clearbody z. destruct (Rlt_dec z 0) as [zn|zn]; [|apply Rnot_lt_le in zn]; destruct (o_prograde o); nra.
    + intro W. rewrite k_is by assumption. rewrite V. pose proof (N_pos r1 r2 S) as NP. apply Rgt_not_eq in NP. set (N := norm (cross (unit_of r1) (unit_of r2))) in *. clearbody N. unfold unit_of. rewrite cross_scale_l, cross_scale_r, !V.
      pose proof (sense_sq r1 r2 (o_prograde o)) as SS. assert (sense r1 r2 (o_prograde o) <> 0) by nra.
      assert (h <> 0) by lra. repeat (apply Rmult_integral_contrapositive_currified || apply Rinv_neq_0_compat || assumption). 
Qed.

(* C162 *)
Definition clock (r1 r2 : vec) (mu : R) : R := sqrt (semi r1 r2 ^ 3 / (2 * mu)).
Lemma clock_is : forall r1 r2 mu, 0 < semi r1 r2 -> 0 < mu -> clock r1 r2 mu = 2 * q_of r1 r2 * (q_of r1 r2 * q_of r1 r2) / sqrt mu /\ 0 < clock r1 r2 mu /\
  forall tof, tof = clock r1 r2 mu * T_of r1 r2 tof mu.
Proof.
  intros r1 r2 mu S M. assert (Q : 0 < q_of r1 r2) by (apply sqrt_lt_R0; lra). assert (Q2 : q_of r1 r2 * q_of r1 r2 = semi r1 r2 / 2) by (apply sqrt_sqrt; lra).
  assert (P : 0 < sqrt mu) by (apply sqrt_lt_R0; lra). assert (P2 : sqrt mu * sqrt mu = mu) by (apply sqrt_sqrt; lra). assert (SP : 0 < semi r1 r2 ^ 3) by (apply pow_lt; exact S). split.
  - unfold clock. set (q := q_of r1 r2) in *. set (m := sqrt mu) in *. apply sqrt_lem_1; [apply Rlt_le, Rdiv_lt_0_compat; lra|apply Rlt_le, Rdiv_lt_0_compat; [|lra]; apply Rmult_lt_0_compat; [lra|nra]|].
    replace (2 * q * (q * q) / m * (2 * q * (q * q) / m)) with (4 * (q * q) ^ 3 / (m * m)) by (field; lra). rewrite Q2, P2. field. lra.
  - split; [apply sqrt_lt_R0, Rdiv_lt_0_compat; lra|]. intro tof. unfold clock, T_of. rewrite <- Rmult_assoc, <- sqrt_mult; [|apply Rlt_le, Rdiv_lt_0_compat; lra|apply Rlt_le, Rdiv_lt_0_compat; lra].
    replace (semi r1 r2 ^ 3 / (2 * mu) * (2 * mu / semi r1 r2 ^ 3)) with 1 by (field; split; lra). rewrite sqrt_1. ring.
Qed.
Lemma x_above : forall x T l M f, l * l < 1 -> tof_equation x T l M = Some f -> Rabs f < T -> -1 < x.
Proof.
  intros x T l M f L E B. destruct (Rlt_dec (-1) x) as [|N]; [assumption|]. exfalso. assert (X : x <= -1) by lra.
  unfold tof_equation, tof_equation_y in E. rewrite far_low in E by lra. unfold tof_general in E. destruct (Req_EM_T (x ^ 2) 1) as [|XN]; [discriminate|]. cbn [option_map] in E. apply some_inj in E.
  assert (X2 : 1 < x * x) by nra. pose proof (Y_pos l L x) as YP. pose proof (Y_sq l L x) as YS. cbv beta in *. set (y := compute_y x l) in *.
  assert (P : 0 <= compute_psi x y l) by (unfold compute_psi; destruct (Rlt_dec x 1); [apply acos_bound|lra]).
  pose proof (pos_INR M). pose proof PI_RGT_0. assert (MP : 0 <= INR M * PI) by (apply Rmult_le_pos; lra).
  set (w := sqrt (Rabs (1 - x ^ 2))) in *. assert (W : 0 < w) by (apply sqrt_lt_R0, Rabs_pos_lt; nra).
  assert (P' : 0 <= (compute_psi x y l + INR M * PI) / w) by (apply Rmult_le_pos; [lra|left; apply Rinv_0_lt_compat; exact W]).
  set (k := (compute_psi x y l + INR M * PI) / w) in *. clearbody k.
  assert (LY : x <= l * y <= - x). { assert (y * y <= x * x). { rewrite YS. assert (0 < (1 - l * l) * (x * x - 1)) by (apply Rmult_lt_0_compat; lra). lra. } assert ((l * y) * (l * y) <= x * x). { replace ((l * y) * (l * y)) with ((l * l) * (y * y)) by ring. assert (0 <= (1 - l * l) * (y * y)) by (apply Rmult_le_pos; nra). lra. } nra. }
  assert (T <= - f \/ T <= f -> False) by (intro Q; apply Rabs_def2 in B; lra). apply H1. left. rewrite <- E.
  assert (I : / (1 - x ^ 2) < 0) by (apply Rinv_lt_0_compat; nra). unfold Rdiv. set (n := k - x + l * y) in *. assert (N0 : 0 <= n) by (unfold n; lra). clearbody n. set (i := / (1 - x ^ 2)) in *. clearbody i. assert (0 <= n * - i) by (apply Rmult_le_pos; lra). lra.
Qed.
Lemma T_x_Tg : forall l x M, x <> 1 -> T_x l x (compute_y x l) M = Tg l M x.
Proof. intros l x M N. unfold T_x, Tg. destruct (Req_EM_T x 1) as [E|_]; [contradiction|]. replace (x * x) with (x ^ 2) by ring. reflexivity. Qed.
Lemma near_bounds : forall x M, near_parabola x M = true -> M = 0%nat /\ 0 < x /\ 6 / 10 < x * x /\ x * x < 14 / 10.
Proof.
  intros x [|M] H; [|discriminate]. cbn in H. apply andb_true_iff in H as [A B]. unfold rlt in A, B.
  destruct (Rlt_dec (sqrt (6 / 10)) x) as [A'|]; [|discriminate]. destruct (Rlt_dec x (sqrt (14 / 10))) as [B'|]; [|discriminate].
  assert (P : 0 < sqrt (6 / 10)) by (apply sqrt_lt_R0; lra). pose proof (sqrt_sqrt (6 / 10) ltac:(lra)) as P2. pose proof (sqrt_sqrt (14 / 10) ltac:(lra)) as Q2.
  split; [reflexivity|]. split; [lra|]. split; nra.
Qed.
Lemma residual : forall x T l M f, l * l < 1 -> tof_equation x T l M = Some f -> Rabs (T_x l x (compute_y x l) M - T - f) <= / 10 ^ 26.
Proof.
  intros x T l M f L E. assert (Z : 0 < / 10 ^ 26) by (apply Rinv_0_lt_compat, pow_lt; lra). unfold tof_equation, tof_equation_y in E. destruct (near_parabola x M) eqn:NP.
  - destruct (near_bounds x M NP) as (-> & A & B & C). destruct (series_code l x (compute_y x l) L (Y_pos l L x) (Y_sq l L x) A B C) as [S D]. rewrite S in E. cbn [option_map] in E. apply some_inj in E.
    rewrite Rabs_minus_sym in D. rewrite <- E. match goal with |- Rabs ?t <= _ => match type of D with Rabs ?u <= _ => replace t with u by lra end end. exact D.
  - unfold tof_general in E. destruct (Req_EM_T (x ^ 2) 1) as [|XN]; [discriminate|]. cbn [option_map] in E. apply some_inj in E. rewrite T_x_Tg by (intro Q; apply XN; rewrite Q; ring).
    replace (Tg l M x - T - f) with 0 by (rewrite <- E; unfold Tg; ring). rewrite Rabs_R0. lra.
Qed.
Lemma transfer : forall r1 r2 tof mu o v1 v2 x f, cross r1 r2 <> (0, 0, 0) -> izzo_lambert r1 r2 tof mu o = Some (v1, v2) ->
  solution_x r1 r2 tof mu o = Some x -> tof_equation x (T_of r1 r2 tof mu) (ll_of r1 r2 (o_prograde o)) (o_M o) = Some f -> Rabs f < T_of r1 r2 tof mu ->
  o_M o = 0%nat \/ energy mu (row_of r1 v1) < 0 ->
  exists t, 0 < t /\ Rabs (t - tof - clock r1 r2 mu * f) <= clock r1 r2 mu / 10 ^ 26 /\
    forall X V, two_body mu X V -> X 0 = r1 -> V 0 = v1 -> X t = r2 /\ V t = v2.
Proof.
  intros r1 r2 tof mu o v1 v2 x f S H SX E B MO. destruct (izzo_inv _ _ _ _ _ _ _ H) as (N1 & N2 & NC & MP & _ & x' & SX' & VE).
  rewrite SX in SX'. injection SX' as <-. set (pro := o_prograde o) in *.
  assert (E1 : v1 = fst (velocities r1 r2 mu pro x)) by (rewrite <- VE; reflexivity). assert (E2 : v2 = snd (velocities r1 r2 mu pro x)) by (rewrite <- VE; reflexivity).
  pose proof (l_lt r1 r2 pro N1 N2 NC) as L. pose proof (x_above _ _ _ _ _ L E B) as XA. pose proof (s_pos r1 r2 N1 N2 NC) as SP.
  assert (XB : o_M o = 0%nat \/ x < 1).
  { destruct MO as [|EN]; [left; assumption|right]. rewrite E1, energy_1 in EN by assumption. assert (0 < mu / semi r1 r2) by (apply Rdiv_lt_0_compat; lra).
    replace (mu * (1 - x * x) / semi r1 r2) with (mu / semi r1 r2 * (1 - x * x)) in EN by (field; lra). assert (0 < 1 - x * x) by (apply (Rmult_lt_reg_l (mu / semi r1 r2)); lra). nra. }
  set (l := ll_of r1 r2 pro) in *. pose proof (q_pos' r1 r2 N1 N2 NC) as QP.
  destruct (time_x (q_of r1 r2) l x (compute_y x l) QP L (Y_pos l L x) (Y_sq l L x) (h_of r1 r2) (o_M o) XA XB) as (chi & C1 & C2 & CP & CT).
  rewrite <- (al_is r1 r2 mu pro x MP S) in C1, C2, CT. unfold l in CT. rewrite (R1_is r1 r2 pro N1 N2 NC) in CT. fold l in CT.
  destruct (clock_is r1 r2 mu SP MP) as (CK & CK0 & CKT).
  pose proof (time_of r1 r2 mu pro x MP S chi C1 C2) as TO. fold l in TO. rewrite CT in TO.
  assert (TE : kf r1 (fst (velocities r1 r2 mu pro x)) mu chi / sqrt mu = clock r1 r2 mu * T_x l x (compute_y x l) (o_M o)) by (rewrite TO, CK; field; apply Rgt_not_eq, sqrt_lt_R0, MP).
  pose proof (residual _ _ _ _ _ L E) as RS. set (T := T_of r1 r2 tof mu) in *. set (tx := T_x l x (compute_y x l) (o_M o)) in *.
  exists (clock r1 r2 mu * tx). repeat split.
  - apply Rmult_lt_0_compat; [exact CK0|].
    assert (PT : 0 < 2 * q_of r1 r2 * (q_of r1 r2 * q_of r1 r2) * tx); [|assert (0 < 2 * q_of r1 r2 * (q_of r1 r2 * q_of r1 r2)) by (apply Rmult_lt_0_compat; [lra|nra]); apply (Rmult_lt_reg_l (2 * q_of r1 r2 * (q_of r1 r2 * q_of r1 r2))); lra].
    rewrite <- TO. pose proof (free r1 r2 mu pro x MP S) as FR. unfold not_radial in FR. rewrite pos_row, vel_row in FR.
    pose proof (K_grows r1 (fst (velocities r1 r2 mu pro x)) mu MP FR 0 chi ltac:(lra)) as KG. rewrite K_0 in KG. pose proof (low_pos r1 (fst (velocities r1 r2 mu pro x)) mu MP FR) as LP. assert (0 < low r1 (fst (velocities r1 r2 mu pro x)) mu * (chi - 0)) by (apply Rmult_lt_0_compat; lra). lra.
  - rewrite (CKT tof) at 1. fold T. replace (clock r1 r2 mu * tx - clock r1 r2 mu * T - clock r1 r2 mu * f) with (clock r1 r2 mu * (tx - T - f)) by ring.
    rewrite Rabs_mult, (Rabs_right (clock r1 r2 mu)) by lra. unfold Rdiv. apply Rmult_le_compat_l; [lra|exact RS].
  - rewrite <- TE. rewrite E1 in *. destruct (motion_at r1 r2 mu pro x MP S chi X V H0 H1 H2 C1 C2) as [A _]. exact A.
  - rewrite <- TE. rewrite E1 in *. rewrite E2. destruct (motion_at r1 r2 mu pro x MP S chi X V H0 H1 H2 C1 C2) as [_ A]. exact A.
Qed.
