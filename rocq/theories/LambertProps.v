(* Properties of the Lambert solver. *)
From Coq Require Import Reals ZArith Lra Lia Psatz Field List.
From Coquelicot Require Import Coquelicot.
From Verif Require Import Base SphModel KepModel KepSpec KepElem FrameProofs UnivModel UnivSpec UnivOrbit GaussVel
  LambertModel LambertPlane LambertGeom LambertTime LambertSeries LambertDeriv LambertRun LambertEnd.
Import ListNotations.
Open Scope R_scope.

(* C76: the two states belong to one orbit *)
Theorem C76_one_orbit : forall r1 r2 tof mu o v1 v2, dot r1 r2 <> - (norm r1 * norm r2) -> izzo_lambert r1 r2 tof mu o = Some (v1, v2) ->
  momentum (row_of r2 v2) = momentum (row_of r1 v1) /\ energy mu (row_of r2 v2) = energy mu (row_of r1 v1) /\
  eccentricity mu (row_of r2 v2) = eccentricity mu (row_of r1 v1).
Proof. exact conserved. Qed.
Print Assumptions C76_one_orbit.
(* for every pair of positions the solver meets some time of flight exactly *)
Lemma some_result : forall r1 r2 mu pro low n atol rtol, norm r1 <> 0 -> norm r2 <> 0 -> norm (vminus r2 r1) <> 0 -> 0 < mu -> (1 <= n)%nat -> 0 < atol -> 0 <= rtol ->
  let o := mkopt 0 pro low n atol rtol in
  exists tof x v1 v2, 0 < tof /\ izzo_lambert r1 r2 tof mu o = Some (v1, v2) /\ solution_x r1 r2 tof mu o = Some x /\
    tof_equation x (T_of r1 r2 tof mu) (ll_of r1 r2 pro) 0 = Some 0 /\ 0 < T_of r1 r2 tof mu.
Proof.
  intros r1 r2 mu pro low n atol rtol N1 N2 NC MP N AT RT o. destruct (exact_time (ll_of r1 r2 pro) n atol rtol low (l_lt r1 r2 pro N1 N2 NC) N AT RT) as (T & x & TP & _ & _ & F & E).
  pose proof (s_pos r1 r2 N1 N2 NC) as SP. destruct (T_of_0 r1 r2 (T / sqrt (2 * mu / semi r1 r2 ^ 3)) mu) as (_ & K & TE). specialize (K SP MP).
  assert (TT : T_of r1 r2 (T / sqrt (2 * mu / semi r1 r2 ^ 3)) mu = T) by (rewrite TE; field; lra).
  exists (T / sqrt (2 * mu / semi r1 r2 ^ 3)), x. assert (S : solution_x r1 r2 (T / sqrt (2 * mu / semi r1 r2 ^ 3)) mu o = Some x) by (unfold solution_x, o; cbn [o_prograde o_M o_maxiter o_atol o_rtol o_low_path]; rewrite TT; exact F).
  exists (fst (velocities r1 r2 mu pro x)), (snd (velocities r1 r2 mu pro x)). rewrite TT. repeat split; try assumption.
  - apply Rdiv_lt_0_compat; assumption.
  - unfold izzo_lambert. destruct (Req_EM_T (norm r1) 0); [contradiction|]. destruct (Req_EM_T (norm r2) 0); [contradiction|]. destruct (Req_EM_T (norm (vminus r2 r1)) 0); [contradiction|]. destruct (Rlt_dec mu 0); [lra|].
    rewrite S. reflexivity.
Qed.
Lemma quarter : cross (1, 0, 0) (0, 1, 0) <> (0, 0, 0) /\ dot (1, 0, 0) (0, 1, 0) <> - (norm (1, 0, 0) * norm (0, 1, 0)).
Proof.
  split; [cbn; intro H; injection H; lra|]. assert (A : norm (1, 0, 0) = 1) by (apply norm_of; [lra|cbn; ring]). assert (B : norm (0, 1, 0) = 1) by (apply norm_of; [lra|cbn; ring]). rewrite A, B. cbn. lra.
Qed.
Example C76_case : exists tof v1 v2, 0 < tof /\ dot (1, 0, 0) (0, 1, 0) <> - (norm (1, 0, 0) * norm (0, 1, 0)) /\
  izzo_lambert (1, 0, 0) (0, 1, 0) tof 1 (mkopt 0 true true 35 (/ 10 ^ 10) (/ 10 ^ 10)) = Some (v1, v2).
Proof.
  destruct quarter as [S D]. assert (Z : 0 < / 10 ^ 10) by (apply Rinv_0_lt_compat, pow_lt; lra).
  destruct (some_result (1, 0, 0) (0, 1, 0) 1 true true 35 (/ 10 ^ 10) (/ 10 ^ 10) (skew_1 _ _ S) (skew_2 _ _ S) (skew_c _ _ S) ltac:(lra) ltac:(lia) Z ltac:(lra)) as (tof & x & v1 & v2 & TP & H & _).
  exists tof, v1, v2. repeat split; assumption.
Qed.

(* C159: positions in exactly opposite directions *)
Theorem C159_half_turn_refuted : exists r1 r2 tof mu v1 v2, norm r1 <> 0 /\ norm r2 <> 0 /\ 0 < mu /\ 0 < tof /\
  izzo_lambert r1 r2 tof mu (mkopt 0 true true 35 (/ 10 ^ 10) (/ 10 ^ 10)) = Some (v1, v2) /\ energy mu (row_of r2 v2) <> energy mu (row_of r1 v1).
Proof.
  assert (Z : 0 < / 10 ^ 10) by (apply Rinv_0_lt_compat, pow_lt; lra). set (r1 := (1, 0, 0)). set (r2 := (-2, 0, 0)).
  assert (A : norm r1 = 1) by (apply norm_of; [lra|cbn; ring]). assert (B : norm r2 = 2) by (apply norm_of; [lra|cbn; ring]). assert (C : norm (vminus r2 r1) = 3) by (apply norm_of; [lra|cbn; ring]).
  destruct (some_result r1 r2 1 true true 35 (/ 10 ^ 10) (/ 10 ^ 10) ltac:(lra) ltac:(lra) ltac:(lra) ltac:(lra) ltac:(lia) Z ltac:(lra)) as (tof & x & v1 & v2 & TP & H & _).
  exists r1, r2, tof, 1, v1, v2. split; [lra|]. split; [lra|]. split; [lra|]. split; [exact TP|]. split; [exact H|].
  assert (D : dot r1 r2 = - (norm r1 * norm r2)) by (rewrite A, B; cbn; ring). destruct (half_turn _ _ _ _ _ _ _ D H) as (_ & _ & E). rewrite A, B in E. lra.
Qed.
(* every such result moves along the line through the centre; the energies agree only for equal distances *)
Theorem C159_half_turn : forall r1 r2 tof mu o v1 v2, dot r1 r2 = - (norm r1 * norm r2) -> izzo_lambert r1 r2 tof mu o = Some (v1, v2) ->
  cross r1 v1 = (0, 0, 0) /\ cross r2 v2 = (0, 0, 0) /\
  energy mu (row_of r2 v2) - energy mu (row_of r1 v1) = mu * (norm r2 - norm r1) / (norm r1 * norm r2).
Proof. exact half_turn. Qed.
Print Assumptions C159_half_turn_refuted.
Print Assumptions C159_half_turn.

(* C160: the requested sense about the z axis *)
Theorem C160_sense : forall r1 r2 tof mu o v1 v2, izzo_lambert r1 r2 tof mu o = Some (v1, v2) ->
  (if o_prograde o then 0 <= vz (cross r1 v1) else vz (cross r1 v1) <= 0) /\ (vz (cross r1 r2) <> 0 -> vz (cross r1 v1) <> 0).
Proof. exact senses. Qed.
Print Assumptions C160_sense.
(* the retrograde flag with a case *)
Example C160_case : exists tof v1 v2, izzo_lambert (1, 0, 0) (0, 1, 0) tof 1 (mkopt 0 false true 35 (/ 10 ^ 10) (/ 10 ^ 10)) = Some (v1, v2) /\ vz (cross (1, 0, 0) v1) < 0.
Proof.
  destruct quarter as [S D]. assert (Z : 0 < / 10 ^ 10) by (apply Rinv_0_lt_compat, pow_lt; lra).
  destruct (some_result (1, 0, 0) (0, 1, 0) 1 false true 35 (/ 10 ^ 10) (/ 10 ^ 10) (skew_1 _ _ S) (skew_2 _ _ S) (skew_c _ _ S) ltac:(lra) ltac:(lia) Z ltac:(lra)) as (tof & x & v1 & v2 & TP & H & _).
  exists tof, v1, v2. split; [exact H|]. destruct (C160_sense _ _ _ _ _ _ _ H) as [A B]. cbn [o_prograde] in A. specialize (B ltac:(cbn; lra)). lra.
Qed.

(* C161: the derivatives the iteration uses *)
Theorem C161_derivatives : forall l M (T : R -> R) x, Rabs l < 1 -> (-1 < x < 1) \/ (1 < x /\ M = 0%nat) ->
  (forall z, z ^ 2 <> 1 -> tof_general z (compute_y z l) l M = Some (T z)) ->
  let d1 := fun z => tof_p z (compute_y z l) (T z) l in
  let d2 := fun z => tof_p2 z (compute_y z l) (T z) (d1 z) l in
  let d3 := fun z => tof_p3 z (compute_y z l) (d1 z) (d2 z) l in
  derivable_pt_lim T x (d1 x) /\ derivable_pt_lim d1 x (d2 x) /\ derivable_pt_lim d2 x (d3 x).
Proof.
  intros l M T x L X H d1 d2 d3. apply l_sq_abs in L.
  assert (E : forall z, z ^ 2 <> 1 -> T z = Tg l M z). { intros z Z. specialize (H z Z). rewrite tof_general_is in H by exact Z. congruence. }
  assert (NB : forall z, (-1 < z < 1) \/ (1 < z /\ M = 0%nat) -> Hierarchy.locally z (fun t => T t = Tg l M t)).
  { intros z Z. assert (D : 0 < Rabs (z ^ 2 - 1) / (4 * (Rabs z + 1))). { pose proof (Rabs_pos z). apply Rdiv_lt_0_compat; [apply Rabs_pos_lt; destruct Z as [|[]]; nra|lra]. }
    exists (mkposreal _ (Rlt_gt _ _ (Rmin_glb_lt _ _ _ D Rlt_0_1))). intros t B. apply E. unfold Hierarchy.ball in B. cbn in B. unfold Hierarchy.AbsRing_ball, Hierarchy.abs, Hierarchy.minus, Hierarchy.plus, Hierarchy.opp in B. cbn in B.
    pose proof (Rlt_le_trans _ _ _ B (Rmin_l _ _)) as B1. pose proof (Rlt_le_trans _ _ _ B (Rmin_r _ _)) as B2. clear B. intro T2. pose proof (Rabs_pos z) as RP.
    assert (K : Rabs (t + - z) * (4 * (Rabs z + 1)) < Rabs (z ^ 2 - 1)). { apply (Rmult_lt_compat_r (4 * (Rabs z + 1))) in B1; [|lra]. unfold Rdiv in B1. rewrite Rmult_assoc, Rinv_l in B1 by lra. replace (z * (z * 1)) with (z ^ 2) in B1 by ring. lra. }
    assert (W : Rabs (z ^ 2 - 1) = Rabs (t + - z) * Rabs (t + z)). { rewrite <- Rabs_mult, <- T2. rewrite <- Rabs_Ropp. f_equal. ring. }
    assert (V : Rabs (t + z) <= 2 * Rabs z + 1). { replace (t + z) with ((t + - z) + 2 * z) by ring. pose proof (Rabs_triang (t + - z) (2 * z)). rewrite Rabs_mult, (Rabs_right 2) in H0 by lra. lra. }
    pose proof (Rabs_pos (t + - z)). nra. }
  assert (OP : Hierarchy.locally x (fun z => (-1 < z < 1) \/ (1 < z /\ M = 0%nat))).
  { destruct X as [X|[X M0]].
    - assert (D : 0 < Rmin (x + 1) (1 - x)) by (apply Rmin_glb_lt; lra). exists (mkposreal _ D). intros t B. left. unfold Hierarchy.ball in B. cbn in B. unfold Hierarchy.AbsRing_ball, Hierarchy.abs, Hierarchy.minus, Hierarchy.plus, Hierarchy.opp in B. cbn in B. apply Rabs_def2 in B.
      pose proof (Rmin_l (x + 1) (1 - x)). pose proof (Rmin_r (x + 1) (1 - x)). lra.
    - assert (D : 0 < x - 1) by lra. exists (mkposreal _ D). intros t B. right. unfold Hierarchy.ball in B. cbn in B. unfold Hierarchy.AbsRing_ball, Hierarchy.abs, Hierarchy.minus, Hierarchy.plus, Hierarchy.opp in B. cbn in B. apply Rabs_def2 in B. split; [lra|exact M0]. }
  assert (A1 : forall z, (-1 < z < 1) \/ (1 < z /\ M = 0%nat) -> is_derive T z (d1 z)).
  { intros z Z. apply (is_derive_ext_loc (Tg l M)). { apply (Hierarchy.filter_imp (fun t => T t = Tg l M t)); [intros t Q; symmetry; exact Q|apply NB; exact Z]. }
    unfold d1. rewrite (E z) by (destruct Z as [|[]]; nra). apply T_deriv; assumption. }
  assert (XN : 1 - x ^ 2 <> 0) by (destruct X as [|[]]; nra).
  assert (A2 : is_derive d1 x (d2 x)) by (apply (T_deriv2 l L T x XN), A1, X).
  split; [apply is_derive_Reals, A1, X|]. split; [apply is_derive_Reals; exact A2|]. apply is_derive_Reals. apply (T_deriv3 l L T d1 x XN); [apply A1, X|exact A2].
Qed.
Print Assumptions C161_derivatives.
Example C161_case : exists T, forall z, z ^ 2 <> 1 -> tof_general z (compute_y z (1 / 2)) (1 / 2) 1 = Some (T z).
Proof. exists (Tg (1 / 2) 1). intros z Z. apply tof_general_is, Z. Qed.

(* C162: the velocities lead from the first position to the second in the requested time, up to the residual f of the time equation.
   [clock] converts the solver's time unit: sqrt (s^3 / (2 mu)), s half the perimeter of the triangle. *)
Theorem C162_transfer : forall r1 r2 tof mu o v1 v2 x f, cross r1 r2 <> (0, 0, 0) -> izzo_lambert r1 r2 tof mu o = Some (v1, v2) ->
  solution_x r1 r2 tof mu o = Some x -> tof_equation x (T_of r1 r2 tof mu) (ll_of r1 r2 (o_prograde o)) (o_M o) = Some f -> Rabs f < T_of r1 r2 tof mu ->
  o_M o = 0%nat \/ energy mu (row_of r1 v1) < 0 ->
  exists t, 0 < t /\ Rabs (t - tof - clock r1 r2 mu * f) <= clock r1 r2 mu / 10 ^ 26 /\
    forall X V, two_body mu X V -> X 0 = r1 -> V 0 = v1 -> X t = r2 /\ V t = v2.
Proof. exact transfer. Qed.
(* such results exist for every pair of positions *)
Theorem C162_exists : forall r1 r2 mu pro low n atol rtol, cross r1 r2 <> (0, 0, 0) -> 0 < mu -> (1 <= n)%nat -> 0 < atol -> 0 <= rtol ->
  let o := mkopt 0 pro low n atol rtol in
  exists tof v1 v2 t, 0 < tof /\ izzo_lambert r1 r2 tof mu o = Some (v1, v2) /\ 0 < t /\ Rabs (t - tof) <= clock r1 r2 mu / 10 ^ 26 /\
    forall X V, two_body mu X V -> X 0 = r1 -> V 0 = v1 -> X t = r2 /\ V t = v2.
Proof.
  intros r1 r2 mu pro low n atol rtol S MP N AT RT o.
  destruct (some_result r1 r2 mu pro low n atol rtol (skew_1 _ _ S) (skew_2 _ _ S) (skew_c _ _ S) MP N AT RT) as (tof & x & v1 & v2 & TP & H & SX & E & TT).
  destruct (transfer r1 r2 tof mu o v1 v2 x 0 S H SX E ltac:(rewrite Rabs_R0; exact TT) (or_introl eq_refl)) as (t & T0 & TE & TM).
  exists tof, v1, v2, t. split; [exact TP|]. split; [exact H|]. split; [exact T0|]. split; [|exact TM]. replace (t - tof) with (t - tof - clock r1 r2 mu * 0) by ring. exact TE.
Qed.
Print Assumptions C162_transfer.
Print Assumptions C162_exists.

(* C163: the first guess without complete revolutions *)
Theorem C163_guess : forall T l low, Rabs l < 1 -> 0 < T ->
  exists g, initial_guess T l 0 low = Some g /\ -1 < g /\
    (T_zero l 0 < T <-> g < 0) /\ (T = T_zero l 0 <-> g = 0) /\ (T_one l < T < T_zero l 0 -> 0 < g <= 1) /\ (T = T_one l -> g = 1) /\ (T < T_one l <-> 1 < g).
Proof.
  intros T l low L TP. apply l_sq_abs in L. pose proof (T_one_lt l L) as LT. cbn [initial_guess].
  destruct (Rle_dec (T_zero l 0) T) as [A|A].
  - destruct (guess_high T l L A) as (g & G & B & C). exists g. split; [exact G|]. split; [lra|]. destruct (Req_EM_T T (T_zero l 0)) as [Q|Q].
    + rewrite Q, guess_at_zero in G by exact L. injection G as <-. repeat split; intros; lra.
    + specialize (C ltac:(lra)). repeat split; intros; lra.
  - destruct (Rlt_dec T (T_one l)) as [B|B].
    + destruct (guess_low T l L ltac:(lra)) as (g & G & C). exists g. split; [exact G|]. split; [lra|]. repeat split; intros; lra.
    + destruct (guess_mid T l L ltac:(lra)) as (g & G & C & D). exists g. split; [exact G|]. split; [lra|]. repeat split; intros; try lra; exact (D ltac:(assumption)).
Qed.
(* both named times are those of the solutions 0 and 1 *)
Theorem C163_named : forall l, Rabs l < 1 -> tof_equation 0 (T_zero l 0) l 0 = Some 0 /\
  exists f, tof_equation 1 (T_one l) l 0 = Some f /\ Rabs f <= / 10 ^ 26.
Proof.
  intros l L. apply l_sq_abs in L. split.
  - rewrite tof_low; [rewrite Tg_0 by exact L; f_equal; ring|lra|apply far_low; lra].
  - unfold tof_equation, tof_equation_y.
    assert (NP : near_parabola 1 0 = true).
    { cbn. unfold rlt. assert (A : sqrt (6 / 10) < 1) by (rewrite <- sqrt_1; apply sqrt_lt_1; lra). assert (B : 1 < sqrt (14 / 10)). { pose proof (sqrt_lt_1 1 (14 / 10) ltac:(lra) ltac:(lra) ltac:(lra)) as Q. rewrite sqrt_1 in Q. exact Q. }
      destruct (Rlt_dec _ 1); [|contradiction]. destruct (Rlt_dec 1 _); [reflexivity|contradiction]. }
    rewrite NP. destruct (series_code l 1 (compute_y 1 l) L (Y_pos l L 1) (Y_sq l L 1) ltac:(lra) ltac:(lra) ltac:(lra)) as [S B]. rewrite S. cbn [option_map]. eexists. split; [reflexivity|].
    assert (TX : T_x l 1 (compute_y 1 l) 0 = T_one l) by (unfold T_x; destruct (Req_EM_T 1 1); [reflexivity|contradiction]). rewrite TX in B. exact B.
Qed.
Print Assumptions C163_guess.
Print Assumptions C163_named.

(* C164: no result, and the rows of the vectorised solver *)
Theorem C164_no_result : forall r1 r2 tof mu o,
  r1 = (0, 0, 0) \/ r2 = (0, 0, 0) \/ r1 = r2 \/ tof <= 0 \/ mu <= 0 \/ sqrt (2 * mu / semi r1 r2 ^ 3) * tof < INR (o_M o) * PI ->
  izzo_lambert r1 r2 tof mu o = None.
Proof.
  intros r1 r2 tof mu o H. destruct (izzo_lambert r1 r2 tof mu o) as [[v1 v2]|] eqn:E; [|reflexivity]. exfalso.
  destruct (izzo_inv _ _ _ _ _ _ _ E) as (N1 & N2 & NC & MP & TP & x & SX & _).
  assert (Z : norm (0, 0, 0) = 0) by (apply norm_of; [lra|cbn; ring]).
  destruct H as [H|[H|[H|[H|[H|H]]]]]; try lra.
  - apply N1. rewrite H. exact Z.
  - apply N2. rewrite H. exact Z.
  - apply NC. rewrite H. replace (vminus r2 r2) with (0, 0, 0); [exact Z|]. destruct r2 as [[? ?] ?]. cbn. vring.
  - unfold solution_x in SX. rewrite few_turns in SX; [discriminate|exact H].
Qed.
Theorem C164_rows : forall r1 r2 tof mu pro n tol,
  (List.length r1 = List.length r2 -> match tof with inl _ => True | inr ts => List.length r1 = List.length ts end ->
    exists out, solve_lambert r1 r2 tof mu pro n tol = Ok out /\ List.length out = List.length r1 /\
      forall k, (k < List.length r1)%nat -> forall d e,
        nth k out d = izzo_lambert (nth k r1 e) (nth k r2 e) (match tof with inl t => t | inr ts => nth k ts 0 end) mu (mkopt 0 pro true n tol tol)) /\
  (~ (List.length r1 = List.length r2 /\ match tof with inl _ => True | inr ts => List.length r1 = List.length ts end) -> solve_lambert r1 r2 tof mu pro n tol = Err ValueError).
Proof.
  intros r1 r2 tof mu pro n tol. unfold solve_lambert. set (ts := match tof with inl t => repeat t (List.length r1) | inr l => l end).
  split.
  - intros L1 L2. assert (L3 : List.length r1 = List.length ts) by (unfold ts; destruct tof; [symmetry; apply repeat_length|exact L2]).
    rewrite <- L1, <- L3, Nat.eqb_refl. cbn [andb]. eexists. split; [reflexivity|].
    assert (LC : List.length (combine (combine r1 r2) ts) = List.length r1) by (rewrite !combine_length; lia). split; [rewrite map_length; exact LC|].
    intros k K d e. set (f := fun '(a, b, t) => izzo_lambert a b t mu (mkopt 0 pro true n tol tol)).
    rewrite (nth_indep _ d (f (e, e, 0))) by (rewrite map_length; lia). rewrite map_nth. rewrite combine_nth by (rewrite combine_length; lia). rewrite combine_nth by exact L1. unfold f.
    assert (T : nth k ts 0 = match tof with inl t => t | inr l => nth k l 0 end). { unfold ts. destruct tof; [|reflexivity]. rewrite (nth_indep _ 0 r) by (rewrite repeat_length; lia). apply nth_repeat. }
    rewrite T. reflexivity.
  - intro H. destruct (Nat.eqb_spec (List.length r1) (List.length r2)) as [L1|L1]; [|reflexivity]. destruct (Nat.eqb_spec (List.length r1) (List.length ts)) as [L2|L2]; [|reflexivity].
    exfalso. apply H. split; [exact L1|]. unfold ts in L2. destruct tof; [exact I|exact L2].
Qed.
Print Assumptions C164_no_result.
Print Assumptions C164_rows.
