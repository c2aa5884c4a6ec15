(* C67, C68, C125-C130: anomalies and orbital elements. *)
From Coq Require Import Reals Lra Lia ZArith.
From Verif Require Import SphModel SphSpec SphProofs KepModel KepSpec KepProofs KepNewton KepHyp KepElem KepBack KepTrip.
Open Scope R_scope.

(* C67: the solver inverts Barker's equation for twice the given mean anomaly. *)
Theorem C67_barker_partial : forall M, - PI < solve_barker M < PI /\ barker (solve_barker M) = 2 * M.
Proof. exact barker_solved. Qed.
Print Assumptions C67_barker_partial.
(* refuted: no mean anomaly of 5 or more comes back *)
Theorem C67_round_trip_refuted : forall M M', 5 <= M -> calc_mean_anomaly (solve_barker M) 1 = Some M' -> M' <> M.
Proof.
  intros M M' H C. unfold calc_mean_anomaly in C. destruct (Rlt_dec 1 1); [lra|]. injection C as <-.
  destruct (barker_solved M) as [R B]. assert (N : 0 <= solve_barker M).
  { destruct (Rle_dec 0 (solve_barker M)) as [L|L]; [exact L|]. exfalso. unfold barker in B.
    assert (T : tan (solve_barker M / 2) < 0). { rewrite <- (Ropp_involutive (solve_barker M / 2)), tan_neg. pose proof (tan_gt_0 (- (solve_barker M / 2)) ltac:(lra) ltac:(lra)). lra. }
    assert (tan (solve_barker M / 2) ^ 3 <= 0) by nra. lra. }
  pose proof (parabolic_M_bound (solve_barker M) ltac:(unfold turn; lra)). lra.
Qed.
Print Assumptions C67_round_trip_refuted.
(* refuted: the true anomaly of Barker's equation is not the one returned *)
Theorem C67_barker_refuted : forall M, M <> 0 -> barker (solve_barker M) <> M.
Proof. intros M H E. destruct (barker_solved M) as [_ B]. lra. Qed.
Print Assumptions C67_barker_refuted.

(* C68 refuted: a body approaching on a hyperbola always comes back as a receding one when its mean
   anomaly was wrapped to a positive value, whatever the tolerance and iteration limit. *)
Theorem C68_inbound_refuted : forall e nu M n tol, 1 < e -> PI < nu < 2 * PI -> calc_mean_anomaly nu e = Some M -> 0 < M ->
  0 < solve_kepler e M n tol < PI.
Proof. intros e nu M n tol E N H P. destruct (hyper_nu e M n tol E ltac:(lra)) as (A & _ & B). specialize (B P). lra. Qed.
Print Assumptions C68_inbound_refuted.
(* such a body: e = 2, nu = 270 degrees *)
Example C68_inbound_case : exists M, calc_mean_anomaly (3 * (PI / 2)) 2 = Some M /\ 0 < M.
Proof.
  pose proof PI_RGT_0 as PG. pose proof PI2_3_2 as P3.
  destruct (H_exists 2 ltac:(lra) (3 * (PI / 2))) as [h H]; [unfold turn; lra|unfold on_hyperbola; rewrite cos_3PI2; lra|].
  rewrite hyper_mean by lra. unfold hyperbolic_M. rewrite H. cbn [option_map].
  destruct (nu_of_H 2 ltac:(lra) (3 * (PI / 2)) h ltac:(unfold turn; lra) H) as [(A & _)|(_ & HN & NU)]; [lra|].
  destruct (ch_of_nu 2 ltac:(lra) h) as [_ C]. rewrite NU in C.
  replace (3 * (PI / 2) - turn) with (3 * (PI / 2) + IZR (-1) * (2 * PI)) in C by (unfold turn; ring). rewrite cos_turns, cos_3PI2 in C.
  pose proof (ch_sh h) as CS. assert (S : - 2 < sinh h) by nra. pose proof (sh_ge (- h) ltac:(lra)) as G. rewrite sh_neg in G.
  eexists. split; [reflexivity|]. unfold wrap_M, turn. destruct (Rlt_dec (2 * sinh h - h) 0); lra.
Qed.
(* what holds: a receding true anomaly has a mean anomaly; the iteration converges for every positive
   tolerance given enough iterations; when it has converged the returned true anomaly is a receding
   one whose mean anomaly is the given one up to the square of the tolerance *)
Theorem C68_outbound_partial : forall e nu, 1 < e -> 0 <= nu < PI -> on_hyperbola e nu ->
  exists M, calc_mean_anomaly nu e = Some M /\ 0 <= M /\
    (forall tol, 0 < tol -> exists N, forall n, (N <= n)%nat -> converged e M n tol) /\
    (forall n tol, 0 <= tol <= 1 -> converged e M n tol -> let nu' := solve_kepler e M n tol in
       0 <= nu' < PI /\ on_hyperbola e nu' /\
       exists M', calc_mean_anomaly nu' e = Some M' /\
         Rabs (M' - M) <= 3 / 2 * (1 + (e ^ 2 - 1) / (1 + e * cos nu')) * tol ^ 2).
Proof.
  intros e nu E N O. pose proof PI_RGT_0. destruct (H_exists e E nu ltac:(unfold turn; lra) O) as [h H0].
  destruct (nu_of_H e E nu h ltac:(unfold turn; lra) H0) as [(_ & HP & _)|(A & _)]; [|lra].
  pose proof (mean_nonneg e E h HP) as MP. exists (e * sinh h - h). split; [|split; [exact MP|split]].
  - rewrite hyper_mean by exact E. unfold hyperbolic_M. rewrite H0. cbn [option_map]. f_equal. unfold wrap_M. destruct (Rlt_dec (e * sinh h - h) 0); lra.
  - intros tol T. exact (hyper_converges e E h tol HP T).
  - intros n tol T C nu'. destruct (hyper_nu e (e * sinh h - h) n tol E MP) as (A & B & _). fold nu' in A, B.
    split; [exact A|]. split; [exact B|]. exact (hyper_mean_back e _ n tol E MP T C).
Qed.
Print Assumptions C68_outbound_partial.
Example C68_outbound_case : 1 < 3 /\ 0 <= PI / 2 < PI /\ on_hyperbola 3 (PI / 2).
Proof. pose proof PI_RGT_0. unfold on_hyperbola. rewrite cos_PI2. lra. Qed.

(* C125: true to mean anomaly and back on an ellipse. *)
Theorem C125_anomalies : forall e nu, 0 <= e < 1 -> 0 <= nu < 2 * PI ->
  exists M, calc_mean_anomaly nu e = Some M /\ 0 <= M < 2 * PI /\
    forall n tol, 0 <= tol < 10 ^ 15 -> converged e M n tol -> let nu' := solve_kepler e M n tol in
      0 <= nu' < 2 * PI /\ Rabs (sin ((nu' - nu) / 2)) <= sqrt ((1 + e) / (1 - e)) * (e / (1 - e) * (tol ^ 2 / 4)).
Proof.
  intros e nu E N. exists (elliptical_M nu e). split; [apply ellipse_mean; lra|]. split; [apply elliptical_M_range; exact E|].
  intros n tol T C. exact (ellipse_round_trip e nu n tol E N T C).
Qed.
Print Assumptions C125_anomalies.
(* and mean to true anomaly and back *)
Theorem C125_mean : forall e M n tol, 0 <= e < 1 -> 0 <= tol < 10 ^ 15 -> converged e M n tol ->
  exists M1 M2, calc_mean_anomaly (solve_kepler e M n tol) e = Some M1 /\ same_angle M1 M2 /\ Rabs (M2 - M) <= e * (tol ^ 2 / 2).
Proof.
  intros e M n tol E T C. exists (elliptical_M (solve_kepler e M n tol) e). destruct (mean_round_trip e M n tol E T C) as (M2 & A & B).
  exists M2. split; [apply ellipse_mean; lra|]. split; assumption.
Qed.
Print Assumptions C125_mean.
(* with the default tolerance and iteration limit the solver converges for every e up to 0.7 *)
Theorem C125_converges : forall e nu M n tol, 0 <= e <= 7 / 10 -> 0 <= nu < 2 * PI -> calc_mean_anomaly nu e = Some M ->
  (8 <= n)%nat -> / 10 ^ 15 <= tol -> converged e M n tol.
Proof.
  intros e nu M n tol E N H N8 T. rewrite ellipse_mean in H by lra. injection H as <-. exact (ellipse_converges e nu n tol E N N8 T).
Qed.
Print Assumptions C125_converges.
Example C125_case : 0 <= 1 / 2 < 1 /\ 0 <= 3 < 2 * PI /\ (8 <= 100)%nat /\ / 10 ^ 15 <= / 10 ^ 15 /\ 0 <= / 10 ^ 15 < 10 ^ 15.
Proof. pose proof PI2_3_2. repeat split; try lra; try lia; cbn; lra. Qed.

(* C126: a state turned into Keplerian elements and back, exact elements and the defaults. *)
Theorem C126_state_trip : forall s t0 mu kk, 0 < mu -> cartesian_to_keplerian s t0 mu = Some kk ->
  float_tol <= k_e kk <= 1 - float_tol -> (exists i, k_i kk = Some i /\ degrees float_tol <= i < 180) ->
  exists a i raan ap M, k_a kk = Some a /\ k_i kk = Some i /\ k_raan kk = Some raan /\ k_ap kk = Some ap /\ k_M kk = Some M /\ 0 < a /\
    (forall n tol, exists s', keplerian_to_cartesian_a a (k_e kk) i raan ap M mu n tol = Some s' /\
       (0 <= tol < 10 ^ 15 -> converged (k_e kk) (radians M) n tol -> near kk mu a tol s s')) /\
    (forall n tol, k_e kk <= 7 / 10 -> (8 <= n)%nat -> / 10 ^ 15 <= tol -> converged (k_e kk) (radians M) n tol).
Proof.
  intros s t0 mu kk MU H E I. destruct (trip_state s t0 mu kk MU H E I) as (a & q & i & o & w & M & tp & A & _ & Hi & Ho & Hw & HM & _ & AP & _ & T & C).
  exists a, i, o, w, M. repeat (split; [assumption|]). split; [|exact C]. intros n tol. destruct (T n tol) as (s' & K & _ & N). exists s'. split; assumption.
Qed.
Print Assumptions C126_state_trip.

(* C129: Keplerian elements turned into a state and back. *)
Theorem C129_element_trip : forall a e i raan ap M t0 mu n tol, 0 < a -> 0 < mu -> float_tol <= e <= 1 - float_tol ->
  degrees float_tol <= i < 180 -> 0 <= raan < 360 -> 0 <= ap < 360 ->
  exists s kk M', keplerian_to_cartesian_a a e i raan ap M mu n tol = Some s /\
    cartesian_to_keplerian s t0 mu = Some kk /\ k_a kk = Some a /\ k_e kk = e /\ k_i kk = Some i /\ k_raan kk = Some raan /\ k_ap kk = Some ap /\
    k_M kk = Some M' /\ 0 <= M' < 360 /\
    (0 <= tol < 10 ^ 15 -> converged e (radians M) n tol ->
       exists M2, same_angle (radians M') M2 /\ Rabs (M2 - radians M) <= e * (tol ^ 2 / 2)).
Proof. exact trip_elements. Qed.
Print Assumptions C129_element_trip.
(* an orbit meeting the hypotheses of C126 and C129 *)
Lemma float_tol_small : 0 < float_tol < 1 / 1000 /\ degrees float_tol < 1.
Proof.
  split; [split; [exact tol_pos|exact tol_small]|]. pose proof PI2_3_2. unfold degrees. pose proof tol_pos. pose proof tol_small.
  assert (P : 0 < PI) by lra. assert (180 / PI < 90). { apply (Rmult_lt_reg_r PI); [lra|]. unfold Rdiv. rewrite Rmult_assoc, Rinv_l by lra. lra. }
  assert (0 < 180 / PI) by (apply Rdiv_lt_0_compat; lra). nra.
Qed.
Example C126_case : exists s kk, cartesian_to_keplerian s 59000 1 = Some kk /\ float_tol <= k_e kk <= 1 - float_tol /\
  (exists i, k_i kk = Some i /\ degrees float_tol <= i < 180) /\ k_e kk <= 7 / 10.
Proof.
  destruct float_tol_small as [A B].
  destruct (trip_elements 3 (1 / 2) 10 20 350 100 59000 1 100 (/ 10 ^ 15)) as (s & kk & M' & _ & K & _ & E & I & _); try lra.
  exists s, kk. split; [exact K|]. rewrite E. split; [lra|]. split; [|lra]. exists 10. split; [exact I|lra].
Qed.

(* C127 refuted: circular orbits get no anomalies; orbits of zero inclination get no argument of
   periapsis; retrograde equatorial orbits get no ascending node. *)
Theorem C127_circular_refuted : forall p i raan ap nu mu t0, 0 < p -> 0 < mu ->
  exists kk, cartesian_to_keplerian (perifocal p 0 i raan ap nu mu) t0 mu = Some kk /\
    k_e kk = 0 /\ k_ap kk = Some 0 /\ k_nu kk = None /\ k_M kk = None.
Proof.
  intros p i o w nu mu t0 P M. assert (C : 0 < 1 + 0 * cos nu) by lra. unfold cartesian_to_keplerian.
  rewrite (e_vec_is p 0 i o w nu mu P M C), (e_norm 0 i o w (Rle_refl 0)), (r_norm p 0 i o w nu mu P C).
  pose proof (rho_pos p 0 nu P C). destruct (Req_EM_T (p / (1 + 0 * cos nu)) 0); [lra|].
  eexists. split; [reflexivity|]. cbn [k_e k_ap k_nu k_M]. split; [reflexivity|]. pose proof tol_pos.
  rewrite Rabs_R0. destruct (Rlt_dec 0 float_tol); [|lra]. split; [cbn [option_map]; unfold degrees; f_equal; ring|].
  unfold odiv. rewrite !Rmult_0_l. destruct (Req_EM_T 0 0); [|lra]. split; reflexivity.
Qed.
Print Assumptions C127_circular_refuted.
Theorem C127_equatorial_refuted : forall p e raan ap nu mu t0, 0 < p -> 0 < mu -> float_tol <= e -> 0 < 1 + e * cos nu ->
  (exists kk, cartesian_to_keplerian (perifocal p e 0 raan ap nu mu) t0 mu = Some kk /\ k_i kk = Some 0 /\ k_raan kk = Some 0 /\ k_ap kk = None) /\
  (exists kk, cartesian_to_keplerian (perifocal p e PI raan ap nu mu) t0 mu = Some kk /\ k_i kk = Some 180 /\ k_raan kk = None /\ k_ap kk = None).
Proof.
  intros p e o w nu mu t0 P M E C. pose proof tol_pos as TP. pose proof tol_small as TS. pose proof PI_RGT_0 as PG. pose proof PI2_3_2 as P3.
  assert (MP : 0 < sqrt (mu * p)) by (apply sqrt_lt_R0; nra).
  assert (Z : forall i, sin i = 0 -> norm (scale (sqrt (mu * p) * sin i) (node o)) = 0).
  { intros i S. apply norm_of; [lra|]. rewrite dot_scale, node_1, S. ring. }
  assert (K : forall i, exists kk, cartesian_to_keplerian (perifocal p e i o w nu mu) t0 mu = Some kk /\
    k_i kk = option_map degrees (oacos (cos i)) /\
    (sin i = 0 -> k_ap kk = None /\ k_raan kk = option_map degrees (match oacos (cos i) with
        | Some j => if Rlt_dec j float_tol then Some 0 else if Rlt_dec (Rabs (j - 2 * PI)) float_tol then Some 0 else None | None => None end))).
  { intros i. unfold cartesian_to_keplerian.
    rewrite (e_vec_is p e i o w nu mu P M C), (e_norm e i o w ltac:(lra)), (r_norm p e i o w nu mu P C), (h_vec p e i o w nu mu P M C), (h_norm p i o mu), z_cross_pole.
    pose proof (rho_pos p e nu P C). destruct (Req_EM_T (p / (1 + e * cos nu)) 0); [lra|].
    eexists. split; [reflexivity|]. cbn [k_i k_ap k_raan]. rewrite odiv_some by lra. cbn [obind]. unfold pole. cbn [scale vz snd].
    replace (sqrt (mu * p) * cos i / sqrt (mu * p)) with (cos i) by (field; lra). split; [reflexivity|]. intros S. rewrite (Z i S). unfold odiv. rewrite Rmult_0_l.
    destruct (Req_EM_T 0 0); [|lra]. cbn [obind option_map]. rewrite Rabs_right by lra. destruct (Rlt_dec e float_tol); [lra|]. split; [reflexivity|]. reflexivity. }
  split.
  - destruct (K 0) as (kk & A & B & D). destruct (D sin_0) as [D1 D2]. exists kk. split; [exact A|]. rewrite B, D1, D2, oacos_cos, acos_cos by lra. cbn [option_map].
    destruct (Rlt_dec 0 float_tol); [|lra]. cbn [option_map]. unfold degrees. rewrite Rmult_0_l. repeat split; reflexivity.
  - destruct (K PI) as (kk & A & B & D). destruct (D sin_PI) as [D1 D2]. exists kk. split; [exact A|]. rewrite B, D1, D2, oacos_cos, acos_cos by lra. cbn [option_map].
    destruct (Rlt_dec PI float_tol); [lra|]. destruct (Rlt_dec (Rabs (PI - 2 * PI)) float_tol) as [L|L]; [rewrite Rabs_left in L by lra; lra|].
    cbn [option_map]. split; [f_equal; unfold degrees; field; lra|]. split; reflexivity.
Qed.
Print Assumptions C127_equatorial_refuted.
(* away from these cases every element is given *)
Theorem C127_complete_partial : forall s t0 mu kk, 0 < mu -> cartesian_to_keplerian s t0 mu = Some kk ->
  float_tol <= k_e kk -> (exists i, k_i kk = Some i /\ degrees float_tol <= i < 180) ->
  exists raan ap nu, k_raan kk = Some raan /\ k_ap kk = Some ap /\ k_nu kk = Some nu /\
    0 <= raan < 360 /\ 0 <= ap < 360 /\ 0 <= nu < 360.
Proof.
  intros s t0 mu kk M H E I. destruct (describe_state s t0 mu kk M H E I) as (i & o & w & nu & _ & A & B & C & D & F & G & _).
  exists o, w, nu. repeat split; try assumption; lra.
Qed.
Print Assumptions C127_complete_partial.

(* C130: an elliptical state turned into cometary elements and back. *)
Theorem C130_cometary_trip : forall s t0 mu kk, 0 < mu -> cartesian_to_keplerian s t0 mu = Some kk ->
  float_tol <= k_e kk < 1 - float_tol -> (exists i, k_i kk = Some i /\ degrees float_tol <= i < 180) ->
  exists a q i raan ap M tp, k_a kk = Some a /\ k_q kk = Some q /\ k_i kk = Some i /\ k_raan kk = Some raan /\ k_ap kk = Some ap /\ k_M kk = Some M /\ k_tp kk = Some tp /\
    (forall n tol, 0 <= tol < 10 ^ 15 -> converged (k_e kk) (radians M) n tol ->
       near kk mu a tol s (cometary_to_cartesian q (k_e kk) i raan ap tp t0 mu n tol)) /\
    (forall n tol, k_e kk <= 7 / 10 -> (8 <= n)%nat -> / 10 ^ 15 <= tol -> converged (k_e kk) (radians M) n tol).
Proof.
  intros s t0 mu kk MU H E I. destruct (trip_state s t0 mu kk MU H ltac:(lra) I) as (a & q & i & o & w & M & tp & A & Q & Hi & Ho & Hw & HM & HT & AP & _ & T & C).
  exists a, q, i, o, w, M, tp. repeat (split; [assumption|]). split; [|exact C]. intros n tol TL CV. destruct (T n tol) as (s' & _ & K & N).
  rewrite K by lra. apply N; assumption.
Qed.
Print Assumptions C130_cometary_trip.

(* C128 refuted: a hyperbolic comet whose periapsis lies in the future comes out receding. *)
Theorem C128_future_refuted : forall q e i raan ap tp t0 mu n tol, 0 < q -> 0 < mu -> 1 + float_tol <= e -> t0 < tp ->
  (tp - t0) * sqrt (mu / (q / (e - 1)) ^ 3) < 2 * PI -> outbound (cometary_to_cartesian q e i raan ap tp t0 mu n tol).
Proof.
  intros q e i o w tp t0 mu n tol Q MU E T B. pose proof tol_pos. destruct (hyper_cometary q e i o w tp t0 mu n tol Q MU E) as [_ ->].
  set (m := sqrt (mu / (q / (e - 1)) ^ 3)) in *. destruct (Rlt_dec 0 (tp - t0)); [|lra].
  destruct (hyper_nu e (2 * PI - (tp - t0) * m) n tol ltac:(lra) ltac:(lra)) as (A & C & D). specialize (D ltac:(lra)).
  apply rv_outbound; try lra; [nra|]. apply sin_gt_0; lra.
Qed.
Print Assumptions C128_future_refuted.
(* refuted: an approaching hyperbolic comet whose mean anomaly is wrapped gets a periapsis in the past *)
Theorem C128_periapsis_refuted : forall p e i raan ap nu mu t0 M, 0 < p -> 0 < mu -> 1 + float_tol <= e -> float_tol <= i < PI ->
  0 <= raan < 2 * PI -> 0 <= ap < 2 * PI -> PI < nu < 2 * PI -> calc_mean_anomaly nu e = Some M -> 0 < M ->
  exists kk tp, cartesian_to_keplerian (perifocal p e i raan ap nu mu) t0 mu = Some kk /\ k_tp kk = Some tp /\ tp < t0 /\
    inbound (perifocal p e i raan ap nu mu).
Proof.
  intros p e i o w nu mu t0 M P MU E I O W N H MP. pose proof tol_pos. pose proof tol_small.
  pose proof (asymptote e nu M ltac:(lra) ltac:(lra) H) as C. pose proof (not_parabolic_high e E) as NP.
  destruct (elements_back p e i o w nu mu P MU ltac:(lra) C I O W ltac:(lra) ltac:(lra) t0) as (kk & K & _ & _ & _ & _ & _ & _ & _ & _ & _ & T).
  destruct (T NP) as [_ T2]. rewrite H in T2. cbn [option_map] in T2. eexists kk, _. split; [exact K|]. split; [exact T2|].
  set (m := sqrt (mu / Rabs (p / (1 - e ^ 2)) ^ 3)). assert (m0 : 0 < m).
  { apply sqrt_lt_R0, Rdiv_lt_0_compat; [exact MU|]. apply pow_lt, Rabs_pos_lt. unfold Rdiv. apply Rmult_integral_contrapositive. split; [lra|apply Rinv_neq_0_compat; nra]. }
  assert (0 < M / m) by (apply Rdiv_lt_0_compat; assumption).
  split. { destruct (Rlt_dec PI M); [|lra]. destruct (Rlt_dec e (1 - float_tol)); lra. }
  apply rv_outbound; try lra. apply sin_lt_0; lra.
Qed.
Print Assumptions C128_periapsis_refuted.
(* refuted: on a parabola the state is that of twice the time since periapsis *)
Theorem C128_parabola_refuted : forall q i raan ap tp t0 mu n tol, 0 < q -> 0 < mu -> tp <= t0 ->
  exists nu, - PI < nu < PI /\ cometary_to_cartesian q 1 i raan ap tp t0 mu n tol = perifocal (2 * q) 1 (radians i) (radians raan) (radians ap) nu mu /\
    barker nu = 2 * (sqrt (mu / (2 * q ^ 3)) * (t0 - tp)).
Proof.
  intros q i o w tp t0 mu n tol Q MU T. pose proof tol_pos.
  assert (PB : parabolic 1 = true). { unfold parabolic. destruct (Rlt_dec (1 - float_tol) 1); [|lra]. destruct (Rlt_dec 1 (1 + float_tol)); [reflexivity|lra]. }
  set (M := sqrt (mu / (2 * q ^ 3)) * (t0 - tp)). destruct (barker_solved M) as [R B]. exists (solve_barker M). split; [exact R|]. split; [|exact B].
  unfold cometary_to_cartesian, keplerian_to_cartesian_q, keplerian_to_cartesian_p, true_anomaly, cometary_M, cometary_n. rewrite PB, radians_degrees.
  destruct (Rlt_dec 0 (tp - t0)); [lra|]. do 2 f_equal. unfold M. ring.
Qed.
Print Assumptions C128_parabola_refuted.
(* what holds: with the periapsis in the past, a hyperbolic comet is at the right mean anomaly *)
Theorem C128_past_partial : forall q e i raan ap tp t0 mu n tol, 0 < q -> 0 < mu -> 1 + float_tol <= e -> tp <= t0 -> 0 <= tol <= 1 ->
  let M := sqrt (mu / (q / (e - 1)) ^ 3) * (t0 - tp) in converged e M n tol ->
  exists nu M', cometary_to_cartesian q e i raan ap tp t0 mu n tol = perifocal (q * (1 + e)) e (radians i) (radians raan) (radians ap) nu mu /\
    0 <= nu < PI /\ on_hyperbola e nu /\ calc_mean_anomaly nu e = Some M' /\
    Rabs (M' - M) <= 3 / 2 * (1 + (e ^ 2 - 1) / (1 + e * cos nu)) * tol ^ 2.
Proof.
  intros q e i o w tp t0 mu n tol Q MU E T TL M C. pose proof tol_pos. destruct (hyper_cometary q e i o w tp t0 mu n tol Q MU E) as [m0 ->].
  fold M. set (m := sqrt (mu / (q / (e - 1)) ^ 3)) in *. destruct (Rlt_dec 0 (tp - t0)); [lra|].
  replace (- (tp - t0) * m) with M by (unfold M; fold m; ring). assert (MP : 0 <= M) by (unfold M; fold m; nra).
  destruct (hyper_nu e M n tol ltac:(lra) MP) as (A & B & _). destruct (hyper_mean_back e M n tol ltac:(lra) MP TL C) as (M' & X & Y).
  exists (solve_kepler e M n tol), M'. split; [reflexivity|]. split; [exact A|]. split; [exact B|]. split; assumption.
Qed.
Print Assumptions C128_past_partial.
Example C128_case : 0 < 1 /\ 1 + float_tol <= 2 /\ (1 - 0) * sqrt (1 / (1 / (2 - 1)) ^ 3) < 2 * PI.
Proof.
  pose proof tol_small. pose proof PI2_3_2. split; [lra|]. split; [lra|].
  replace (1 / (1 / (2 - 1)) ^ 3) with 1 by field. rewrite sqrt_1. lra.
Qed.
