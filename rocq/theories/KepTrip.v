From Coq Require Import Reals Lra Lia ZArith Nsatz.
From Verif Require Import SphModel SphSpec SphProofs KepModel KepSpec KepProofs KepNewton KepHyp KepElem KepBack.
Open Scope R_scope.

Lemma distance_lin : forall a b x y P Q, dot P P = 1 -> dot Q Q = 1 -> dot P Q = 0 ->
  distance (lin a b P Q) (lin x y P Q) = sqrt ((a - x) ^ 2 + (b - y) ^ 2).
Proof.
  intros a b x y [[p1 p2] p3] [[q1 q2] q3] HP HQ HPQ. unfold distance. f_equal. cbn in *. nsatz.
Qed.
Lemma perifocal_same : forall p e i o w nu nu' mu, same_angle nu nu' -> perifocal p e i o w nu mu = perifocal p e i o w nu' mu.
Proof. intros. unfold perifocal. rewrite (same_cos _ _ H), (same_sin _ _ H). reflexivity. Qed.
Lemma sin2_half : forall d, 4 * sin (d / 2) ^ 2 <= d ^ 2.
Proof.
  intros d. pose proof (abs_sin_le (d / 2)) as A. rewrite <- (pow2_abs (sin (d / 2))), <- (pow2_abs d).
  unfold Rdiv in A at 2. rewrite Rabs_mult, (Rabs_right (/ 2)) in A by lra. pose proof (Rabs_pos (sin (d / 2))). nra.
Qed.
Section Ell.
Variables p e i o w mu : R.
Hypothesis p_pos : 0 < p.
Hypothesis e_range : 0 <= e < 1.
Hypothesis mu_pos : 0 < mu.
Lemma position_distance : forall E E' nu nu', same_angle nu (elliptical_nu e E) -> same_angle nu' (elliptical_nu e E') ->
  distance (pos (perifocal p e i o w nu mu)) (pos (perifocal p e i o w nu' mu)) <= p / (1 - e ^ 2) * Rabs (E' - E).
Proof.
  intros E E' nu nu' H H'. pose proof (den_nu e e_range nu) as D. pose proof (den_nu e e_range nu') as D'.
  rewrite (pos_s p e i o w nu mu D), (pos_s p e i o w nu' mu D').
  rewrite distance_lin by (apply peri_1 || apply track_1 || apply peri_track).
  pose proof (s_sq e e_range) as S2. pose proof (s_pos e e_range) as SP. set (s := sqrt (1 - e ^ 2)) in *.
  assert (X : forall E nu, same_angle nu (elliptical_nu e E) -> p / (1 + e * cos nu) * cos nu = p / (1 - e ^ 2) * (cos E - e) /\
             p / (1 + e * cos nu) * sin nu = p / (1 - e ^ 2) * (s * sin E)).
  { intros F f Hf. destruct (nu_of_E e e_range F) as [C S]. fold s in S. rewrite (same_cos _ _ Hf), (same_sin _ _ Hf), C, S.
    pose proof (den_E e e_range F). assert (1 - e ^ 2 <> 0) by nra.
    assert (1 + e * ((cos F - e) / (1 - e * cos F)) = (1 - e ^ 2) / (1 - e * cos F)) as -> by (field; lra).
    split; field; split; lra. }
  destruct (X E nu H) as [-> ->]. destruct (X E' nu' H') as [-> ->].
  assert (A : 0 < p / (1 - e ^ 2)) by (apply Rdiv_lt_0_compat; nra). set (a := p / (1 - e ^ 2)) in *.
  apply Rsqr_incr_0_var; [|apply Rmult_le_pos; [lra|apply Rabs_pos]].
  rewrite Rsqr_sqrt by (apply Rplus_le_le_0_compat; apply pow2_ge_0). rewrite Rsqr_mult, <- Rsqr_abs. unfold Rsqr.
  replace ((a * (cos E - e) - a * (cos E' - e)) ^ 2 + (a * (s * sin E) - a * (s * sin E')) ^ 2)
    with (a * a * ((cos E' - cos E) ^ 2 + s ^ 2 * (sin E' - sin E) ^ 2)) by ring.
  apply Rmult_le_compat_l; [nra|]. pose proof (pow2_ge_0 (sin E' - sin E)).
  assert (K : (cos E' - cos E) ^ 2 + (sin E' - sin E) ^ 2 = 4 * sin ((E' - E) / 2) ^ 2).
  { rewrite form2, form4. pose proof (sc1 ((E' + E) / 2)) as T. set (c1 := cos ((E' + E) / 2)) in *. set (s1 := sin ((E' + E) / 2)) in *.
    set (s2 := sin ((E' - E) / 2)).
    transitivity (4 * s2 ^ 2 * (s1 * s1 + c1 * c1)); [ring|]. rewrite T. ring. }
  pose proof (sin2_half (E' - E)). rewrite S2. nra.
Qed.
Lemma velocity_distance : forall nu nu', 
  distance (vel (perifocal p e i o w nu mu)) (vel (perifocal p e i o w nu' mu)) = sqrt (mu / p) * (2 * Rabs (sin ((nu' - nu) / 2))).
Proof.
  intros nu nu'. rewrite !vel_s. rewrite distance_lin by (apply peri_1 || apply track_1 || apply peri_track).
  set (k := sqrt (mu / p)). assert (0 <= k) by apply sqrt_pos.
  replace ((- (k * sin nu) - - (k * sin nu')) ^ 2 + (k * (e + cos nu) - k * (e + cos nu')) ^ 2) with ((k * (2 * sin ((nu' - nu) / 2))) ^ 2).
  - rewrite sqrt_of_sq, !Rabs_mult, (Rabs_right k), (Rabs_right 2) by lra. reflexivity.
  - transitivity (k ^ 2 * ((sin nu' - sin nu) ^ 2 + (cos nu' - cos nu) ^ 2)); [|ring].
    rewrite form2, form4. pose proof (sc1 ((nu' + nu) / 2)) as T. set (c1 := cos ((nu' + nu) / 2)) in *. set (s1 := sin ((nu' + nu) / 2)) in *.
    set (s2 := sin ((nu' - nu) / 2)).
    transitivity (k ^ 2 * (4 * s2 ^ 2 * (s1 * s1 + c1 * c1))); [rewrite T; ring|ring].
Qed.
End Ell.

Lemma not_parabolic_low : forall e, e <= 1 - float_tol -> parabolic e = false.
Proof. intros. unfold parabolic. destruct (Rlt_dec (1 - float_tol) e); [lra|reflexivity]. Qed.
Lemma not_parabolic_high : forall e, 1 + float_tol <= e -> parabolic e = false.
Proof. intros. unfold parabolic. destruct (Rlt_dec (1 - float_tol) e), (Rlt_dec e (1 + float_tol)); try reflexivity; lra. Qed.
Lemma ellipse_mean : forall nu e, e < 1 -> calc_mean_anomaly nu e = Some (elliptical_M nu e).
Proof. intros. unfold calc_mean_anomaly. destruct (Rlt_dec e 1); [reflexivity|lra]. Qed.
Lemma deg_range : forall x, 0 <= x < 360 -> 0 <= radians x < 2 * PI.
Proof. intros x X. unfold radians. pose proof PI_RGT_0. assert (0 < PI / 180) by lra. assert (360 * (PI / 180) = 2 * PI) by field. split; nra. Qed.

(* ---- state to elements to state ---- *)
Lemma trip_near : forall p e i o w nu mu n tol, 0 < p -> 0 <= e < 1 -> 0 < mu -> 0 <= nu < 2 * PI -> 0 <= tol < 10 ^ 15 ->
  converged e (elliptical_M nu e) n tol ->
  let nu' := solve_kepler e (elliptical_M nu e) n tol in
  distance (pos (perifocal p e i o w nu mu)) (pos (perifocal p e i o w nu' mu)) <= p / (1 - e ^ 2) * (e / (1 - e) * (tol ^ 2 / 2)) /\
  distance (vel (perifocal p e i o w nu mu)) (vel (perifocal p e i o w nu' mu)) <= sqrt (mu / p) * (sqrt ((1 + e) / (1 - e)) * (e / (1 - e) * (tol ^ 2 / 2))).
Proof.
  intros p e i o w nu mu n tol P R M N T C nu'. destruct (ellipse_trip_E e nu n tol R N T C) as (E & E' & S & S' & B). fold nu' in S'. split.
  - eapply Rle_trans; [apply (position_distance p e i o w mu P R E E' nu nu' S S')|].
    apply Rmult_le_compat_l; [left; apply Rdiv_lt_0_compat; nra|exact B].
  - rewrite velocity_distance. destruct (ellipse_round_trip e nu n tol R N T C) as [_ X]. fold nu' in X.
    apply Rmult_le_compat_l; [apply sqrt_pos|]. lra.
Qed.
Lemma trip_state : forall s t0 mu kk, 0 < mu -> cartesian_to_keplerian s t0 mu = Some kk ->
  float_tol <= k_e kk <= 1 - float_tol -> (exists i, k_i kk = Some i /\ degrees float_tol <= i < 180) ->
  exists a q i raan ap M tp, k_a kk = Some a /\ k_q kk = Some q /\ k_i kk = Some i /\ k_raan kk = Some raan /\ k_ap kk = Some ap /\
    k_M kk = Some M /\ k_tp kk = Some tp /\ 0 < a /\ 0 <= M < 360 /\
    (forall n tol, exists s', keplerian_to_cartesian_a a (k_e kk) i raan ap M mu n tol = Some s' /\
       (k_e kk < 1 - float_tol -> cometary_to_cartesian q (k_e kk) i raan ap tp t0 mu n tol = s') /\
       (0 <= tol < 10 ^ 15 -> converged (k_e kk) (radians M) n tol -> near kk mu a tol s s')) /\
    (forall n tol, k_e kk <= 7 / 10 -> (8 <= n)%nat -> / 10 ^ 15 <= tol -> converged (k_e kk) (radians M) n tol).
Proof.
  intros s t0 mu kk MU H ER IR. pose proof tol_pos as TP. pose proof PI_RGT_0 as PG.
  destruct (describe_state s t0 mu kk MU H ltac:(lra) IR) as (i & o & w & nu & Hi & Ho & Hw & Hnu & Ro & Rw & Rn & CP & S & PP & HM & REST).
  set (e := k_e kk) in *. set (p := k_p kk) in *. pose proof (not_parabolic_low e ltac:(lra)) as NP.
  destruct (REST NP) as (HA & HQ & HT). clear REST. rewrite ellipse_mean in HM, HT by lra. cbn [option_map] in HM, HT.
  pose proof (deg_range nu Rn) as NR. set (nur := radians nu) in *. set (M := elliptical_M nur e) in *.
  assert (MR : 0 <= M < turn) by (apply elliptical_M_range; lra). unfold turn in MR.
  assert (A0 : 0 < p / (1 - e ^ 2)) by (apply Rdiv_lt_0_compat; nra).
  assert (PA : p / (1 - e ^ 2) * (1 - e ^ 2) = p) by (field; nra).
  set (mm := sqrt (mu / Rabs (p / (1 - e ^ 2)) ^ 3)) in *.
  assert (MM : 0 < mm). { apply sqrt_lt_R0, Rdiv_lt_0_compat; [exact MU|]. apply pow_lt. rewrite Rabs_right; lra. }
  eexists _, _, i, o, w, _, _. split; [exact HA|]. split; [exact HQ|]. split; [exact Hi|]. split; [exact Ho|]. split; [exact Hw|].
  split; [exact HM|]. split; [exact HT|]. split; [exact A0|].
  split. { unfold degrees. assert (0 < 180 / PI) by (apply Rdiv_lt_0_compat; lra). assert (2 * PI * (180 / PI) = 360) by (field; lra). split; nra. }
  split.
  - intros n tol. exists (perifocal p e (radians i) (radians o) (radians w) (solve_kepler e M n tol) mu). split; [|split].
    + unfold keplerian_to_cartesian_a, keplerian_to_cartesian_p, true_anomaly. rewrite NP, PA, radians_degrees. reflexivity.
    + intros EL. unfold cometary_to_cartesian, keplerian_to_cartesian_q, keplerian_to_cartesian_p, true_anomaly. rewrite NP, radians_degrees.
      replace (p / (1 + e) / (1 - e) * (1 - e ^ 2)) with p by (field; split; lra).
      replace (cometary_M (p / (1 + e)) e (t0 + (if Rlt_dec PI M then if Rlt_dec e (1 - float_tol) then 2 * PI / mm - M / mm else - (M / mm) else - (M / mm))) t0 mu) with M; [reflexivity|].
      unfold cometary_M, cometary_n. rewrite NP. replace (p / (1 + e) / (1 - e)) with (p / (1 - e ^ 2)) by (field; repeat split; nra). fold mm.
      assert (DM : M / mm * mm = M) by (field; lra). assert (D2 : 2 * PI / mm * mm = 2 * PI) by (field; lra).
      assert (MN : 0 <= M / mm). { unfold Rdiv. apply Rmult_le_pos; [lra|]. left. apply Rinv_0_lt_compat. exact MM. }
      destruct (Rlt_dec PI M) as [L|L].
      * destruct (Rlt_dec e (1 - float_tol)); [|lra].
        assert (0 < 2 * PI / mm - M / mm). { replace (2 * PI / mm - M / mm) with ((2 * PI - M) / mm) by (field; lra). apply Rdiv_lt_0_compat; lra. }
        destruct (Rlt_dec 0 (t0 + (2 * PI / mm - M / mm) - t0)) as [L2|L2]; [|lra]. nra.
      * destruct (Rlt_dec 0 (t0 + - (M / mm) - t0)); [lra|]. nra.
    + intros T C. rewrite radians_degrees in C. unfold near. fold e p. rewrite S.
      apply (trip_near p e (radians i) (radians o) (radians w) nur mu n tol PP ltac:(lra) MU NR T C).
  - intros n tol E7 N8 T. rewrite radians_degrees. apply ellipse_converges; [lra|exact NR|exact N8|exact T].
Qed.

(* ---- elements to state to elements ---- *)
Lemma trip_elements : forall a e i raan ap M t0 mu n tol, 0 < a -> 0 < mu -> float_tol <= e <= 1 - float_tol ->
  degrees float_tol <= i < 180 -> 0 <= raan < 360 -> 0 <= ap < 360 ->
  exists s kk M', keplerian_to_cartesian_a a e i raan ap M mu n tol = Some s /\
    cartesian_to_keplerian s t0 mu = Some kk /\ k_a kk = Some a /\ k_e kk = e /\ k_i kk = Some i /\ k_raan kk = Some raan /\ k_ap kk = Some ap /\
    k_M kk = Some M' /\ 0 <= M' < 360 /\
    (0 <= tol < 10 ^ 15 -> converged e (radians M) n tol ->
       exists M2, same_angle (radians M') M2 /\ Rabs (M2 - radians M) <= e * (tol ^ 2 / 2)).
Proof.
  intros a e i o w M t0 mu n tol A MU ER IR OR WR. pose proof tol_pos as TP. pose proof PI_RGT_0 as PG.
  pose proof (not_parabolic_low e ltac:(lra)) as NP. set (nu := solve_kepler e (radians M) n tol).
  assert (IR2 : float_tol <= radians i < PI).
  { unfold radians, degrees in *. assert (0 < PI / 180) by lra. assert (float_tol * (180 / PI) * (PI / 180) = float_tol) by (field; lra). assert (180 * (PI / 180) = PI) by field. split; nra. }
  assert (NR : 0 <= nu < 2 * PI).
  { unfold nu, solve_kepler. destruct (Rlt_dec e 1); [|lra]. pose proof (nu_range e (fst (kepler_loop e (radians M) n tol))) as NU.
    destruct (normalise_spec (elliptical_nu e (fst (kepler_loop e (radians M) n tol)))) as [X _]; [lra|exact X]. }
  assert (P : 0 < a * (1 - e ^ 2)) by (apply Rmult_lt_0_compat; nra).
  destruct (elements_back (a * (1 - e ^ 2)) e (radians i) (radians o) (radians w) nu mu P MU ltac:(lra) (den_nu e ltac:(lra) nu) IR2 (deg_range _ OR) (deg_range _ WR) NR ltac:(lra) t0)
    as (kk & K & Kp & Ke & Ki & Ko & Kw & Kn & Km & Ka & _).
  assert (MR : 0 <= elliptical_M nu e < turn) by (apply elliptical_M_range; lra). unfold turn in MR.
  exists (perifocal (a * (1 - e ^ 2)) e (radians i) (radians o) (radians w) nu mu), kk, (degrees (elliptical_M nu e)).
  split. { unfold keplerian_to_cartesian_a, keplerian_to_cartesian_p, true_anomaly. rewrite NP. reflexivity. }
  split; [exact K|]. split. { rewrite Ka, NP. f_equal. field. nra. }
  split; [exact Ke|]. split; [rewrite Ki, degrees_radians; reflexivity|]. split; [rewrite Ko, degrees_radians; reflexivity|]. split; [rewrite Kw, degrees_radians; reflexivity|].
  split. { rewrite Km, ellipse_mean by lra. reflexivity. }
  split. { unfold degrees. assert (0 < 180 / PI) by (apply Rdiv_lt_0_compat; lra). assert (2 * PI * (180 / PI) = 360) by (field; lra). split; nra. }
  intros T C. rewrite radians_degrees. exact (mean_round_trip e (radians M) n tol ltac:(lra) T C).
Qed.

(* ---- hyperbolas from cometary elements ---- *)
Lemma rv_outbound : forall p e i o w nu mu, 0 < p -> 0 < mu -> 0 < e -> 0 < 1 + e * cos nu ->
  (0 < sin nu -> outbound (perifocal p e i o w nu mu)) /\ (sin nu < 0 -> inbound (perifocal p e i o w nu mu)).
Proof.
  intros p e i o w nu mu P M E C. pose proof (rv_dot p e i o w nu mu C) as D. set (s := perifocal p e i o w nu mu) in *.
  assert (K : 0 < p / (1 + e * cos nu) * sqrt (mu / p) * e).
  { apply Rmult_lt_0_compat; [|exact E]. apply Rmult_lt_0_compat; [apply Rdiv_lt_0_compat; assumption|apply sqrt_lt_R0, Rdiv_lt_0_compat; assumption]. }
  unfold outbound, inbound. change (c_0 s * c_3 s + c_1 s * c_4 s + c_2 s * c_5 s) with (dot (pos s) (vel s)). rewrite D. split; intros X; nra.
Qed.
Lemma hyper_cometary : forall q e i o w tp t0 mu n tol, 0 < q -> 0 < mu -> 1 + float_tol <= e ->
  let m := sqrt (mu / (q / (e - 1)) ^ 3) in
  0 < m /\ cometary_to_cartesian q e i o w tp t0 mu n tol =
    perifocal (q * (1 + e)) e (radians i) (radians o) (radians w) (solve_kepler e (if Rlt_dec 0 (tp - t0) then 2 * PI - (tp - t0) * m else - (tp - t0) * m) n tol) mu.
Proof.
  intros q e i o w tp t0 mu n tol Q MU E m. pose proof tol_pos as TP. pose proof (not_parabolic_high e E) as NP.
  assert (A : 0 < q / (e - 1)) by (apply Rdiv_lt_0_compat; lra). split; [apply sqrt_lt_R0, Rdiv_lt_0_compat; [exact MU|apply pow_lt; exact A]|].
  unfold cometary_to_cartesian, keplerian_to_cartesian_q, keplerian_to_cartesian_p, true_anomaly, cometary_M, cometary_n. rewrite NP, radians_degrees.
  replace (q / (1 - e) * (1 - e ^ 2)) with (q * (1 + e)) by (field; lra).
  replace (Rabs (q / (1 - e))) with (q / (e - 1)); [reflexivity|]. rewrite Rabs_left; [field; lra|].
  replace (q / (1 - e)) with (- (q / (e - 1))) by (field; lra). lra.
Qed.
Lemma hyper_nu : forall e M n tol, 1 < e -> 0 <= M -> let nu := solve_kepler e M n tol in 0 <= nu < PI /\ 0 < 1 + e * cos nu /\ (0 < M -> 0 < nu).
Proof.
  intros e M n tol E MP nu. unfold nu. rewrite (solve_is e E M n tol MP). set (F := fst (kepler_loop e M n tol)).
  pose proof (nu_H_range e F). pose proof (nu_H_nonneg e E F (loop_nonneg e E M n tol MP)). destruct (ch_of_nu e E F) as [C _].
  split; [lra|]. split; [exact C|]. intros X. apply nu_H_pos; [exact E|apply loop_pos; assumption].
Qed.
(* the mean anomaly of the anomaly found for a non-negative mean anomaly *)
Lemma hyper_mean_back : forall e M n tol, 1 < e -> 0 <= M -> 0 <= tol <= 1 -> converged e M n tol ->
  let nu := solve_kepler e M n tol in
  exists M', calc_mean_anomaly nu e = Some M' /\ Rabs (M' - M) <= 3 / 2 * (1 + (e ^ 2 - 1) / (1 + e * cos nu)) * tol ^ 2.
Proof.
  intros e M n tol E MP T C nu. unfold nu. rewrite (solve_is e E M n tol MP). pose proof (hyper_converged e E M n tol T C) as R. cbv zeta in R.
  set (F := fst (kepler_loop e M n tol)) in *. assert (FP : 0 <= F) by (apply loop_nonneg; assumption).
  exists (e * sinh F - F). split.
  - unfold calc_mean_anomaly. destruct (Rlt_dec e 1); [lra|]. destruct (Rlt_dec 1 e); [|lra]. unfold hyperbolic_M. rewrite H_of_nu_H by assumption. cbn [option_map].
    f_equal. unfold wrap_M. pose proof (mean_nonneg e E F FP). destruct (Rlt_dec (e * sinh F - F) 0); lra.
  - destruct (ch_of_nu e E F) as [_ CH]. rewrite <- CH. exact R.
Qed.
Lemma hyper_mean : forall e nu, 1 < e -> calc_mean_anomaly nu e = hyperbolic_M nu e.
Proof. intros. unfold calc_mean_anomaly. destruct (Rlt_dec e 1); [lra|]. destruct (Rlt_dec 1 e); [reflexivity|lra]. Qed.
Lemma asymptote : forall e nu M, 1 < e -> 0 <= nu < 2 * PI -> calc_mean_anomaly nu e = Some M -> 0 < 1 + e * cos nu.
Proof.
  intros e nu M E N H. rewrite hyper_mean in H by exact E. unfold hyperbolic_M in H. destruct (hyperbolic_H nu e) as [h|] eqn:HH; [|discriminate].
  destruct (ch_of_nu e E h) as [C _]. destruct (nu_of_H e E nu h N HH) as [(_ & _ & X)|(_ & _ & X)]; rewrite X in C; [exact C|].
  replace (nu - turn) with (nu + IZR (-1) * (2 * PI)) in C by (unfold turn; ring). rewrite cos_turns in C. exact C.
Qed.
