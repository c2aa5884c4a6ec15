From Coq Require Import Reals Lra Lia ZArith Nsatz.
From Verif Require Import SphModel SphSpec SphProofs KepModel KepSpec KepProofs KepElem.
Open Scope R_scope.

(* ---- frames have Euler angles ---- *)
Lemma angle_exists : forall c s, c * c + s * s = 1 -> exists t, 0 <= t < 2 * PI /\ cos t = c /\ sin t = s.
Proof.
  intros c s H. assert (N : c <> 0 \/ s <> 0) by (destruct (Req_dec c 0); [right; nra|left; assumption]).
  destruct (atan2_polar c s N) as [A B]. replace (c ^ 2 + s ^ 2) with 1 in A, B by (rewrite <- H; ring). rewrite sqrt_1, Rmult_1_l in A, B.
  pose proof (atan2_range s c). destruct (normalise_spec (atan2 s c)) as [R S]; [unfold turn; pose proof PI_RGT_0; lra|].
  exists (normalise (atan2 s c)). split; [exact R|]. rewrite (same_cos _ _ S), (same_sin _ _ S). split; assumption.
Qed.
Definition third (i raan : R) : vec := (- cos i * sin raan, cos i * cos raan, sin i).
Lemma peri_split : forall i o w, peri i o w = lin (cos w) (sin w) (node o) (third i o).
Proof. intros. unfold peri, lin, node, third. cbn. vring. Qed.
Lemma track_split : forall i o w, along_track i o w = lin (- sin w) (cos w) (node o) (third i o).
Proof. intros. unfold along_track, lin, node, third. cbn. vring. Qed.
Lemma pole_cross_peri : forall i o w, cross (pole i o) (peri i o w) = along_track i o w.
Proof. intros. cbn. unfold along_track. trig. apply f_equal2; [apply f_equal2|]; nsatz. Qed.
Lemma expand3 : forall i o u, u = vplus (lin (dot (node o) u) (dot (third i o) u) (node o) (third i o)) (scale (dot (pole i o) u) (pole i o)).
Proof. intros i o [[x y] z]. cbn. trig. apply f_equal2; [apply f_equal2|]; nsatz. Qed.
Lemma third_1 : forall i o, dot (third i o) (third i o) = 1.
Proof. intros. cbn. trig. nsatz. Qed.
Lemma node_third : forall i o, dot (node o) (third i o) = 0.
Proof. intros. cbn. ring. Qed.
Lemma euler : forall W P, dot W W = 1 -> dot P P = 1 -> dot W P = 0 -> 0 < vx W ^ 2 + vy W ^ 2 ->
  exists i raan ap, 0 < i < PI /\ 0 <= raan < 2 * PI /\ 0 <= ap < 2 * PI /\ pole i raan = W /\ peri i raan ap = P.
Proof.
  intros [[wx wy] wz] P W1 P1 WP N. cbn in W1, N. rewrite !Rmult_1_r in N.
  assert (ZB : -1 < wz < 1) by nra. set (i := acos wz).
  assert (CI : cos i = wz) by (apply cos_acos; lra).
  assert (IR : 0 < i < PI).
  { pose proof (acos_bound wz) as B. fold i in B. split.
    - destruct (Req_dec i 0) as [E|]; [rewrite E, cos_0 in CI; lra|lra].
    - destruct (Req_dec i PI) as [E|]; [rewrite E, cos_PI in CI; lra|lra]. }
  assert (SI : 0 < sin i) by (apply sin_gt_0; lra). pose proof (sc1 i) as S2. rewrite CI in S2.
  destruct (angle_exists (- wy / sin i) (wx / sin i)) as (o & OR & CO & SO).
  { replace (- wy / sin i * (- wy / sin i) + wx / sin i * (wx / sin i)) with ((wx * wx + wy * wy) / (sin i * sin i)) by (field; lra).
    rewrite S2. replace (1 - wz * wz) with (wx * wx + wy * wy) by lra. field. lra. }
  assert (PO : pole i o = (wx, wy, wz)).
  { unfold pole. rewrite CO, SO, CI. apply f_equal2; [apply f_equal2|]; field; lra. }
  pose proof (expand3 i o P) as EX. rewrite PO, WP in EX.
  assert (EX2 : P = lin (dot (node o) P) (dot (third i o) P) (node o) (third i o)).
  { rewrite EX at 1. destruct (lin (dot (node o) P) (dot (third i o) P) (node o) (third i o)) as [[a b] c]. cbn. vring. }
  destruct (angle_exists (dot (node o) P) (dot (third i o) P)) as (w & WR & CW & SW).
  { rewrite <- P1. rewrite EX2 at 5 6. rewrite dot_lin, node_1, third_1, node_third. ring. }
  exists i, o, w. split; [exact IR|]. split; [exact OR|]. split; [exact WR|]. split; [exact PO|].
  rewrite peri_split, CW, SW. symmetry. exact EX2.
Qed.
(* a vector perpendicular to the pole in the frame of the orbit *)
Lemma in_plane : forall i o w u, dot (pole i o) u = 0 ->
  u = lin (dot u (peri i o w)) (dot u (along_track i o w)) (peri i o w) (along_track i o w).
Proof.
  intros i o w u Z. pose proof (expand3 i o u) as EX. rewrite Z in EX.
  assert (EX2 : u = lin (dot (node o) u) (dot (third i o) u) (node o) (third i o)).
  { rewrite EX at 1. destruct (lin (dot (node o) u) (dot (third i o) u) (node o) (third i o)) as [[a b] c]. cbn. vring. }
  rewrite peri_split, track_split, !dot_lin_r. rewrite !(dot_sym u).
  set (a := dot (node o) u) in *. set (b := dot (third i o) u) in *. rewrite EX2. clear.
  pose proof (sc1 w) as T. destruct (node o) as [[n1 n2] n3]. destruct (third i o) as [[t1 t2] t3]. cbn.
  set (s := sin w) in *. set (c := cos w) in *. clearbody s c. apply f_equal2; [apply f_equal2|]; nsatz.
Qed.
Lemma plane_norm : forall i o w u, dot (pole i o) u = 0 ->
  dot u u = dot u (peri i o w) * dot u (peri i o w) + dot u (along_track i o w) * dot u (along_track i o w).
Proof.
  intros i o w u Z. rewrite (in_plane i o w u Z) at 1 2. rewrite dot_lin, peri_1, track_1, peri_track. ring.
Qed.

(* ---- every state has elements ---- *)
Section Every.
Variable s : row6.
Variable mu : R.
Let r := pos s.
Let v := vel s.
Let h := cross r v.
Let E := scale (/ mu) (vplus (scale (norm v ^ 2 - mu / norm r) r) (scale (- dot r v) v)).
Hypothesis mu_pos : 0 < mu.
Hypothesis tilted : 0 < vx h ^ 2 + vy h ^ 2.
Hypothesis eccentric : 0 < norm E.
Let hm := norm h.
Let rho := norm r.
Let e := norm E.
Let p := hm ^ 2 / mu.
Let A := norm v ^ 2 - mu / rho.
Let B := - dot r v.
Lemma hh_pos : 0 < dot h h.
Proof. unfold vx, vy in tilted. destruct h as [[h1 h2] h3]. cbn in *. nra. Qed.
Lemma hm_sq : hm ^ 2 = dot h h.
Proof. apply norm_sq. Qed.
Lemma hm_pos : 0 < hm.
Proof. apply sqrt_lt_R0, hh_pos. Qed.
Lemma rho_sq : rho ^ 2 = dot r r.
Proof. apply norm_sq. Qed.
Lemma lagrange : dot h h = dot r r * dot v v - dot r v * dot r v.
Proof. unfold h. destruct r as [[r1 r2] r3], v as [[v1 v2] v3]. cbn. ring. Qed.
Lemma rho_pos' : 0 < rho.
Proof.
  pose proof hh_pos as H. rewrite lagrange in H. pose proof (dot_nonneg r). apply sqrt_lt_R0.
  destruct (Req_dec (dot r r) 0) as [Z|Z]; [|lra]. rewrite Z in H. nra.
Qed.
Lemma E_lin : E = scale (/ mu) (lin A B r v).
Proof. reflexivity. Qed.
Lemma F_rE : mu * dot r E = hm ^ 2 - mu * rho.
Proof.
  rewrite E_lin, dot_scale_r, dot_lin_r, hm_sq, lagrange. unfold A, B. rewrite (norm_sq v), <- rho_sq. pose proof rho_pos'. field. lra.
Qed.
Lemma F_vE : mu * dot v E = - (mu / rho * dot r v).
Proof.
  rewrite E_lin, dot_scale_r, dot_lin_r. unfold A, B. rewrite (norm_sq v), (dot_sym v r). pose proof rho_pos'. field. lra.
Qed.
Lemma F_hE : dot h E = 0.
Proof. rewrite E_lin, dot_scale_r, dot_lin_r. unfold h. destruct r as [[r1 r2] r3], v as [[v1 v2] v3]. cbn. ring. Qed.
Lemma F_hr : dot h r = 0.
Proof. unfold h. destruct r as [[r1 r2] r3], v as [[v1 v2] v3]. cbn. ring. Qed.
Lemma F_hv : dot h v = 0.
Proof. unfold h. destruct r as [[r1 r2] r3], v as [[v1 v2] v3]. cbn. ring. Qed.
Lemma F_rhE : mu * dot r (cross h E) = dot r v * hm ^ 2.
Proof.
  rewrite E_lin, hm_sq. transitivity (A * dot r (cross h r) + B * dot r (cross h v)).
  - destruct r as [[r1 r2] r3], v as [[v1 v2] v3], h as [[h1 h2] h3]. cbn. field. lra.
  - unfold B, h. destruct r as [[r1 r2] r3], v as [[v1 v2] v3]. cbn. ring.
Qed.
Lemma F_vhE : mu * dot v (cross h E) = A * hm ^ 2.
Proof.
  rewrite E_lin, hm_sq. transitivity (A * dot v (cross h r) + B * dot v (cross h v)).
  - destruct r as [[r1 r2] r3], v as [[v1 v2] v3], h as [[h1 h2] h3]. cbn. field. lra.
  - unfold h. destruct r as [[r1 r2] r3], v as [[v1 v2] v3]. cbn. ring.
Qed.
Lemma F_EE : mu ^ 2 * e ^ 2 = mu ^ 2 + hm ^ 2 * (A - mu / rho).
Proof.
  unfold e. rewrite norm_sq, E_lin, dot_scale, dot_lin, hm_sq, lagrange. unfold A, B. rewrite (norm_sq v), <- rho_sq. pose proof rho_pos'. field. lra.
Qed.
Theorem every_state : exists i raan ap nu, 0 < i < PI /\ 0 <= raan < 2 * PI /\ 0 <= ap < 2 * PI /\ 0 <= nu < 2 * PI /\
  0 < 1 + e * cos nu /\ s = perifocal p e i raan ap nu mu.
Proof.
  pose proof hm_pos as HP. pose proof rho_pos' as RP. assert (EP : 0 < e) by exact eccentric.
  assert (PP : 0 < p) by (unfold p; apply Rdiv_lt_0_compat; [nra|exact mu_pos]).
  set (W := scale (/ hm) h). set (P := scale (/ e) E).
  destruct (euler W P) as (i & o & w & IR & OR & WR & PW & PPi).
  - unfold W. rewrite dot_scale, <- hm_sq. field. lra.
  - unfold P. rewrite dot_scale, <- (norm_sq E). fold e. field. lra.
  - unfold W, P. rewrite dot_scale_l, dot_scale_r, F_hE. ring.
  - unfold W. pose proof tilted as T. destruct h as [[h1 h2] h3] eqn:Eh. cbn in T |- *.
    replace (/ hm * h1 * (/ hm * h1 * 1) + / hm * h2 * (/ hm * h2 * 1)) with (/ hm * / hm * (h1 * (h1 * 1) + h2 * (h2 * 1))) by ring.
    assert (0 < / hm) by (apply Rinv_0_lt_compat; exact HP). apply Rmult_lt_0_compat; [nra|exact T].
  - assert (QE : along_track i o w = scale (/ (hm * e)) (cross h E)).
    { rewrite <- pole_cross_peri, PW, PPi. unfold W, P. destruct h as [[h1 h2] h3], E as [[e1 e2] e3]. cbn. apply f_equal2; [apply f_equal2|]; field; lra. }
    assert (ZR : dot (pole i o) r = 0) by (rewrite PW; unfold W; rewrite dot_scale_l, F_hr; ring).
    assert (ZV : dot (pole i o) v = 0) by (rewrite PW; unfold W; rewrite dot_scale_l, F_hv; ring).
    assert (rP : dot r (peri i o w) = (hm ^ 2 / mu - rho) / e).
    { rewrite PPi. unfold P. rewrite dot_scale_r. apply (Rmult_eq_reg_l (mu * e)); [|nra]. transitivity (mu * dot r E); [field; lra|]. rewrite F_rE. field. lra. }
    assert (vP : dot v (peri i o w) = - (dot r v / (rho * e))).
    { rewrite PPi. unfold P. rewrite dot_scale_r. apply (Rmult_eq_reg_l (mu * e)); [|nra]. transitivity (mu * dot v E); [field; lra|]. rewrite F_vE. field. lra. }
    assert (rQ : dot r (along_track i o w) = dot r v * hm / (mu * e)).
    { rewrite QE, dot_scale_r. apply (Rmult_eq_reg_l mu); [|lra]. transitivity (/ (hm * e) * (mu * dot r (cross h E))); [ring|]. rewrite F_rhE. field. lra. }
    assert (vQ : dot v (along_track i o w) = A * hm / (mu * e)).
    { rewrite QE, dot_scale_r. apply (Rmult_eq_reg_l mu); [|lra]. transitivity (/ (hm * e) * (mu * dot v (cross h E))); [ring|]. rewrite F_vhE. field. lra. }
    destruct (angle_exists (dot r (peri i o w) / rho) (dot r (along_track i o w) / rho)) as (nu & NR & CN & SN).
    { transitivity ((dot r (peri i o w) * dot r (peri i o w) + dot r (along_track i o w) * dot r (along_track i o w)) / rho ^ 2); [field; lra|].
      rewrite <- plane_norm by exact ZR. rewrite rho_sq. field. rewrite <- rho_sq. nra. }
    assert (C : rho * (1 + e * cos nu) = p).
    { rewrite CN, rP. unfold p. field. split; lra. }
    assert (CP : 0 < 1 + e * cos nu). { rewrite <- C in PP. nra. }
    exists i, o, w, nu. split; [exact IR|]. split; [exact OR|]. split; [exact WR|]. split; [exact NR|]. split; [exact CP|].
    rewrite <- (row_pos_vel s), <- (row_pos_vel (perifocal p e i o w nu mu)).
    rewrite (pos_s p e i o w nu mu CP), vel_s. fold r v.
    replace (p / (1 + e * cos nu)) with rho by (rewrite <- C; field; lra).
    assert (K : sqrt (mu / p) = mu / hm).
    { unfold p. replace (mu / (hm ^ 2 / mu)) with ((mu / hm) ^ 2) by (field; lra). rewrite sqrt_of_sq. apply Rabs_right.
      apply Rle_ge, Rlt_le, Rdiv_lt_0_compat; lra. }
    rewrite K. f_equal.
    + rewrite (in_plane i o w r ZR) at 1. f_equal; [rewrite CN|rewrite SN]; field; lra.
    + rewrite (in_plane i o w v ZV) at 1. f_equal.
      * rewrite SN, vP, rQ. field. lra.
      * rewrite CN, vQ, rP. pose proof F_EE as FE.
        apply (Rmult_eq_reg_l (mu * hm * e)); [|apply Rgt_not_eq; apply Rmult_lt_0_compat; nra].
        transitivity (A * hm ^ 2); [field; lra|]. 
        transitivity (mu ^ 2 * e ^ 2 - mu ^ 2 + hm ^ 2 * mu / rho); [rewrite FE; field; lra|field; lra].
Qed.
End Every.
(* the elements returned for a state describe it *)
Lemma describe_state : forall s t0 mu kk, 0 < mu -> cartesian_to_keplerian s t0 mu = Some kk ->
  float_tol <= k_e kk -> (exists i, k_i kk = Some i /\ degrees float_tol <= i < 180) ->
  exists i raan ap nu, k_i kk = Some i /\ k_raan kk = Some raan /\ k_ap kk = Some ap /\ k_nu kk = Some nu /\
    0 <= raan < 360 /\ 0 <= ap < 360 /\ 0 <= nu < 360 /\
    0 < 1 + k_e kk * cos (radians nu) /\
    s = perifocal (k_p kk) (k_e kk) (radians i) (radians raan) (radians ap) (radians nu) mu /\
    0 < k_p kk /\ k_M kk = option_map degrees (calc_mean_anomaly (radians nu) (k_e kk)) /\
    (parabolic (k_e kk) = false -> let n := sqrt (mu / Rabs (k_p kk / (1 - k_e kk ^ 2)) ^ 3) in
       k_a kk = Some (k_p kk / (1 - k_e kk ^ 2)) /\ k_q kk = Some (k_p kk / (1 + k_e kk)) /\
       k_tp kk = option_map (fun M => t0 + (if Rlt_dec PI M then if Rlt_dec (k_e kk) (1 - float_tol) then 2 * PI / n - M / n else - (M / n) else - (M / n)))
                 (calc_mean_anomaly (radians nu) (k_e kk))).
Proof.
  intros s t0 mu kk M H EE (id & Hi & Ri). pose proof tol_pos as TP.
  (* unpack enough of the conversion *)
  assert (HE : k_e kk = norm (scale (/ mu) (vplus (scale (norm (vel s) ^ 2 - mu / norm (pos s)) (pos s)) (scale (- dot (pos s) (vel s)) (vel s))))
    /\ k_i kk = option_map degrees (obind (odiv (vz (cross (pos s) (vel s))) (norm (cross (pos s) (vel s)))) oacos)).
  { unfold cartesian_to_keplerian in H. destruct (Req_EM_T (norm (pos s)) 0); [discriminate|]. injection H as <-. split; reflexivity. }
  destruct HE as [HE HI]. rewrite Hi in HI. set (hv := cross (pos s) (vel s)) in *.
  unfold odiv in HI. destruct (Req_EM_T (norm hv) 0) as [|N0]; [discriminate|]. cbn [obind] in HI. unfold oacos in HI.
  destruct (Rle_dec (-1) (vz hv / norm hv)) as [L1|]; [|discriminate]. destruct (Rle_dec (vz hv / norm hv) 1) as [L2|]; [|discriminate].
  cbn [option_map] in HI. assert (HJ : forall x y : R, Some x = Some y -> x = y) by congruence. apply HJ in HI.
  assert (HP : 0 < norm hv) by (pose proof (sqrt_pos (dot hv hv)); unfold norm in *; lra).
  assert (T : 0 < vx hv ^ 2 + vy hv ^ 2).
  { set (c := vz hv / norm hv) in *. assert (c <> 1). { intros X. rewrite X, acos_1 in HI. assert (0 < 180 / PI) by (apply Rdiv_lt_0_compat; [lra|exact PI_RGT_0]). unfold degrees in *. nra. }
    assert (c <> -1). { intros X. assert (AM : acos (-1) = PI) by (rewrite <- cos_PI; apply acos_cos; pose proof PI_RGT_0; lra). rewrite X, AM in HI. unfold degrees in *. replace (PI * (180 / PI)) with 180 in HI by (field; pose proof PI_RGT_0; lra). lra. }
    assert (VZ : vz hv = c * norm hv) by (unfold c; field; lra). pose proof (norm_sq hv) as NS. clearbody c.
    destruct hv as [[h1 h2] h3]. cbn [vx vy vz fst snd dot] in *. rewrite !Rmult_1_r || idtac.
    assert (c ^ 2 < 1) by nra. assert (X3 : h3 * h3 = c ^ 2 * norm (h1, h2, h3) ^ 2) by (rewrite VZ at 1 2; ring).
    set (n := norm (h1, h2, h3)) in *. assert (0 < (1 - c ^ 2) * n ^ 2) by (apply Rmult_lt_0_compat; [lra|apply pow_lt; assumption]). nra. }
  assert (EC : 0 < norm (scale (/ mu) (vplus (scale (norm (vel s) ^ 2 - mu / norm (pos s)) (pos s)) (scale (- dot (pos s) (vel s)) (vel s))))) by (rewrite <- HE; lra).
  destruct (every_state s mu M T EC) as (i & o & w & nu & IR & OR & WR & NR & CP & S). fold hv in S.
  rewrite <- HE in S, CP. set (e := k_e kk) in *. set (p := norm hv ^ 2 / mu) in *.
  assert (PP : 0 < p) by (unfold p; apply Rdiv_lt_0_compat; nra).
  assert (ID : id = degrees i).
  { rewrite HI. f_equal. pose proof (h_vec p e i o w nu mu PP M CP) as HV. rewrite <- S in HV. fold hv in HV.
    pose proof (h_norm p i o mu) as HN. rewrite HV in N0 |- *. rewrite HN in N0 |- *. unfold pole. cbn [scale vz snd].
    replace (sqrt (mu * p) * cos i / sqrt (mu * p)) with (cos i) by (field; lra). apply acos_cos. lra. }
  assert (IT : float_tol <= i).
  { rewrite ID in Ri. destruct Ri as [Ri _]. unfold degrees in Ri. pose proof PI_RGT_0. assert (0 < 180 / PI) by (apply Rdiv_lt_0_compat; lra). unfold Rdiv in *. nra. }
  destruct (elements_back p e i o w nu mu PP M ltac:(lra) CP ltac:(lra) OR WR NR EE t0) as (kk' & K & Kp & Ke & Ki & Ko & Kw & Kn & Km & Ka & Kq & Kt).
  rewrite <- S, H in K. injection K as <-.
  assert (DG : forall x, 0 <= x < 2 * PI -> 0 <= degrees x < 360).
  { intros x X. unfold degrees. pose proof PI_RGT_0. assert (0 < 180 / PI) by (apply Rdiv_lt_0_compat; lra).
    assert (2 * PI * (180 / PI) = 360) by (field; lra). split; nra. }
  exists id, (degrees o), (degrees w), (degrees nu). rewrite Hi, Ko, Kw, Kn. repeat (split; [first [reflexivity | apply DG; assumption]|]).
  rewrite ID, !radians_degrees. split; [exact CP|]. rewrite Kp. split; [exact S|]. split; [exact PP|].
  split; [exact Km|]. intros NP n. rewrite Ka. fold e. rewrite NP. rewrite Kq, NP. destruct (Kt NP) as [_ Kt2].
  split; [reflexivity|]. split; [reflexivity|exact Kt2].
Qed.
