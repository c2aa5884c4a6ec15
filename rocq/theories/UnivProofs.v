(* Two-body propagation: conserved quantities, accuracy, composition, and the runs that go wrong. *)
From Coq Require Import Reals Lra Psatz Lia.
From Coquelicot Require Import Coquelicot.
From Verif Require Import SphModel SphProofs KepModel KepSpec KepHyp KepElem UnivModel UnivSpec UnivFun UnivOrbit UnivTime UnivUnique UnivNewton.
Open Scope R_scope.

Lemma ecc_is : forall mu s, norm (pos s) <> 0 -> eccentricity mu s = lin (dot (vel s) (vel s) - mu / norm (pos s)) (- dot (pos s) (vel s)) (pos s) (vel s).
Proof.
  intros mu s N. unfold eccentricity, momentum. replace (- mu / norm (pos s)) with (- (mu / norm (pos s))) by (field; exact N).
  generalize (mu / norm (pos s)). intro k. destruct (pos s) as [[a b] c], (vel s) as [[x y] z]. unfold lin, vplus, scale, cross, dot. vring.
Qed.
Lemma apply_lin : forall r v f g fd gd, apply_lagrange r v (f, g, fd, gd) = (lin f g r v, lin fd gd r v).
Proof. reflexivity. Qed.
Lemma lin_compose : forall a b f g fd gd r v, lin a b (lin f g r v) (lin fd gd r v) = lin (a * f + b * fd) (a * g + b * gd) r v.
Proof. intros a b f g fd gd [[r1 r2] r3] [[v1 v2] v3]. unfold lin, vplus, scale. vring. Qed.
Lemma scale_1 : forall u, scale 1 u = u.
Proof. intros [[a b] c]. unfold scale. vring. Qed.

Section One.
Variables (s : row6) (mu : R).
Hypotheses (mu_pos : 0 < mu) (free : not_radial s).
Let r := pos s.
Let v := vel s.

Lemma propagate_lin : forall t0 t1 n tol f g fd gd, calc_lagrange r v (t1 - t0) mu n tol = Some (f, g, fd, gd) ->
  propagate s t0 t1 mu n tol = Some (row_of (lin f g r v) (lin fd gd r v)).
Proof. intros t0 t1 n tol f g fd gd H. unfold propagate. fold r v. rewrite H. reflexivity. Qed.
Lemma conserved : forall x, let s' := row_of (ux r v mu x) (uv r v mu x) in
  momentum s' = momentum s /\ energy mu s' = energy mu s /\ eccentricity mu s' = eccentricity mu s.
Proof.
  intros x s'. unfold s'. pose proof (rho_pos r v mu mu_pos free x) as RP. pose proof (r0_pos r v free) as R0.
  assert (N : norm (ux r v mu x) = rho r v mu x) by (apply ux_norm; assumption).
  assert (V2 : dot (vel s) (vel s) = mu * (2 / norm r - alpha r v mu)).
  { fold v. rewrite (v_sq r v mu mu_pos free), (m_sq mu mu_pos). reflexivity. }
  split; [|split].
  - unfold momentum. rewrite pos_row, vel_row. unfold ux, uv. rewrite cross_lin.
    replace (cf r v mu x * cgd r v mu x - cg r v mu x * cfd r v mu x) with 1; [apply scale_1|].
    rewrite <- (wronskian r v mu mu_pos free x). ring.
  - unfold energy. rewrite pos_row, vel_row, N, !norm_sq, (uv_norm2 r v mu mu_pos free x), V2. fold r. field. lra.
  - rewrite !ecc_is by (rewrite ?pos_row, ?N; fold r; lra). rewrite pos_row, vel_row, N.
    rewrite (uv_norm2 r v mu mu_pos free x), (ux_dot_uv r v mu mu_pos free x), V2. fold r v.
    unfold ux, uv. rewrite lin_compose.
    pose proof (ecc_f r v mu mu_pos free x) as F. pose proof (ecc_g r v mu mu_pos free x) as G.
    f_equal.
    + rewrite <- F. ring.
    + rewrite (rv_is r v mu mu_pos). rewrite <- G. ring.
Qed.
Lemma exact_run : forall t0 t1 n tol, tol < 10 ^ 15 -> last_step s (t1 - t0) mu n tol 0 ->
  exists x, calc_lagrange r v (t1 - t0) mu n tol = Some (cf r v mu x, cg r v mu x, cfd r v mu x, cgd r v mu x) /\
    propagate s t0 t1 mu n tol = Some (row_of (ux r v mu x) (uv r v mu x)) /\
    ux r v mu x = motion_x r v mu mu_pos free (t1 - t0) /\ uv r v mu x = motion_v r v mu mu_pos free (t1 - t0).
Proof.
  intros t0 t1 n tol T H. exists (chi_at r v mu mu_pos free (t1 - t0)).
  pose proof (run_exact r v mu (t1 - t0) mu_pos free n tol T H) as C.
  split; [exact C|]. split; [exact (propagate_lin _ _ _ _ _ _ _ _ C)|]. split; reflexivity.
Qed.
End One.

Lemma motion_unique : forall s mu (mu_pos : 0 < mu) (free : not_radial s) X V, two_body mu X V -> X 0 = pos s -> V 0 = vel s ->
  forall t, X t = motion_x (pos s) (vel s) mu mu_pos free t /\ V t = motion_v (pos s) (vel s) mu mu_pos free t.
Proof.
  intros s mu mu_pos free X V H EX EV. destruct (motion_start (pos s) (vel s) mu mu_pos free) as [SX SV].
  apply (unique_motion mu); [exact mu_pos|exact H|apply motion_two_body| | |]; rewrite ?EX, ?EV; [exact free|symmetry; exact SX|symmetry; exact SV].
Qed.

(* ---- composition ---- *)
Lemma shift_two_body : forall mu X V h, two_body mu X V -> two_body mu (fun t => X (t + h)) (fun t => V (t + h)).
Proof.
  intros mu X V h H t. destruct (H (t + h)) as (N & (A & B & C) & (D & E & F)).
  assert (G : forall (f : R -> R) l, derivable_pt_lim f (t + h) l -> derivable_pt_lim (fun t => f (t + h)) t l).
  { intros f l L. apply d_lim. refine (d_eq _ _ _ _ (d_comp (fun t => t + h) f t 1 l _ _) _).
    - refine (d_eq _ _ _ _ (d_plus _ _ _ _ _ (d_id t) (d_const h t)) _). ring.
    - apply (proj2 (d_lim _ _ _)). exact L.
    - ring. }
  split; [exact N|]. split; [exact (conj (G _ _ A) (conj (G _ _ B) (G _ _ C)))|exact (conj (G _ _ D) (conj (G _ _ E) (G _ _ F)))].
Qed.
Lemma not_radial_moved : forall s s', momentum s' = momentum s -> not_radial s -> not_radial s'.
Proof. intros s s' E F. unfold not_radial in *. unfold momentum in E. rewrite E. exact F. Qed.
Lemma compose : forall s s1 s2 s3 mu t0 t1 t2 n tol, 0 < mu -> not_radial s -> tol < 10 ^ 15 ->
  propagate s t0 t1 mu n tol = Some s1 -> last_step s (t1 - t0) mu n tol 0 ->
  propagate s1 t1 t2 mu n tol = Some s2 -> last_step s1 (t2 - t1) mu n tol 0 ->
  propagate s t0 t2 mu n tol = Some s3 -> last_step s (t2 - t0) mu n tol 0 -> s2 = s3.
Proof.
  intros s s1 s2 s3 mu t0 t1 t2 n tol M F T P1 L1 P2 L2 P3 L3.
  destruct (exact_run s mu M F t0 t1 n tol T L1) as (x1 & _ & Q1 & X1 & V1).
  assert (E1 : s1 = row_of (ux (pos s) (vel s) mu x1) (uv (pos s) (vel s) mu x1)) by congruence.
  assert (F1 : not_radial s1).
  { apply (not_radial_moved s s1); [|exact F]. rewrite E1. apply (conserved s mu M F x1). }
  destruct (exact_run s1 mu M F1 t1 t2 n tol T L2) as (x2 & _ & Q2 & X2 & V2).
  destruct (exact_run s mu M F t0 t2 n tol T L3) as (x3 & _ & Q3 & X3 & V3).
  pose proof (shift_two_body mu _ _ (t1 - t0) (motion_two_body (pos s) (vel s) mu M F)) as SH.
  destruct (motion_unique s1 mu M F1 _ _ SH) with (t := t2 - t1) as [UX UV].
  - rewrite Rplus_0_l, E1, pos_row, X1. reflexivity.
  - rewrite Rplus_0_l, E1, vel_row, V1. reflexivity.
  - replace (t2 - t1 + (t1 - t0)) with (t2 - t0) in * by ring.
    assert (A : row_of (ux (pos s1) (vel s1) mu x2) (uv (pos s1) (vel s1) mu x2) = row_of (ux (pos s) (vel s) mu x3) (uv (pos s) (vel s) mu x3)) by (rewrite X2, V2, X3, V3, UX, UV; reflexivity).
    congruence.
Qed.

(* ---- a run that never converges ---- *)
Definition cyc_y : R := 3 * PI / 2.
Definition cyc_e : R := cyc_y / (1 + cyc_y).
Definition cyc : row6 := mk6 (- cyc_e) (- sqrt (1 - cyc_e ^ 2)) 0 1 0 0.
Lemma cyc_y_pos : 4 < cyc_y.
Proof. unfold cyc_y. pose proof PI2_3_2. lra. Qed.
Lemma cyc_e_range : 0 < cyc_e < 1.
Proof.
  pose proof cyc_y_pos. unfold cyc_e. split; [apply Rdiv_lt_0_compat; lra|].
  apply Rmult_lt_reg_r with (1 + cyc_y); [lra|]. unfold Rdiv. rewrite Rmult_assoc, Rinv_l by lra. lra.
Qed.
Lemma cyc_norms : norm (pos cyc) = 1 /\ norm (vel cyc) = 1 /\ dot (pos cyc) (vel cyc) = - cyc_e /\ alpha (pos cyc) (vel cyc) 1 = 1.
Proof.
  pose proof cyc_e_range as E.
  assert (A : norm (pos cyc) = 1).
  { apply norm_of; [lra|]. unfold cyc, pos, dot. cbn [c_0 c_1 c_2].
    replace (- sqrt (1 - cyc_e ^ 2) * - sqrt (1 - cyc_e ^ 2)) with (sqrt (1 - cyc_e ^ 2) * sqrt (1 - cyc_e ^ 2)) by ring.
    rewrite sqrt_sqrt by nra. ring. }
  assert (B : norm (vel cyc) = 1) by (apply norm_of; [lra|]; unfold cyc, vel, dot; cbn [c_3 c_4 c_5]; ring).
  split; [exact A|]. split; [exact B|]. split.
  - unfold cyc, pos, vel, dot. cbn [c_0 c_1 c_2 c_3 c_4 c_5]. ring.
  - unfold alpha. rewrite A, B. field.
Qed.
Lemma cyc_free : not_radial cyc.
Proof.
  unfold not_radial, cyc, pos, vel, cross. cbn [c_0 c_1 c_2 c_3 c_4 c_5]. intro H. pose proof cyc_e_range as E.
  assert (Z : - cyc_e * 0 - - sqrt (1 - cyc_e ^ 2) * 1 = 0) by congruence.
  assert (0 < sqrt (1 - cyc_e ^ 2)) by (apply sqrt_lt_R0; nra). lra.
Qed.
Definition c_half : stumpff6 := from_c01 ((PI / 2) ^ 2) 0 (1 / (PI / 2)).
Definition c_full : stumpff6 := from_c01 ((2 * PI) ^ 2) 1 0.
Lemma st_half : calc_stumpff (1 * (PI / 2) ^ 2) = Some c_half.
Proof.
  pose proof PI_RGT_0 as P. rewrite Rmult_1_l. unfold calc_stumpff. destruct (Rlt_dec 0 ((PI / 2) ^ 2)) as [_|B]; [|exfalso; apply B, pow_lt; lra].
  assert (S : sqrt ((PI / 2) ^ 2) = PI / 2) by (rewrite sqrt_of_sq; apply Rabs_right; lra).
  cbv zeta. rewrite S, cos_PI2, sin_PI2. reflexivity.
Qed.
Lemma st_full : calc_stumpff (1 * (2 * PI) ^ 2) = Some c_full.
Proof.
  pose proof PI_RGT_0 as P. rewrite Rmult_1_l. unfold calc_stumpff. destruct (Rlt_dec 0 ((2 * PI) ^ 2)) as [_|B]; [|exfalso; apply B, pow_lt; lra].
  assert (S : sqrt ((2 * PI) ^ 2) = 2 * PI) by (rewrite sqrt_of_sq; apply Rabs_right; lra).
  cbv zeta. rewrite S, cos_2PI, sin_2PI. unfold c_full. do 2 f_equal. field. lra.
Qed.
Lemma step_half : chi_f (pos cyc) (vel cyc) (PI / 2) 1 (PI / 2) c_half = - cyc_e /\ chi_fp (pos cyc) (vel cyc) 1 (PI / 2) c_half = 1 - cyc_e.
Proof.
  destruct cyc_norms as (A & B & C & D). pose proof PI_RGT_0 as P. unfold chi_f, chi_fp. rewrite A, C, D, sqrt_1.
  unfold c_half, from_c01. cbn [s_2 s_3]. split; field; lra.
Qed.
Lemma step_full : chi_f (pos cyc) (vel cyc) (PI / 2) 1 (2 * PI) c_full = cyc_y /\ chi_fp (pos cyc) (vel cyc) 1 (2 * PI) c_full = 1.
Proof.
  destruct cyc_norms as (A & B & C & D). pose proof PI_RGT_0 as P. unfold chi_f, chi_fp. rewrite A, C, D, sqrt_1.
  unfold c_full, from_c01, cyc_y. cbn [s_2 s_3]. split; field; lra.
Qed.
Lemma cycle : forall tol k c q, tol < 4 -> tol < Rabs q ->
  chi_loop (pos cyc) (vel cyc) (PI / 2) 1 tol (S (2 * k)) (PI / 2) c q = Some (2 * PI, c_half, - cyc_y).
Proof.
  intros tol k. pose proof cyc_y_pos as Y. pose proof cyc_e_range as E. pose proof PI_RGT_0 as P.
  assert (First : forall k c q, tol < Rabs q -> chi_loop (pos cyc) (vel cyc) (PI / 2) 1 tol (S k) (PI / 2) c q =
    chi_loop (pos cyc) (vel cyc) (PI / 2) 1 tol k (2 * PI) c_half (- cyc_y)).
  { intros j c q Q. cbn [chi_loop]. destruct (Rlt_dec tol (Rabs q)) as [_|B]; [|contradiction].
    destruct cyc_norms as (_ & _ & _ & D). rewrite D, st_half. cbn [obind]. destruct step_half as [F FP]. rewrite F, FP. unfold odiv.
    destruct (Req_EM_T (1 - cyc_e) 0) as [B|_]; [lra|]. cbn [obind].
    assert (R : - cyc_e / (1 - cyc_e) = - cyc_y) by (unfold cyc_e; field; lra).
    rewrite R. f_equal. unfold cyc_y. field. }
  assert (Second : forall k c q, tol < Rabs q -> chi_loop (pos cyc) (vel cyc) (PI / 2) 1 tol (S k) (2 * PI) c q =
    chi_loop (pos cyc) (vel cyc) (PI / 2) 1 tol k (PI / 2) c_full cyc_y).
  { intros j c q Q. cbn [chi_loop]. destruct (Rlt_dec tol (Rabs q)) as [_|B]; [|contradiction].
    destruct cyc_norms as (_ & _ & _ & D). rewrite D, st_full. cbn [obind]. destruct step_full as [F FP]. rewrite F, FP. unfold odiv.
    destruct (Req_EM_T 1 0) as [B|_]; [lra|]. cbn [obind]. f_equal; unfold cyc_y; field. }
  induction k as [|k IH]; intros c q T Q.
  - rewrite First by exact Q. reflexivity.
  - replace (2 * S k)%nat with (S (S (2 * k))) by lia. rewrite First by exact Q.
    rewrite Second by (rewrite Rabs_Ropp, Rabs_right; lra). apply IH; [exact T|]. rewrite Rabs_right; lra.
Qed.
Lemma cyc_chi : forall k tol, tol < 4 -> calc_chi (pos cyc) (vel cyc) (PI / 2) 1 (2 * k) tol = Some (2 * PI, c_half, - cyc_y).
Proof.
  intros k tol T. unfold calc_chi. destruct cyc_norms as (A & B & C & D). rewrite A, D. destruct (Req_EM_T 1 0) as [Z|_]; [lra|].
  rewrite sqrt_1, Rabs_R1. replace (1 * 1 * (PI / 2)) with (PI / 2) by ring. apply cycle; [exact T|]. rewrite big_15. lra.
Qed.
Lemma vx_norm : forall u, Rabs (vx u) <= norm u.
Proof.
  intro u. replace (norm u) with (Rabs (norm u)) by (apply Rabs_right, Rle_ge, norm_nonneg). apply Rsqr_le_abs_0. unfold Rsqr.
  pose proof (norm_sq u) as N. rewrite dot_xyz in N. pose proof (Rle_0_sqr (vy u)) as Y. pose proof (Rle_0_sqr (vz u)) as Z. unfold Rsqr in Y, Z. nra.
Qed.
Lemma vx_distance : forall u w, Rabs (vx u - vx w) <= distance u w.
Proof.
  intros u w. assert (D : 0 <= distance u w) by apply sqrt_pos.
  replace (distance u w) with (Rabs (distance u w)) by (apply Rabs_right; lra). apply Rsqr_le_abs_0. unfold Rsqr, distance.
  rewrite sqrt_sqrt by (repeat apply Rplus_le_le_0_compat; apply pow2_ge_0).
  pose proof (pow2_ge_0 (vy u - vy w)). pose proof (pow2_ge_0 (vz u - vz w)). nra.
Qed.
Lemma cyc_wrong : forall k tol, tol < 4 -> exists s', propagate cyc 0 (PI / 2) 1 (2 * k) tol = Some s' /\
  forall X V, two_body 1 X V -> X 0 = pos cyc -> V 0 = vel cyc -> 10 < distance (pos s') (X (PI / 2)).
Proof.
  intros k tol T. pose proof PI_RGT_0 as P. pose proof PI2_3_2 as P3. pose proof cyc_e_range as Er.
  destruct cyc_norms as (A & B & C & D).
  set (g := PI / 2 - 64 * (PI / 2 - 1)).
  assert (C2 : (2 * PI) ^ 2 / 1 * s_2 c_half = 16) by (unfold c_half, from_c01; cbn [s_2]; field; lra).
  assert (C3 : 1 / 1 * (2 * PI) ^ 3 * s_3 c_half = 64 * (PI / 2 - 1)) by (unfold c_half, from_c01; cbn [s_3]; field; lra).
  assert (X0 : vx (lin (1 - 16) g (pos cyc) (vel cyc)) = 15 * cyc_e + g) by (unfold lin, vplus, scale, pos, vel, cyc, vx; cbn [c_0 c_1 c_2 c_3 c_4 c_5 fst snd]; ring).
  assert (Xn : vx (lin (1 - 16) g (pos cyc) (vel cyc)) < - 15) by (rewrite X0; unfold g; lra).
  assert (L : exists fd gd, calc_lagrange (pos cyc) (vel cyc) (PI / 2 - 0) 1 (2 * k) tol = Some (1 - 16, g, fd, gd)).
  { unfold calc_lagrange. rewrite Rminus_0_r, cyc_chi by exact T. cbn [obind]. unfold lagrange. rewrite A, sqrt_1, C2, C3. fold g.
    fold (lin (1 - 16) g (pos cyc) (vel cyc)). destruct (Req_EM_T _ 0) as [Z|_].
    - exfalso. pose proof (vx_norm (lin (1 - 16) g (pos cyc) (vel cyc))) as N. rewrite Z in N. rewrite Rabs_left in N by lra. lra.
    - eexists. eexists. reflexivity. }
  destruct L as (fd & gd & L). rewrite (propagate_lin cyc 1 0 (PI / 2) _ _ _ _ _ _ L). eexists. split; [reflexivity|].
  intros X V TB EX EV. rewrite pos_row.
  destruct (motion_unique cyc 1 Rlt_0_1 cyc_free X V TB EX EV (PI / 2)) as [MX _].
  assert (N : norm (X (PI / 2)) <= 2).
  { rewrite MX. unfold motion_x. rewrite (ux_norm (pos cyc) (vel cyc) 1 Rlt_0_1 cyc_free). set (x := chi_at _ _ _ _ _ _).
    pose proof (rho_inv (pos cyc) (vel cyc) 1 x) as I. pose proof (p_pos (pos cyc) (vel cyc) 1 Rlt_0_1 cyc_free) as PP.
    rewrite D in *. pose proof (rho_pos (pos cyc) (vel cyc) 1 Rlt_0_1 cyc_free x) as RP.
    pose proof (pow2_ge_0 (sl (pos cyc) (vel cyc) 1 x)) as SQ. nra. }
  pose proof (vx_norm (X (PI / 2))) as VN. pose proof (Rle_abs (- vx (X (PI / 2)))) as VA. rewrite Rabs_Ropp in VA.
  apply Rlt_le_trans with (2 := vx_distance _ _). rewrite Rabs_left by lra. lra.
Qed.

(* ---- a hyperbola that overflows ---- *)
Definition hyp : row6 := mk6 1 0 0 0 (sqrt 3) 0.
Lemma hyp_free : not_radial hyp.
Proof.
  unfold not_radial, hyp, pos, vel, cross. cbn [c_0 c_1 c_2 c_3 c_4 c_5]. intro H.
  assert (Z : 1 * sqrt 3 - 0 * 0 = 0) by congruence. assert (0 < sqrt 3) by (apply sqrt_lt_R0; lra). lra.
Qed.
Lemma hyp_norms : norm (pos hyp) = 1 /\ alpha (pos hyp) (vel hyp) 1 = - (1).
Proof.
  assert (A : norm (pos hyp) = 1) by (apply norm_of; [lra|]; unfold hyp, pos, dot; cbn [c_0 c_1 c_2]; ring).
  split; [exact A|]. unfold alpha. rewrite A, norm_sq. unfold hyp, vel, dot. cbn [c_3 c_4 c_5]. rewrite sqrt_sqrt by lra. field.
Qed.
Lemma exp_big : forall n, 2 ^ n <= exp (INR n).
Proof.
  induction n as [|n IH]; [change (INR 0) with 0; rewrite exp_0; cbn; lra|]. rewrite S_INR, exp_plus, <- tech_pow_Rmult, Rmult_comm.
  pose proof (exp_ineq1_le 1) as E. apply Rmult_le_compat; [apply pow_le; lra|lra|exact IH|lra].
Qed.
Lemma hyp_fails : forall n tol, tol < 10 ^ 15 -> propagate hyp 0 2000 1 n tol = None.
Proof.
  intros n tol T. unfold propagate, calc_lagrange, calc_chi. destruct hyp_norms as [A B]. rewrite A. destruct (Req_EM_T 1 0) as [Z|_]; [lra|].
  cbn [chi_loop]. rewrite big_15. destruct (Rlt_dec tol (10 ^ 15)) as [_|C]; [|contradiction]. rewrite B, sqrt_1, Rabs_Ropp, Rabs_R1, Rminus_0_r.
  assert (E : calc_stumpff (- (1) * (1 * 1 * 2000) ^ 2) = None).
  { unfold calc_stumpff. destruct (Rlt_dec 0 _) as [C|_]; [exfalso; lra|]. destruct (Rlt_dec _ 0) as [_|C]; [|exfalso; apply C; lra].
    cbv zeta. replace (- (- (1) * (1 * 1 * 2000) ^ 2)) with (2000 ^ 2) by ring. rewrite sqrt_of_sq, Rabs_right by lra.
    destruct (Rlt_dec (cosh 2000) overflow) as [C|_]; [exfalso|reflexivity].
    pose proof (exp_big 2000) as X. replace (INR 2000) with 2000 in X by (rewrite INR_IZR_INZ; reflexivity).
    assert (O : 2 ^ 1024 <= 2 ^ 1999) by (apply Rle_pow; [lra|lia]).
    replace 2000%nat with (S 1999) in X by reflexivity. rewrite <- tech_pow_Rmult in X. pose proof (exp_pos (- (2000))). unfold cosh, overflow in C. lra. }
  rewrite E. reflexivity.
Qed.

(* ---- a run that stops at the root ---- *)
Definition circ : row6 := mk6 1 0 0 0 1 0.
Lemma circ_free : not_radial circ.
Proof.
  unfold not_radial, circ, pos, vel, cross. cbn [c_0 c_1 c_2 c_3 c_4 c_5]. intro H. assert (Z : 1 * 1 - 0 * 0 = 0) by congruence. lra.
Qed.
Lemma circular_exact : forall s dt n tol, norm (pos s) = 1 -> norm (vel s) = 1 -> dot (pos s) (vel s) = 0 -> 0 <= tol < 10 ^ 15 -> last_step s dt 1 n tol 0.
Proof.
  intros s dt n tol A B C [T0 T]. unfold last_step, calc_chi.
  assert (D : alpha (pos s) (vel s) 1 = 1) by (unfold alpha; rewrite A, B; field).
  rewrite A, D. destruct (Req_EM_T 1 0) as [Z|_]; [lra|]. cbn [chi_loop]. rewrite big_15. destruct (Rlt_dec tol (10 ^ 15)) as [_|X]; [|contradiction].
  rewrite sqrt_1, Rabs_R1, D. replace (1 * 1 * dt) with dt by ring.
  assert (S : exists c, calc_stumpff (1 * dt ^ 2) = Some c).
  { unfold calc_stumpff. destruct (Rlt_dec 0 (1 * dt ^ 2)); [eexists; reflexivity|]. destruct (Rlt_dec (1 * dt ^ 2) 0) as [X|_]; [exfalso; pose proof (pow2_ge_0 dt); lra|eexists; reflexivity]. }
  destruct S as (c & S). rewrite S. cbn [obind].
  assert (F : chi_f (pos s) (vel s) dt 1 dt c = 0) by (unfold chi_f; rewrite A, C, D, sqrt_1; field).
  assert (FP : chi_fp (pos s) (vel s) 1 dt c = 1) by (unfold chi_fp; rewrite A, C, D, sqrt_1; field).
  rewrite F, FP. unfold odiv. destruct (Req_EM_T 1 0) as [Z|_]; [lra|]. cbn [obind]. replace (0 / 1) with 0 by field.
  exists (dt - 0), c. destruct n; cbn [chi_loop]; [reflexivity|]. rewrite Rabs_R0. destruct (Rlt_dec tol 0) as [X|_]; [lra|reflexivity].
Qed.
Lemma circ_norms : norm (pos circ) = 1 /\ norm (vel circ) = 1 /\ dot (pos circ) (vel circ) = 0.
Proof.
  split; [apply norm_of; [lra|]; unfold circ, pos, dot; cbn [c_0 c_1 c_2]; ring|].
  split; [apply norm_of; [lra|]; unfold circ, vel, dot; cbn [c_3 c_4 c_5]; ring|].
  unfold circ, pos, vel, dot; cbn [c_0 c_1 c_2 c_3 c_4 c_5]; ring.
Qed.
Lemma circ_exact : forall dt n tol, 0 <= tol < 10 ^ 15 -> last_step circ dt 1 n tol 0.
Proof. intros dt n tol T. destruct circ_norms as (A & B & C). apply circular_exact; assumption. Qed.
Lemma circ_legs : forall t0 t1 t2 n tol, 0 <= tol < 10 ^ 15 -> exists s1 s2 s3,
  propagate circ t0 t1 1 n tol = Some s1 /\ propagate s1 t1 t2 1 n tol = Some s2 /\ propagate circ t0 t2 1 n tol = Some s3 /\
  last_step circ (t1 - t0) 1 n tol 0 /\ last_step s1 (t2 - t1) 1 n tol 0 /\ last_step circ (t2 - t0) 1 n tol 0.
Proof.
  intros t0 t1 t2 n tol T. destruct circ_norms as (A & B & C).
  assert (D : alpha (pos circ) (vel circ) 1 = 1) by (unfold alpha; rewrite A, B; field).
  pose proof (circ_exact (t1 - t0) n tol T) as L1. pose proof (circ_exact (t2 - t0) n tol T) as L3.
  destruct (exact_run circ 1 Rlt_0_1 circ_free t0 t1 n tol (proj2 T) L1) as (x & _ & P1 & _).
  destruct (exact_run circ 1 Rlt_0_1 circ_free t0 t2 n tol (proj2 T) L3) as (y & _ & P3 & _).
  set (s1 := row_of (ux (pos circ) (vel circ) 1 x) (uv (pos circ) (vel circ) 1 x)) in *.
  assert (RH : rho (pos circ) (vel circ) 1 x = 1) by (unfold rho; rewrite A, C, D, sqrt_1, u0_u2; field).
  assert (N1 : norm (pos s1) = 1) by (unfold s1; rewrite pos_row, (ux_norm (pos circ) (vel circ) 1 Rlt_0_1 circ_free); exact RH).
  assert (N2 : norm (vel s1) = 1).
  { apply norm_of; [lra|]. unfold s1. rewrite vel_row, (uv_norm2 (pos circ) (vel circ) 1 Rlt_0_1 circ_free), RH, D. field. }
  assert (N3 : dot (pos s1) (vel s1) = 0).
  { unfold s1. rewrite pos_row, vel_row, (ux_dot_uv (pos circ) (vel circ) 1 Rlt_0_1 circ_free). unfold sl. rewrite A, C, D. field. rewrite sqrt_1. lra. }
  pose proof (circular_exact s1 (t2 - t1) n tol N1 N2 N3 T) as L2.
  assert (F1 : not_radial s1) by (apply (not_radial_moved circ s1); [apply (conserved circ 1 Rlt_0_1 circ_free x)|apply circ_free]).
  destruct (exact_run s1 1 Rlt_0_1 F1 t1 t2 n tol (proj2 T) L2) as (z & _ & P2 & _).
  do 3 eexists. repeat split; [exact P1|exact P2|exact P3|exact L1|exact L2|exact L3].
Qed.
