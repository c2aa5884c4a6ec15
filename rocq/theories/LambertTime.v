(* The time of flight: the universal anomaly of the transfer. *)
From Coq Require Import Reals Lra Lia Psatz Field.
From Verif Require Import SphModel KepModel KepHyp UnivFun LambertModel LambertPlane.
Open Scope R_scope.

Lemma clip_in : forall x lo hi, lo <= x <= hi -> clip x lo hi = x.
Proof. intros x lo hi H. unfold clip. rewrite Rmax_left by lra. apply Rmin_left. lra. Qed.
Section scalars.
Variables (q l x y : R).
Hypotheses (q_pos : 0 < q) (l_small : l * l < 1) (y_nn : 0 < y) (y_sq : y * y = 1 - l * l * (1 - x * x)).
Let eta := y - l * x.
Let A := x * y + l * (1 - x * x).
Lemma eta_p : 0 < eta.
Proof. unfold eta. assert ((l * x) * (l * x) < y * y) by nra. nra. Qed.
Lemma ang : A * A + (1 - x * x) * (eta * eta) = 1.
Proof. exact (angle l x y y_sq). Qed.
Let w := sqrt (1 - x * x).
Lemma w_is : -1 < x < 1 -> 0 < w /\ w * w = 1 - x * x.
Proof. intro X. split; [apply sqrt_lt_R0; nra|apply sqrt_sqrt; nra]. Qed.
Let psi := compute_psi x y l.
Lemma psi_ell : -1 < x < 1 -> 0 < psi < PI /\ cos psi = A /\ sin psi = w * eta.
Proof.
  intro X. destruct (w_is X) as [W W2]. pose proof ang as G. pose proof eta_p as E. assert (WE : 0 < w * eta) by nra.
  assert (G' : A * A + (w * eta) * (w * eta) = 1) by (rewrite <- G, <- W2; ring).
  assert (B : -1 < A < 1) by (split; nra).
  assert (P : psi = acos A). { unfold psi, compute_psi. destruct (Rlt_dec x 1); [|lra]. replace (x ^ 2) with (x * x) by ring. fold A. rewrite clip_in by lra. reflexivity. }
  assert (CP : cos psi = A) by (rewrite P; apply cos_acos; lra).
  pose proof (acos_bound_lt A B) as K. rewrite <- P in K. pose proof (sin_gt_0 psi (proj1 K) (proj2 K)) as S. pose proof (sin2_cos2 psi) as T. unfold Rsqr in T.
  rewrite CP in T. split; [exact K|]. split; [exact CP|]. assert (sin psi * sin psi = (w * eta) * (w * eta)) by lra. nra.
Qed.
Let v := sqrt (x * x - 1).
Lemma v_is : 1 < x -> 0 < v /\ v * v = x * x - 1.
Proof. intro X. split; [apply sqrt_lt_R0; nra|apply sqrt_sqrt; nra]. Qed.
Lemma psi_hyp : 1 < x -> 0 < psi /\ cosh psi = A /\ sinh psi = v * eta.
Proof.
  intro X. destruct (v_is X) as [V V2]. pose proof ang as G. pose proof eta_p as E.
  assert (P : psi = arcsinh (v * eta)). { unfold psi, compute_psi. destruct (Rlt_dec x 1); [lra|]. destruct (Rlt_dec 1 x); [|lra]. f_equal. replace (x ^ 2 - 1) with (x * x - 1) by ring. fold v. unfold eta. ring. }
  assert (S : sinh psi = v * eta) by (rewrite P; apply sinh_arcsinh).
  assert (PP : 0 < psi). { rewrite P, <- arcsinh_0. apply arcsinh_lt. nra. }
  assert (AP : 0 < A). { unfold A. destruct (Rle_dec l 0); [nra|]. unfold eta in E. nra. }
  assert (C : cosh psi * cosh psi = A * A). { pose proof (ch_sh psi) as T. assert (A * A = 1 + (v * eta) * (v * eta)) by (replace ((v * eta) * (v * eta)) with ((v * v) * (eta * eta)) by ring; rewrite V2; lra). rewrite <- S in H. nra. }
  pose proof (ch_ge1 psi). split; [exact PP|]. split; [nra|exact S].
Qed.
Let al := (1 - x * x) / (q * q).
Lemma chi_ell : forall M : nat, -1 < x < 1 -> let chi := q * (2 * psi + 2 * INR M * PI) / w in
  u1 al chi = U1 q l x y /\ u2 al chi = U2 q l x y /\ u3 al chi = q * q * (chi - U1 q l x y) / (1 - x * x) /\ 0 < chi.
Proof.
  intros M X chi. destruct (w_is X) as [W W2]. destruct (psi_ell X) as (B & CP & SP).
  assert (AP : 0 < al). { unfold al. apply Rdiv_lt_0_compat; nra. }
  assert (SA : sqrt al = w / q). { unfold al. rewrite <- W2. replace (w * w / (q * q)) with ((w / q) * (w / q)) by (field; lra). apply sqrt_square. left. apply Rdiv_lt_0_compat; lra. }
  assert (TH : sqrt al * chi = 2 * psi + 2 * INR M * PI). { rewrite SA. unfold chi. field. lra. }
  assert (SN : sin (sqrt al * chi) = 2 * (w * eta) * A) by (rewrite TH, sin_period, sin_2a, SP, CP; reflexivity).
  assert (CN : cos (sqrt al * chi) = 1 - 2 * ((w * w) * (eta * eta))) by (rewrite TH, cos_period, cos_2a_sin, SP; ring).
  assert (K1 : u1 al chi = U1 q l x y). { unfold u1. destruct (Rlt_dec 0 al); [|lra]. rewrite SN, SA. unfold U1. fold eta A. field. lra. }
  split; [exact K1|]. split.
  - unfold u2. destruct (Rlt_dec 0 al); [|lra]. rewrite CN. unfold al, U2. fold eta. rewrite W2. field; repeat split; nra.
  - split. + pose proof (u1_u3 al chi) as E. rewrite K1 in E. assert (u3 al chi = (chi - U1 q l x y) / al) by (rewrite E; field; lra). rewrite H. unfold al. field; repeat split; nra.
    + unfold chi. apply Rdiv_lt_0_compat; [|exact W]. pose proof (pos_INR M) as N. pose proof PI_RGT_0 as PG. apply Rmult_lt_0_compat; [exact q_pos|]. pose proof (Rmult_le_pos _ _ N (Rlt_le _ _ PG)). lra.
Qed.
Lemma chi_hyp : 1 < x -> let chi := q * (2 * psi) / v in
  u1 al chi = U1 q l x y /\ u2 al chi = U2 q l x y /\ u3 al chi = q * q * (chi - U1 q l x y) / (1 - x * x) /\ 0 < chi.
Proof.
  intros X chi. destruct (v_is X) as [V V2]. destruct (psi_hyp X) as (B & CP & SP).
  assert (AP : al < 0). { unfold al. apply Ropp_lt_cancel. rewrite Ropp_0. replace (- ((1 - x * x) / (q * q))) with ((x * x - 1) / (q * q)) by (field; lra). apply Rdiv_lt_0_compat; nra. }
  assert (SA : sqrt (- al) = v / q). { unfold al. replace (- ((1 - x * x) / (q * q))) with ((v * v) / (q * q)) by (rewrite V2; field; lra). replace (v * v / (q * q)) with ((v / q) * (v / q)) by (field; lra). apply sqrt_square. left. apply Rdiv_lt_0_compat; lra. }
  assert (TH : sqrt (- al) * chi = 2 * psi). { rewrite SA. unfold chi. field. lra. }
  assert (SN : sinh (sqrt (- al) * chi) = 2 * (v * eta) * A). { rewrite TH, <- SP, <- CP. unfold sinh, cosh. replace (2 * psi) with (psi + psi) by ring. rewrite Ropp_plus_distr, !exp_plus. field. }
  assert (CN : cosh (sqrt (- al) * chi) = 1 + 2 * ((v * v) * (eta * eta))).
  { rewrite TH. replace ((v * v) * (eta * eta)) with ((v * eta) * (v * eta)) by ring. rewrite <- SP. unfold sinh, cosh. replace (2 * psi) with (psi + psi) by ring. rewrite Ropp_plus_distr, !exp_plus.
    assert (E : exp psi * exp (- psi) = 1) by (rewrite <- exp_plus, Rplus_opp_r; apply exp_0). set (u := exp psi) in *. set (z := exp (- psi)) in *. nra. }
  assert (K1 : u1 al chi = U1 q l x y). { unfold u1. destruct (Rlt_dec 0 al); [lra|]. destruct (Rlt_dec al 0); [|lra]. rewrite SN, SA. unfold U1. fold eta A. field. lra. }
  split; [exact K1|]. split.
  - unfold u2. destruct (Rlt_dec 0 al); [lra|]. destruct (Rlt_dec al 0); [|lra]. rewrite CN. unfold al, U2. fold eta. rewrite V2. field; repeat split; nra.
  - split. + pose proof (u1_u3 al chi) as E. rewrite K1 in E. assert (u3 al chi = (chi - U1 q l x y) / al) by (rewrite E; field; lra). rewrite H. unfold al. field; repeat split; nra.
    + unfold chi. apply Rdiv_lt_0_compat; [nra|exact V].
Qed.
Lemma chi_par : x = 1 -> let chi := 2 * q * (1 - l) in
  u1 al chi = U1 q l x y /\ u2 al chi = U2 q l x y /\ u3 al chi = chi ^ 3 / 6 /\ 0 < chi.
Proof.
  intros X chi. assert (Y1 : y = 1) by (rewrite X in y_sq; nra). assert (Z : al = 0) by (unfold al; rewrite X; field; lra).
  unfold u1, u2, u3. rewrite Z. destruct (Rlt_dec 0 0); [lra|]. unfold U1, U2, chi. rewrite X, Y1. repeat split; try field. assert (l < 1) by nra. nra.
Qed.
(* the time in units of sqrt (s^3 / (2 mu)) *)
Definition T_x (M : nat) : R :=
  if Req_EM_T x 1 then T_one l
  else ((psi + INR M * PI) / sqrt (Rabs (1 - x * x)) - x + l * y) / (1 - x * x).
Variable h : R.
Lemma time_x : forall M : nat, -1 < x -> (M = 0%nat \/ x < 1) -> exists chi,
  u1 al chi = U1 q l x y /\ u2 al chi = U2 q l x y /\ 0 < chi /\
  R1 q l h * U1 q l x y + sg1 q l x y h * U2 q l x y + u3 al chi = 2 * q * (q * q) * T_x M.
Proof.
  intros M X MX. unfold T_x. destruct (Req_EM_T x 1) as [E|E].
  - assert (M = 0%nat) by (destruct MX; [assumption|lra]). destruct (chi_par E) as (K1 & K2 & K3 & K4). eexists. split; [exact K1|]. split; [exact K2|]. split; [exact K4|].
    rewrite K3. assert (Y1 : y = 1) by (rewrite E in y_sq; nra). unfold U1, U2, R1, sg1, T_one. rewrite E, Y1. field.
  - assert (NZ : 1 - x * x <> 0) by nra. pose proof (time_rest q l x y h y_sq) as TR.
    destruct (Rlt_dec x 1) as [L|L].
    + assert (I : -1 < x < 1) by lra. destruct (chi_ell M I) as (K1 & K2 & K3 & K4). destruct (w_is I) as [W W2]. eexists. split; [exact K1|]. split; [exact K2|]. split; [exact K4|].
      rewrite K3. rewrite Rabs_right by nra. fold w. apply (Rmult_eq_reg_l (1 - x * x)); [|exact NZ]. rewrite Rmult_plus_distr_l, TR. unfold U1. field; repeat split; lra.
    + assert (I : 1 < x) by lra. assert (M = 0%nat) by (destruct MX; [assumption|lra]). subst M. destruct (chi_hyp I) as (K1 & K2 & K3 & K4). destruct (v_is I) as [V V2]. eexists. split; [exact K1|]. split; [exact K2|]. split; [exact K4|].
      rewrite K3. rewrite Rabs_left by nra. replace (- (1 - x * x)) with (x * x - 1) by ring. fold v. apply (Rmult_eq_reg_l (1 - x * x)); [|exact NZ]. rewrite Rmult_plus_distr_l, TR. unfold U1. cbn [INR]. field; repeat split; lra.
Qed.
End scalars.
