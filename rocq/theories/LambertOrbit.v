(* The velocities in the transfer plane: conserved quantities and arrival. *)
From Coq Require Import Reals Lra Psatz Field.
From Coquelicot Require Import Coquelicot.
From Verif Require Import SphModel KepModel KepSpec KepElem KepHyp FrameProofs UnivModel UnivSpec UnivFun UnivOrbit UnivTime UnivUnique UnivProofs GaussVel LambertModel LambertPlane LambertGeom.
Open Scope R_scope.

Section solved.
Variables (r1 r2 : vec) (mu : R) (pro : bool) (x : R).
Hypotheses (mu_pos : 0 < mu) (skew : cross r1 r2 <> (0, 0, 0)).
Let n1 := skew_1 r1 r2 skew.
Let n2 := skew_2 r1 r2 skew.
Let nc := skew_c r1 r2 skew.
Let q := q_of r1 r2.
Let m := sqrt mu.
Let l := ll_of r1 r2 pro.
Let y := compute_y x l.
Let h := h_of r1 r2.
Let g := g_of r1 r2.
Let e := unit_of r1.
Let t := track r1 r2 pro r1.
Let a := norm r1.
Let b := norm r2.
Let v1 := fst (velocities r1 r2 mu pro x).
Let v2 := snd (velocities r1 r2 mu pro x).
Let C := Cs q l h.
Let S := Sn q l h g.
Let Q : 0 < q := q_pos' r1 r2 n1 n2 nc.
Let M' : 0 < m := sqrt_lt_R0 mu mu_pos.
Let Y : y * y = 1 - l * l * (1 - x * x) := y_sq' r1 r2 pro n1 n2 nc x.
Let G2 : g * g = 1 - h * h := g_sq' r1 r2 n1 n2 nc.
Let E1 : R1 q l h = a := R1_is r1 r2 pro n1 n2 nc.
Let E2 : R2 q l h = b := R2_is r1 r2 pro n1 n2 nc.
Let m2 : m * m = mu.
Proof. apply sqrt_sqrt. lra. Qed.
Let ab : 0 < a /\ 0 < b.
Proof. destruct (abc r1 r2 n1 n2 nc) as (A & B & _). split; assumption. Qed.
Let P1 : 0 < R1 q l h.
Proof. rewrite E1. apply ab. Qed.
Let P2 : 0 < R2 q l h.
Proof. rewrite E2. apply ab. Qed.
Let l2 : l * l < 1 := l_lt r1 r2 pro n1 n2 nc.
Lemma y_pos : 0 < y.
Proof.
  unfold y, compute_y. apply sqrt_lt_R0. replace (1 - l ^ 2 * (1 - x ^ 2)) with ((1 - l * l) + (l * x) * (l * x)) by ring.
  pose proof l2. nra.
Qed.
Lemma y_abs : Rabs (l * x) < y.
Proof. pose proof y_pos. assert ((l * x) * (l * x) < y * y) by (rewrite Y; pose proof l2; lra). apply Rabs_def1; nra. Qed.
Lemma eta_pos : 0 < y - l * x.
Proof. pose proof y_abs. pose proof (Rle_abs (l * x)). lra. Qed.
Lemma eta'_pos : 0 < y + l * x.
Proof. pose proof y_abs as A. pose proof (Rle_abs (- (l * x))) as B. rewrite Rabs_Ropp in B. lra. Qed.
Lemma S_is : S = norm (cross (unit_of r1) (unit_of r2)) * sense r1 r2 pro.
Proof.
  set (N := norm (cross (unit_of r1) (unit_of r2))). set (D := sense r1 r2 pro).
  pose proof (N_pos r1 r2 skew) as NP. fold N in NP. pose proof (N_sq r1 r2 skew) as N2. fold N in N2.
  pose proof (sense_sq r1 r2 pro) as D2. fold D in D2.
  pose proof (cs_sn q l h g G2 P1 P2) as CS. fold C S in CS. assert (CC : C = dot (unit_of r1) (unit_of r2)) by (apply Cs_is; assumption).
  rewrite <- CC in N2.
  assert (L : l = D * sqrt (1 - Rmin 1 (norm (vminus r2 r1) / semi r1 r2))) by reflexivity. set (l0 := sqrt _) in L.
  assert (0 <= l0) by apply sqrt_pos. assert (0 <= g) by apply sqrt_pos.
  set (P := 4 * q ^ 4 * l0 * g * (1 - l * l) / (R1 q l h * R2 q l h)).
  assert (PP : 0 <= P).
  { unfold P, Rdiv. apply Rmult_le_pos; [|left; apply Rinv_0_lt_compat, Rmult_lt_0_compat; assumption].
    pose proof l2. assert (0 < q ^ 4) by (apply pow_lt; exact Q). repeat apply Rmult_le_pos; lra. }
  assert (SP : S = P * D). { unfold S, Sn, P. rewrite L at 1. field. split; lra. }
  assert (P * P = N * N). { assert (S * S = P * P). { rewrite SP. replace (P * D * (P * D)) with (P * P * (D * D)) by ring. rewrite D2. ring. } lra. }
  assert (P = N) by nra. rewrite SP. f_equal. assumption.
Qed.
Lemma ee : dot e e = 1. Proof. apply (u1_1 r1 r2 skew). Qed.
Lemma tt : dot t t = 1. Proof. apply (t1_1 r1 r2 pro skew). Qed.
Lemma et : dot e t = 0. Proof. apply (e1_t1 r1 r2 pro skew). Qed.
Lemma r1_is : r1 = lin a 0 e t.
Proof. rewrite (unit_back r1 n1) at 1. fold e a. unfold lin. destruct e as [[? ?] ?], t as [[? ?] ?]. cbn. vring. Qed.
Lemma e2_lin : unit_of r2 = lin C S e t.
Proof. etransitivity; [exact (e2_is r1 r2 pro skew)|]. rewrite S_is. f_equal. symmetry. apply Cs_is; assumption. Qed.
Lemma t2_lin' : track r1 r2 pro r2 = lin (- S) C e t.
Proof. etransitivity; [exact (t2_lin r1 r2 pro skew)|]. rewrite S_is. f_equal. symmetry. apply Cs_is; assumption. Qed.
Lemma r2_is : r2 = lin (b * C) (b * S) e t.
Proof. rewrite (unit_back r2 n2) at 1. rewrite e2_lin, scale_lin. reflexivity. Qed.
Let a1 := A1 q m l x y h.
Let b1 := B1 q m l x y h g.
Let a2 := A2 q m l x y h.
Let b2 := B2 q m l x y h g.
Lemma v1_is : v1 = lin a1 b1 e t.
Proof. unfold v1, velocities. cbn [fst]. unfold lin, a1, b1, A1, B1. rewrite E1. rewrite (gamma_is r1 r2 mu n1 n2 nc mu_pos). reflexivity. Qed.
Lemma v2_is : v2 = lin (a2 * C - b2 * S) (a2 * S + b2 * C) e t.
Proof.
  unfold v2, velocities. cbn [snd]. rewrite e2_lin, t2_lin', !scale_lin, lin_lin. unfold a2, b2, A2, B2. rewrite E2.
  rewrite (gamma_is r1 r2 mu n1 n2 nc mu_pos). fold l. fold y. fold (h_of r1 r2). fold h. change (sqrt (1 - h ^ 2)) with g. fold q m b. destruct ab. f_equal; field; lra.
Qed.
Let cs : C * C + S * S = 1 := cs_sn q l h g G2 P1 P2.
Let h' := LambertPlane.H q m l x y g.
Lemma ab1 : a * b1 = h'.
Proof. unfold b1, B1, h', LambertPlane.H. rewrite E1. field. apply n1. Qed.
Lemma ab2 : b * b2 = h'.
Proof. unfold b2, B2, h', LambertPlane.H. rewrite E2. field. apply n2. Qed.
Lemma momentum_1 : cross r1 v1 = scale h' (cross e t).
Proof. rewrite v1_is. rewrite r1_is at 1. rewrite cross_lin, <- ab1. f_equal. ring. Qed.
Lemma momentum_2 : cross r2 v2 = scale h' (cross e t).
Proof.
  rewrite v2_is. rewrite r2_is at 1. rewrite cross_lin, <- ab2. f_equal.
  replace (b * C * (a2 * S + b2 * C) - b * S * (a2 * C - b2 * S)) with (b * b2 * (C * C + S * S)) by ring. rewrite cs. ring.
Qed.
Lemma v1_sq : dot v1 v1 = mu * (2 / a - (1 - x * x) / (q * q)).
Proof. rewrite v1_is, dot_lin, ee, tt, et. rewrite <- m2, <- E1, <- (speed1 q m l x y h g Q Y G2 P1). fold a1 b1. ring. Qed.
Lemma v2_sq : dot v2 v2 = mu * (2 / b - (1 - x * x) / (q * q)).
Proof.
  rewrite v2_is, dot_lin, ee, tt, et. rewrite <- m2, <- E2, <- (speed2 q m l x y h g Q Y G2 P2). fold a2 b2.
  replace ((a2 * C - b2 * S) * (a2 * C - b2 * S) * 1 + ((a2 * C - b2 * S) * (a2 * S + b2 * C) + (a2 * S + b2 * C) * (a2 * C - b2 * S)) * 0 + (a2 * S + b2 * C) * (a2 * S + b2 * C) * 1)
    with ((a2 * a2 + b2 * b2) * (C * C + S * S)) by ring. rewrite cs. ring.
Qed.
Lemma r1v1 : dot r1 v1 = a * a1.
Proof. rewrite v1_is. rewrite r1_is at 1. rewrite dot_lin, ee, tt, et. ring. Qed.
Lemma r2v2 : dot r2 v2 = b * a2.
Proof.
  rewrite v2_is. rewrite r2_is at 1. rewrite dot_lin, ee, tt, et.
  replace (b * C * (a2 * C - b2 * S) * 1 + (b * C * (a2 * S + b2 * C) + b * S * (a2 * C - b2 * S)) * 0 + b * S * (a2 * S + b2 * C) * 1)
    with (b * a2 * (C * C + S * S)) by ring. rewrite cs. ring.
Qed.
Let s1 := row_of r1 v1.
Let s2 := row_of r2 v2.
Lemma same_momentum : momentum s2 = momentum s1.
Proof. unfold momentum, s1, s2. rewrite !pos_row, !vel_row, momentum_1, momentum_2. reflexivity. Qed.
Lemma energy_1 : energy mu s1 = - (mu * (1 - x * x) / semi r1 r2).
Proof.
  unfold energy, s1. rewrite pos_row, vel_row, norm_sq, v1_sq. fold a. pose proof (q_sq r1 r2 n1 n2 nc) as E. fold q in E. rewrite E.
  destruct ab. pose proof (s_pos r1 r2 n1 n2 nc). field. split; lra.
Qed.
Lemma same_energy : energy mu s2 = energy mu s1.
Proof. unfold energy, s1, s2. rewrite !pos_row, !vel_row, !norm_sq, v1_sq, v2_sq. fold a b. destruct ab. field. pose proof Q. lra. Qed.
Lemma same_eccentricity : eccentricity mu s2 = eccentricity mu s1.
Proof.
  rewrite !ecc_is by (unfold s1, s2; rewrite ?pos_row; assumption). unfold s1, s2. rewrite !pos_row, !vel_row, r1v1, r2v2. fold a b.
  assert (W1 : dot v1 v1 = a1 * a1 + b1 * b1) by (rewrite v1_is, dot_lin, ee, tt, et; ring).
  assert (W2 : dot v2 v2 = a2 * a2 + b2 * b2).
  { rewrite v2_is, dot_lin, ee, tt, et. replace ((a2 * a2 + b2 * b2)) with ((a2 * a2 + b2 * b2) * (C * C + S * S)) by (rewrite cs; ring). ring. }
  rewrite W1, W2, v1_is, v2_is. rewrite r1_is at 1. rewrite r2_is at 1. rewrite !lin_compose. destruct ab.
  pose proof (ecc_e q m l x y h g Y G2 P1 P2) as XE. pose proof (ecc_t q m l x y h g Y G2 P1 P2) as XT.
  fold a1 a2 b1 b2 C S h' in XE, XT. pose proof ab1 as K1. pose proof ab2 as K2. rewrite m2 in XE, XT.
  f_equal.
  - replace ((a1 * a1 + b1 * b1 - mu / a) * a + - (a * a1) * a1) with (b1 * (a * b1) - mu) by (field; lra). rewrite K1, <- XE.
    replace ((a2 * a2 + b2 * b2 - mu / b) * (b * C) + - (b * a2) * (a2 * C - b2 * S)) with ((b2 * (b * b2) - mu) * C + a2 * (b * b2) * S) by (field; lra).
    rewrite K2. reflexivity.
  - replace ((a1 * a1 + b1 * b1 - mu / a) * 0 + - (a * a1) * b1) with (- (a1 * (a * b1))) by ring. rewrite K1, <- XT.
    replace ((a2 * a2 + b2 * b2 - mu / b) * (b * S) + - (b * a2) * (a2 * S + b2 * C)) with ((b2 * (b * b2) - mu) * S - a2 * (b * b2) * C) by (field; lra).
    rewrite K2. reflexivity.
Qed.
Lemma h'_pos : 0 < h'.
Proof.
  assert (g <> 0). { intro Z. pose proof S_is as E. pose proof (N_pos r1 r2 skew). pose proof (sense_sq r1 r2 pro). unfold S, Sn in E. rewrite Z in E.
    replace (4 * q ^ 4 * l * 0 * (1 - l * l) / (R1 q l h * R2 q l h)) with 0 in E by (field; lra). symmetry in E. apply Rmult_integral in E. destruct E; nra. }
  assert (0 <= g) by apply sqrt_pos. pose proof eta'_pos. unfold h', LambertPlane.H. repeat apply Rmult_lt_0_compat; lra.
Qed.
Lemma free : not_radial s1.
Proof.
  unfold not_radial, s1. rewrite pos_row, vel_row, momentum_1. intro Z. pose proof h'_pos as HP.
  assert (D : dot (scale h' (cross e t)) (scale h' (cross e t)) = 0) by (rewrite Z; cbn; ring).
  rewrite dot_scale, (cross_unit e t ee tt et) in D. nra.
Qed.

(* arrival: chi with the universal functions of the transfer *)
Let al := alpha r1 v1 mu.
Lemma al_is : al = (1 - x * x) / (q * q).
Proof.
  unfold al, alpha. rewrite norm_sq, v1_sq. fold a. destruct ab. pose proof Q. field. repeat split; lra.
Qed.
Let F1 := U1 q l x y.
Let F2 := U2 q l x y.
Lemma arrives : forall chi, u1 al chi = F1 -> u2 al chi = F2 -> ux r1 v1 mu chi = r2 /\ uv r1 v1 mu chi = v2.
Proof.
  intros chi K1 K2. destruct ab as [pa pb].
  assert (SG : dot r1 v1 / sqrt mu = sg1 q l x y h). { rewrite r1v1. fold m. unfold a1, A1, sg1. rewrite E1. field. split; lra. }
  assert (RH : rho r1 v1 mu chi = b).
  { unfold rho. rewrite u0_u2. fold al a. rewrite K1, K2, SG, al_is, <- E1, <- E2. apply (rho_end q l x y h Q Y). }
  assert (CF : cf r1 v1 mu chi = F q l x y h). { unfold cf, F. fold al a. rewrite K2, E1. reflexivity. }
  assert (CG : cg r1 v1 mu chi = G q m l x y h). { unfold cg, G. fold al a. rewrite K1, K2, SG, E1. reflexivity. }
  assert (CFD : cfd r1 v1 mu chi = Fd q m l x y h). { unfold cfd, Fd. rewrite RH. fold al a. rewrite K1, E1, E2. reflexivity. }
  assert (CGD : cgd r1 v1 mu chi = Gd q l x y h). { unfold cgd, Gd. rewrite RH. fold al. rewrite K2, E2. reflexivity. }
  unfold ux, uv. rewrite CF, CG, CFD, CGD. rewrite v1_is, v2_is, r2_is. rewrite r1_is at 1 2. rewrite !lin_compose.
  pose proof (to_r2_e q m l x y h g M' Y G2 P1 P2) as X1. pose proof (to_r2_t q m l x y h g M' Y G2 P1 P2) as X2.
  pose proof (to_v2_e q m l x y h g Y G2 P1 P2) as X3. pose proof (to_v2_t q m l x y h g Y G2 P1 P2) as X4.
  fold C S a1 b1 a2 b2 in X1, X2, X3, X4. rewrite E1 in X1, X3. rewrite E2 in X1, X2.
  split; f_equal; lra.
Qed.
(* the time it takes *)
Lemma time_of : forall chi, u1 al chi = F1 -> u2 al chi = F2 -> kf r1 v1 mu chi = a * F1 + sg1 q l x y h * F2 + u3 al chi.
Proof.
  intros chi K1 K2. assert (SG : dot r1 v1 / sqrt mu = sg1 q l x y h). { rewrite r1v1. fold m. unfold a1, A1, sg1. rewrite E1. field. destruct ab. split; lra. }
  unfold kf. fold al a. rewrite K1, K2, SG. reflexivity.
Qed.
Lemma motion_at : forall chi X V, two_body mu X V -> X 0 = r1 -> V 0 = v1 -> u1 al chi = F1 -> u2 al chi = F2 ->
  X (kf r1 v1 mu chi / m) = r2 /\ V (kf r1 v1 mu chi / m) = v2.
Proof.
  intros chi X V T X0 V0 K1 K2. set (tt := kf r1 v1 mu chi / m).
  assert (FR : not_radial (row_of r1 v1)) by apply free.
  assert (p1 : pos (row_of r1 v1) = r1) by apply pos_row. assert (p2 : vel (row_of r1 v1) = v1) by apply vel_row.
  assert (X0' : X 0 = pos (row_of r1 v1)) by (rewrite p1; exact X0). assert (V0' : V 0 = vel (row_of r1 v1)) by (rewrite p2; exact V0).
  destruct (motion_unique (row_of r1 v1) mu mu_pos FR X V T X0' V0' tt) as [A B].
  assert (CH : chi_at (pos (row_of r1 v1)) (vel (row_of r1 v1)) mu mu_pos FR tt = chi).
  { apply (K_inj _ _ _ mu_pos FR). rewrite chi_at_eq. unfold tt. fold m. rewrite p1, p2. field. lra. }
  rewrite A, B. unfold motion_x, motion_v. rewrite CH, p1, p2. apply arrives; assumption.
Qed.
End solved.
