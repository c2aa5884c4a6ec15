(* The triangle of the centre and the two positions, and the velocities in the transfer plane. *)
From Coq Require Import Reals Lra Psatz Field.
From Verif Require Import SphModel KepModel KepElem FrameProofs UnivOrbit UnivUnique GaussVel LambertModel LambertPlane.
Open Scope R_scope.

Lemma cross_scale_r : forall a u v, cross u (scale a v) = scale a (cross u v).
Proof. intros a [[? ?] ?] [[? ?] ?]. cbn. vring. Qed.
Lemma norm_0_vec : forall u, norm u = 0 -> u = (0, 0, 0).
Proof.
  intros u H. destruct (Req_EM_T (dot u u) 0) as [E|E].
  - destruct u as [[a b] c]. cbn in E. assert (a * a = 0) by nra. assert (b * b = 0) by nra. assert (c * c = 0) by nra. repeat apply f_equal2; nra.
  - pose proof (norm_sq u) as N. rewrite H in N. lra.
Qed.
Lemma scale_1_vec : forall u, scale 1 u = u.
Proof. intros [[? ?] ?]. cbn. vring. Qed.
Lemma scale_0_vec : forall u, scale 0 u = (0, 0, 0).
Proof. intros [[? ?] ?]. cbn. vring. Qed.
Lemma scale_000 : forall k, scale k (0, 0, 0) = (0, 0, 0).
Proof. intro k. cbn. vring. Qed.
Lemma unit_1 : forall u, norm u <> 0 -> dot (unit_of u) (unit_of u) = 1.
Proof. intros u N. unfold unit_of. rewrite dot_scale, <- norm_sq. field. exact N. Qed.
Lemma unit_back : forall u, norm u <> 0 -> u = scale (norm u) (unit_of u).
Proof. intros u N. unfold unit_of. rewrite scale_scale, Rinv_r by exact N. symmetry. apply scale_1_vec. Qed.
Lemma chord_sq : forall u w, norm (vminus w u) ^ 2 = norm u ^ 2 + norm w ^ 2 - 2 * dot u w.
Proof. intros u w. rewrite !norm_sq. destruct u as [[? ?] ?], w as [[? ?] ?]. cbn. ring. Qed.
Lemma triangle : forall u w, norm (vminus w u) <= norm u + norm w.
Proof.
  intros u w. pose proof (norm_nonneg u). pose proof (norm_nonneg w). pose proof (norm_nonneg (vminus w u)).
  pose proof (chord_sq u w) as C. pose proof (cauchy u w) as B. pose proof (Rle_abs (- dot u w)) as A. rewrite Rabs_Ropp in A. nra.
Qed.
Lemma triangle_diff : forall u w, (norm u - norm w) ^ 2 <= norm (vminus w u) ^ 2.
Proof. intros u w. rewrite chord_sq. pose proof (cauchy u w) as B. pose proof (Rle_abs (dot u w)). nra. Qed.
Lemma sense_sq : forall r1 r2 p, sense r1 r2 p * sense r1 r2 p = 1.
Proof. intros r1 r2 p. unfold sense. destruct (Rlt_dec _ 0), p; lra. Qed.

Lemma lin_of_lin : forall a b c d u w, lin a b u (lin c d u w) = lin (a + b * c) (b * d) u w.
Proof. intros a b c d [[? ?] ?] [[? ?] ?]. unfold lin. cbn. vring. Qed.
Lemma lin_01 : forall u w, lin 0 1 u w = w.
Proof. intros [[? ?] ?] [[? ?] ?]. unfold lin. cbn. vring. Qed.
Lemma cross_lin_self : forall a b u w, cross u (lin a b u w) = scale b (cross u w).
Proof. intros a b [[? ?] ?] [[? ?] ?]. unfold lin. cbn. vring. Qed.

(* the numbers of the triangle *)
Section triangle.
Variables (r1 r2 : vec) (mu : R) (pro : bool).
Hypotheses (n1 : norm r1 <> 0) (n2 : norm r2 <> 0) (nc : norm (vminus r2 r1) <> 0).
Let a := norm r1.
Let b := norm r2.
Let c := norm (vminus r2 r1).
Let s := semi r1 r2.
Definition q_of : R := sqrt (semi r1 r2 / 2).
Definition h_of : R := (norm r1 - norm r2) / norm (vminus r2 r1).
Definition g_of : R := sqrt (1 - h_of ^ 2).
Let l := ll_of r1 r2 pro.
Lemma abc : 0 < a /\ 0 < b /\ 0 < c /\ c <= a + b.
Proof.
  pose proof (norm_nonneg r1). pose proof (norm_nonneg r2). pose proof (norm_nonneg (vminus r2 r1)). pose proof (triangle r1 r2).
  unfold a, b, c. repeat split; try lra.
Qed.
Lemma s_pos : 0 < s.
Proof. pose proof abc. unfold s, semi. fold a b c. lra. Qed.
Lemma q_pos' : 0 < q_of.
Proof. apply sqrt_lt_R0. pose proof s_pos. unfold s in *. lra. Qed.
Lemma q_sq : q_of * q_of = s / 2.
Proof. apply sqrt_sqrt. pose proof s_pos. unfold s in *. lra. Qed.
Lemma cs_le : c / s <= 1.
Proof. pose proof abc. pose proof s_pos. apply (Rmult_le_reg_r s); [assumption|]. unfold Rdiv. rewrite Rmult_assoc, Rinv_l by lra. unfold s, semi. fold a b c. lra. Qed.
Lemma l_sq : l * l = 1 - c / s.
Proof.
  unfold l, ll_of. fold c s. rewrite Rmin_right by apply cs_le.
  replace (sense r1 r2 pro * sqrt (1 - c / s) * (sense r1 r2 pro * sqrt (1 - c / s)))
    with ((sense r1 r2 pro * sense r1 r2 pro) * (sqrt (1 - c / s) * sqrt (1 - c / s))) by ring.
  rewrite sense_sq, sqrt_sqrt; [ring|]. pose proof cs_le. lra.
Qed.
Lemma l_lt : l * l < 1.
Proof. rewrite l_sq. pose proof abc. pose proof s_pos. assert (0 < c / s) by (apply Rdiv_lt_0_compat; lra). lra. Qed.
Lemma R1_is : R1 q_of l h_of = a.
Proof. unfold R1, h_of. rewrite q_sq, l_sq. fold a b c. pose proof abc. pose proof s_pos. field_simplify_eq; [|lra]. unfold s, semi. fold a b c. field. Qed.
Lemma R2_is : R2 q_of l h_of = b.
Proof. unfold R2, h_of. rewrite q_sq, l_sq. fold a b c. pose proof abc. pose proof s_pos. field_simplify_eq; [|lra]. unfold s, semi. fold a b c. field. Qed.
Lemma h_le : h_of ^ 2 <= 1.
Proof.
  unfold h_of. fold a b c. pose proof abc. pose proof (triangle_diff r1 r2) as D. fold a b c in D.
  replace (((a - b) / c) ^ 2) with ((a - b) ^ 2 / c ^ 2) by (field; lra).
  apply (Rmult_le_reg_r (c ^ 2)); [nra|]. unfold Rdiv. rewrite Rmult_assoc, Rinv_l by nra. lra.
Qed.
Lemma g_sq' : g_of * g_of = 1 - h_of * h_of.
Proof. unfold g_of. rewrite sqrt_sqrt; [ring|]. pose proof h_le. lra. Qed.
Let C := dot (unit_of r1) (unit_of r2).
Lemma C_is : dot r1 r2 = a * b * C.
Proof. unfold C. rewrite (unit_back r1 n1) at 1. rewrite (unit_back r2 n2) at 1. fold a b. rewrite dot_scale_l, dot_scale_r. ring. Qed.
Lemma Cs_is : Cs q_of l h_of = C.
Proof.
  unfold Cs. rewrite R1_is, R2_is. pose proof abc. replace (q_of ^ 4) with ((q_of * q_of) ^ 2) by ring. rewrite q_sq.
  replace (8 * (s / 2) ^ 2 * l * l) with (2 * s ^ 2 * (l * l)) by field. rewrite l_sq.
  pose proof (chord_sq r1 r2) as D. fold a b c in D. rewrite C_is in D. pose proof s_pos.
  replace (2 * s ^ 2 * (1 - c / s)) with (2 * s * (s - c)) by (field; lra).
  assert (E : 2 * s * (s - c) = ((a + b) ^ 2 - c ^ 2) / 2) by (unfold s, semi; fold a b c; field). rewrite E, D. field. lra.
Qed.
Lemma y_sq' : forall x, let y := compute_y x l in y * y = 1 - l * l * (1 - x * x).
Proof. intros x y. unfold y, compute_y. rewrite sqrt_sqrt; [ring|]. pose proof l_lt. nra. Qed.
(* the two square roots of the reconstruction *)
Lemma gamma_is : 0 < mu -> sqrt (mu * s / 2) = sqrt mu * q_of.
Proof. intro P. unfold q_of. rewrite <- sqrt_mult; [f_equal; unfold s; field|lra|]. pose proof s_pos. unfold s in *. lra. Qed.
End triangle.

Lemma cross_0_r : forall u, cross u (0, 0, 0) = (0, 0, 0).
Proof. intros [[? ?] ?]. cbn. vring. Qed.
Lemma cross_self : forall u, cross u u = (0, 0, 0).
Proof. intros [[? ?] ?]. cbn. vring. Qed.
Lemma vminus_0 : forall u w, vminus w u = (0, 0, 0) -> w = u.
Proof. intros [[x y] z] [[x' y'] z'] H. cbn in H. injection H as A B E. repeat apply f_equal2; lra. Qed.
Lemma skew_1 : forall r1 r2, cross r1 r2 <> (0, 0, 0) -> norm r1 <> 0.
Proof. intros r1 r2 skew H. apply norm_0_vec in H. apply skew. rewrite H. apply cross_0_l. Qed.
Lemma skew_2 : forall r1 r2, cross r1 r2 <> (0, 0, 0) -> norm r2 <> 0.
Proof. intros r1 r2 skew H. apply norm_0_vec in H. apply skew. rewrite H. apply cross_0_r. Qed.
Lemma skew_c : forall r1 r2, cross r1 r2 <> (0, 0, 0) -> norm (vminus r2 r1) <> 0.
Proof. intros r1 r2 skew H. apply norm_0_vec, vminus_0 in H. apply skew. rewrite H. apply cross_self. Qed.
(* the transfer plane: positions not on a line through the centre *)
Section plane.
Variables (r1 r2 : vec) (pro : bool).
Hypothesis skew : cross r1 r2 <> (0, 0, 0).
Let e1 := unit_of r1.
Let e2 := unit_of r2.
Let k := pole_of r1 r2.
Let D := sense r1 r2 pro.
Let t1 := track r1 r2 pro r1.
Let t2 := track r1 r2 pro r2.
Let N := norm (cross e1 e2).
Let C := dot e1 e2.
Lemma N_pos : 0 < N.
Proof.
  assert (H : N <> 0). { intro H. apply norm_0_vec in H. apply skew. rewrite (unit_back r1 (skew_1 r1 r2 skew)), (unit_back r2 (skew_2 r1 r2 skew)). fold e1 e2.
    rewrite cross_scale_l, cross_scale_r, H, !scale_000. reflexivity. }
  pose proof (norm_nonneg (cross e1 e2)) as P. unfold N in *. lra.
Qed.
Lemma N_sq : N * N = 1 - C * C.
Proof. unfold N. replace (norm (cross e1 e2) * norm (cross e1 e2)) with (norm (cross e1 e2) ^ 2) by ring. rewrite norm_sq, cross_len. unfold e1, e2. rewrite !unit_1 by (exact (skew_1 r1 r2 skew) || exact (skew_2 r1 r2 skew)). fold e1 e2 C. ring. Qed.
Lemma k_is : k = scale (/ N) (cross e1 e2).
Proof. unfold k, pole_of. fold e1 e2. fold N. destruct (Rlt_dec 0 N) as [|H]; [reflexivity|]. pose proof N_pos. contradiction. Qed.
Lemma u1_1 : dot e1 e1 = 1. Proof. exact (unit_1 r1 (skew_1 r1 r2 skew)). Qed.
Lemma u2_1 : dot e2 e2 = 1. Proof. exact (unit_1 r2 (skew_2 r1 r2 skew)). Qed.
Lemma k_e1 : cross k e1 = lin (- (C / N)) (/ N) e1 e2.
Proof. rewrite k_is, cross_scale_l, cross_cross, u1_1, (dot_sym e2 e1). fold C. rewrite scale_lin. f_equal; field; pose proof N_pos; lra. Qed.
Lemma k_e2 : cross k e2 = lin (- / N) (C / N) e1 e2.
Proof. rewrite k_is, cross_scale_l, cross_cross, u2_1. fold C. rewrite scale_lin. f_equal; field; pose proof N_pos; lra. Qed.
Lemma t1_is : t1 = lin (- (D * C / N)) (D / N) e1 e2.
Proof. unfold t1, track. fold k e1 D. rewrite k_e1, scale_lin. f_equal; field; pose proof N_pos; lra. Qed.
Lemma t2_is : t2 = lin (- (D / N)) (D * C / N) e1 e2.
Proof. unfold t2, track. fold k e2 D. rewrite k_e2, scale_lin. f_equal; field; pose proof N_pos; lra. Qed.
Lemma D_sq : D * D = 1. Proof. apply sense_sq. Qed.
Lemma t1_1 : dot t1 t1 = 1.
Proof. rewrite t1_is, dot_lin, u1_1, u2_1. fold C. pose proof N_pos. pose proof N_sq as E. pose proof D_sq as F. field_simplify_eq; [|lra]. replace (D ^ 2) with 1 by lra. lra. Qed.
Lemma e1_t1 : dot e1 t1 = 0.
Proof. rewrite t1_is, dot_lin_r, u1_1. fold C. field. pose proof N_pos. lra. Qed.
Lemma e2_is : e2 = lin C (N * D) e1 t1.
Proof.
  rewrite t1_is, lin_of_lin. pose proof N_pos as P. pose proof D_sq as E.
  replace (C + N * D * - (D * C / N)) with (C - D * D * C) by (field; lra). replace (N * D * (D / N)) with (D * D) by (field; lra).
  rewrite E. replace (C - 1 * C) with 0 by ring. symmetry. apply lin_01.
Qed.
Lemma t2_lin : t2 = lin (- (N * D)) C e1 t1.
Proof.
  rewrite t2_is, t1_is, lin_of_lin. pose proof N_pos as P. pose proof N_sq as Q. pose proof D_sq as E. f_equal; [|field; lra].
  apply (Rmult_eq_reg_r N); [|lra]. replace (- (D / N) * N) with (- D) by (field; lra).
  replace ((- (N * D) + C * - (D * C / N)) * N) with (- D * (N * N + C * C)) by (field; lra). rewrite Q. ring.
Qed.
Lemma e1_x_t1 : cross e1 t1 = scale D k.
Proof.
  unfold t1, track. fold k e1 D. rewrite cross_scale_r. f_equal. rewrite k_e1. rewrite cross_lin_self, k_is. f_equal.
Qed.
Lemma k_1 : dot k k = 1.
Proof. rewrite k_is, dot_scale. fold N. rewrite <- norm_sq. fold N. field. pose proof N_pos. lra. Qed.
End plane.
