(* The trajectory in universal variables solves Newton's equations. *)
From Coq Require Import Reals Lra Psatz Nsatz.
From Coquelicot Require Import Coquelicot.
From Verif Require Import SphModel SphProofs KepModel KepElem UnivModel UnivFun.
Open Scope R_scope.

Lemma lagrange_id : forall u w, dot (cross u w) (cross u w) = dot u u * dot w w - dot u w ^ 2.
Proof. intros [[a b] c] [[x y] z]. unfold dot, cross. ring. Qed.
Lemma dot_pos : forall u, u <> (0, 0, 0) -> 0 < dot u u.
Proof.
  intros [[a b] c] N. unfold dot. destruct (Req_dec a 0) as [A|A]; [destruct (Req_dec b 0) as [B|B]; [destruct (Req_dec c 0) as [C|C]|]|].
  - exfalso. apply N. subst. reflexivity.
  - pose proof (Rsqr_pos_lt c C) as Q. unfold Rsqr in Q. nra.
  - pose proof (Rsqr_pos_lt b B) as Q. unfold Rsqr in Q. nra.
  - pose proof (Rsqr_pos_lt a A) as Q. unfold Rsqr in Q. nra.
Qed.
Lemma cross_0_l : forall w, cross (0, 0, 0) w = (0, 0, 0).
Proof. intros [[a b] c]. unfold cross. vring. Qed.
Lemma norm_nonneg : forall u, 0 <= norm u.
Proof. intro u. apply sqrt_pos. Qed.

Section Orbit.
Variables (r v : vec) (mu : R).
Hypotheses (mu_pos : 0 < mu) (free : cross r v <> (0, 0, 0)).
Let r0 := norm r.
Let m := sqrt mu.
Let sg := dot r v / m.
Let al := alpha r v mu.
Let p := 2 * r0 - al * r0 ^ 2 - sg ^ 2.

Lemma m_pos : 0 < m.
Proof. apply sqrt_lt_R0. exact mu_pos. Qed.
Lemma m_sq : m * m = mu.
Proof. apply sqrt_sqrt. lra. Qed.
Lemma r0_pos : 0 < r0.
Proof.
  unfold r0, norm. apply sqrt_lt_R0. apply dot_pos. intro E. apply free. rewrite E. apply cross_0_l.
Qed.
Lemma r_sq : dot r r = r0 ^ 2.
Proof. symmetry. apply norm_sq. Qed.
Lemma rv_is : dot r v = sg * m.
Proof. unfold sg. pose proof m_pos. field. lra. Qed.
Lemma v_sq : dot v v = m * m * (2 / r0 - al).
Proof.
  rewrite m_sq. unfold al, alpha. fold r0. rewrite norm_sq. pose proof r0_pos. field. lra.
Qed.
Lemma p_pos : 0 < p.
Proof.
  assert (E : p = dot (cross r v) (cross r v) / mu).
  { rewrite lagrange_id, r_sq, v_sq, rv_is. unfold p. pose proof m_pos. pose proof r0_pos.
    rewrite <- m_sq. field. lra. }
  rewrite E. apply Rdiv_lt_0_compat; [apply dot_pos; exact free|exact mu_pos].
Qed.

Definition kf (x : R) : R := r0 * u1 al x + sg * u2 al x + u3 al x.
Definition rho (x : R) : R := r0 * u0 al x + sg * u1 al x + u2 al x.
Definition sl (x : R) : R := sg * u0 al x + (1 - al * r0) * u1 al x.

Lemma d_kf : forall x, is_derive kf x (rho x).
Proof.
  intro x. refine (d_eq _ _ _ _ (d_plus _ _ _ _ _ (d_plus _ _ _ _ _ (d_scal r0 _ _ _ (d_u1 al x)) (d_scal sg _ _ _ (d_u2 al x))) (d_u3 al x)) _). reflexivity.
Qed.
Lemma d_rho : forall x, is_derive rho x (sl x).
Proof.
  intro x. refine (d_eq _ _ _ _ (d_plus _ _ _ _ _ (d_plus _ _ _ _ _ (d_scal r0 _ _ _ (d_u0 al x)) (d_scal sg _ _ _ (d_u1 al x))) (d_u2 al x)) _). unfold sl. ring.
Qed.
(* turn the universal functions into variables with their relations *)
Ltac poly x := unfold rho, sl, p in *; rewrite ?(u0_u2 al x) in *; pose proof (u1_sq al x) as Su;
  generalize dependent (u1 al x); generalize dependent (u2 al x); intros ? ? Su; rewrite <- ?Rsqr_pow2 in *; unfold Rsqr in *.
Lemma rho_inv : forall x, 2 * rho x - al * rho x ^ 2 - sl x ^ 2 = p.
Proof. intro x. poly x. nsatz. Qed.
Lemma rho_pos : forall x, 0 < rho x.
Proof.
  intro x. assert (E : r0 * rho x = (r0 * u0 al (x / 2) + sg * u1 al (x / 2)) ^ 2 + p * u1 al (x / 2) ^ 2).
  { unfold rho, p. rewrite (u0_u2 al x), (u1_half al x), (u2_half al x).
    pose proof (u0_u2 al (x / 2)) as A. pose proof (u1_sq al (x / 2)) as B.
    generalize dependent (u1 al (x / 2)). generalize dependent (u2 al (x / 2)). generalize dependent (u0 al (x / 2)). intros; rewrite <- ?Rsqr_pow2 in *; unfold Rsqr in *. nsatz. }
  assert (N : u0 al (x / 2) ^ 2 + al * u1 al (x / 2) ^ 2 = 1).
  { rewrite u0_u2, u1_sq. ring. }
  pose proof r0_pos as R. pose proof p_pos as P.
  destruct (Rlt_le_dec 0 (rho x)) as [|L]; [assumption|exfalso].
  pose proof (pow2_ge_0 (r0 * u0 al (x / 2) + sg * u1 al (x / 2))) as A. pose proof (pow2_ge_0 (u1 al (x / 2))) as B.
  assert (B0 : u1 al (x / 2) ^ 2 = 0) by nra.
  assert (B1 : u1 al (x / 2) = 0) by nra. rewrite B1 in *. nra.
Qed.
Lemma kf_code : forall x, sg * u2 al x + (1 - al * r0) * u3 al x + r0 * x = kf x.
Proof. intro x. unfold kf. rewrite (u1_u3 al x). ring. Qed.

(* ---- position and velocity as functions of the universal variable ---- *)
Definition cf (x : R) : R := 1 - u2 al x / r0.
Definition cg (x : R) : R := (r0 * u1 al x + sg * u2 al x) / m.
Definition cfd (x : R) : R := - (m * u1 al x) / (r0 * rho x).
Definition cgd (x : R) : R := 1 - u2 al x / rho x.
Definition ux (x : R) : vec := lin (cf x) (cg x) r v.
Definition uv (x : R) : vec := lin (cfd x) (cgd x) r v.

Lemma ux_norm : forall x, norm (ux x) = rho x.
Proof.
  intro x. apply norm_of; [left; apply rho_pos|]. unfold ux. rewrite dot_lin, r_sq, rv_is, v_sq. unfold cf, cg.
  pose proof r0_pos as R. pose proof m_pos as M.
  replace ((1 - u2 al x / r0) * (1 - u2 al x / r0) * r0 ^ 2 +
    ((1 - u2 al x / r0) * ((r0 * u1 al x + sg * u2 al x) / m) + (r0 * u1 al x + sg * u2 al x) / m * (1 - u2 al x / r0)) * (sg * m) +
    (r0 * u1 al x + sg * u2 al x) / m * ((r0 * u1 al x + sg * u2 al x) / m) * (m * m * (2 / r0 - al)))
  with (((r0 - u2 al x) ^ 2 * r0 + 2 * (r0 - u2 al x) * (r0 * u1 al x + sg * u2 al x) * sg + (r0 * u1 al x + sg * u2 al x) ^ 2 * (2 - al * r0)) / r0)
  by (field; lra).
  apply Rmult_eq_reg_l with r0; [|lra]. unfold Rdiv. rewrite Rmult_comm, Rmult_assoc, Rinv_l, Rmult_1_r by lra.
  clear R M. poly x. nsatz.
Qed.
Lemma wronskian : forall x, cf x * cgd x - cfd x * cg x = 1.
Proof.
  intro x. pose proof (rho_pos x) as P. pose proof r0_pos as R. pose proof m_pos as M. unfold cf, cg, cfd, cgd.
  replace ((1 - u2 al x / r0) * (1 - u2 al x / rho x) - - (m * u1 al x) / (r0 * rho x) * ((r0 * u1 al x + sg * u2 al x) / m))
  with (((r0 - u2 al x) * (rho x - u2 al x) + u1 al x * (r0 * u1 al x + sg * u2 al x)) / (r0 * rho x)) by (field; lra).
  apply Rmult_eq_reg_r with (r0 * rho x); [|nra]. unfold Rdiv. rewrite Rmult_assoc, Rinv_l, Rmult_1_r, Rmult_1_l by nra.
  clear P R M. poly x. nsatz.
Qed.
Lemma ux_dot_uv : forall x, dot (ux x) (uv x) = m * sl x.
Proof.
  intro x. unfold ux, uv. rewrite dot_lin, r_sq, rv_is, v_sq. pose proof (rho_pos x) as P. pose proof r0_pos as R. pose proof m_pos as M.
  unfold cf, cg, cfd, cgd.
  apply Rmult_eq_reg_r with (r0 * rho x / m); [|apply Rgt_not_eq, Rdiv_lt_0_compat; nra].
  match goal with |- ?l = _ => replace l with
    (- (r0 - u2 al x) * u1 al x * r0 + ((r0 - u2 al x) * (rho x - u2 al x) - (r0 * u1 al x + sg * u2 al x) * u1 al x) * sg
     + (r0 * u1 al x + sg * u2 al x) * (rho x - u2 al x) * (2 - al * r0)) by (field; lra) end.
  replace (m * sl x * (r0 * rho x / m)) with (sl x * r0 * rho x) by (field; lra).
  clear P R M. poly x. nsatz.
Qed.
Lemma uv_norm2 : forall x, dot (uv x) (uv x) = mu * (2 / rho x - al).
Proof.
  intro x. rewrite <- m_sq. unfold uv. rewrite dot_lin, r_sq, rv_is, v_sq. pose proof (rho_pos x) as P. pose proof r0_pos as R. pose proof m_pos as M.
  unfold cfd, cgd.
  apply Rmult_eq_reg_r with (r0 * rho x ^ 2 / (m * m)); [|apply Rgt_not_eq, Rdiv_lt_0_compat; apply Rmult_lt_0_compat; try apply pow_lt; lra].
  match goal with |- ?l = _ => replace l with
    (u1 al x ^ 2 * r0 - 2 * u1 al x * (rho x - u2 al x) * sg + (rho x - u2 al x) ^ 2 * (2 - al * r0)) by (field; lra) end.
  replace (m * m * (2 / rho x - al) * (r0 * rho x ^ 2 / (m * m))) with (r0 * rho x * (2 - al * rho x)) by (field; lra).
  clear P R M. poly x. nsatz.
Qed.

Lemma ecc_f : forall x, (mu * (2 / rho x - al) - mu / rho x) * cf x - m * sl x * cfd x = mu * (2 / r0 - al) - mu / r0.
Proof.
  intro x. pose proof (rho_pos x) as P. pose proof r0_pos as R. pose proof m_pos as M. rewrite <- m_sq. unfold cf, cfd.
  apply Rmult_eq_reg_r with (r0 * rho x / (m * m)); [|apply Rgt_not_eq, Rdiv_lt_0_compat; apply Rmult_lt_0_compat; lra].
  match goal with |- ?l = ?g => replace l with ((1 - al * rho x) * (r0 - u2 al x) + sl x * u1 al x) by (field; lra);
    replace g with (rho x * (1 - al * r0)) by (field; lra) end.
  clear P R M. poly x. nsatz.
Qed.
Lemma ecc_g : forall x, (mu * (2 / rho x - al) - mu / rho x) * cg x - m * sl x * cgd x = - (sg * m).
Proof.
  intro x. pose proof (rho_pos x) as P. pose proof r0_pos as R. pose proof m_pos as M. rewrite <- m_sq. unfold cg, cgd.
  apply Rmult_eq_reg_r with (rho x / m); [|apply Rgt_not_eq, Rdiv_lt_0_compat; lra].
  match goal with |- ?l = ?g => replace l with ((1 - al * rho x) * (r0 * u1 al x + sg * u2 al x) - sl x * (rho x - u2 al x)) by (field; lra);
    replace g with (- (sg * rho x)) by (field; lra) end.
  clear P R M. poly x. nsatz.
Qed.

(* ---- derivatives with respect to the universal variable ---- *)
Lemma d_cf : forall x, is_derive cf x (cfd x * (rho x / m)).
Proof.
  intro x. pose proof (rho_pos x) as P. pose proof r0_pos as R. pose proof m_pos as M.
  apply (d_ext (fun y => 1 - / r0 * u2 al y) cf x (0 - / r0 * u1 al x)).
  - intro y. unfold cf. field. lra.
  - unfold cfd. field. lra.
  - apply d_minus; [apply d_const|apply d_scal, d_u2].
Qed.
Lemma d_cg : forall x, is_derive cg x (cgd x * (rho x / m)).
Proof.
  intro x. pose proof (rho_pos x) as P. pose proof r0_pos as R. pose proof m_pos as M.
  apply (d_ext (fun y => / m * (r0 * u1 al y + sg * u2 al y)) cg x (/ m * (r0 * u0 al x + sg * u1 al x))).
  - intro y. unfold cg. field. lra.
  - unfold cgd. replace ((1 - u2 al x / rho x) * (rho x / m)) with ((rho x - u2 al x) / m) by (field; lra). unfold rho. field. lra.
  - apply d_scal, d_plus; apply d_scal; [apply d_u1|apply d_u2].
Qed.
Lemma d_cfd : forall x, is_derive cfd x (- mu / rho x ^ 3 * cf x * (rho x / m)).
Proof.
  intro x. pose proof (rho_pos x) as P. pose proof r0_pos as R. pose proof m_pos as M.
  apply (d_ext (fun y => - m / r0 * (u1 al y / rho y)) cfd x (- m / r0 * ((u0 al x * rho x - sl x * u1 al x) / rho x ^ 2))).
  - intro y. unfold cfd. pose proof (rho_pos y). field. lra.
  - rewrite <- m_sq. unfold cf. replace (u0 al x * rho x - sl x * u1 al x) with (r0 - u2 al x).
    + field. lra.
    + clear P R M. poly x. nsatz.
  - apply d_scal. apply (d_div (u1 al) rho x (u0 al x) (sl x)); [lra|apply d_u1|apply d_rho].
Qed.
Lemma d_cgd : forall x, is_derive cgd x (- mu / rho x ^ 3 * cg x * (rho x / m)).
Proof.
  intro x. pose proof (rho_pos x) as P. pose proof r0_pos as R. pose proof m_pos as M.
  apply (d_ext (fun y => 1 - u2 al y / rho y) cgd x (0 - (u1 al x * rho x - sl x * u2 al x) / rho x ^ 2)).
  - intro y. reflexivity.
  - rewrite <- m_sq. unfold cg. replace (u1 al x * rho x - sl x * u2 al x) with (r0 * u1 al x + sg * u2 al x).
    + field. lra.
    + clear P R M. poly x. nsatz.
  - apply d_minus; [apply d_const|]. apply (d_div (u2 al) rho x (u1 al x) (sl x)); [lra|apply d_u2|apply d_rho].
Qed.

(* ---- lower bound on the distance, bound on the logarithmic slope ---- *)
Definition low : R := Rmin 1 (p / (2 + Rabs al)).
Lemma low_pos : 0 < low.
Proof.
  unfold low. apply Rmin_glb_lt; [lra|]. apply Rdiv_lt_0_compat; [apply p_pos|]. pose proof (Rabs_pos al). lra.
Qed.
Lemma low_bound : forall y, 0 < y -> p <= 2 * y - al * y ^ 2 -> low <= y.
Proof.
  intros y Y B. unfold low. destruct (Rle_lt_dec 1 y) as [G|G]; [pose proof (Rmin_l 1 (p / (2 + Rabs al))); lra|].
  apply Rle_trans with (1 := Rmin_r _ _). pose proof (Rabs_pos al) as A. pose proof (Rle_abs (- al)) as A'. rewrite Rabs_Ropp in A'.
  apply Rmult_le_reg_r with (2 + Rabs al); [lra|]. unfold Rdiv. rewrite Rmult_assoc, Rinv_l, Rmult_1_r by lra.
  assert (Y2 : 0 <= y ^ 2 <= y) by nra.
  assert (- al * y ^ 2 <= Rabs al * y ^ 2) by (apply Rmult_le_compat_r; lra).
  assert (Rabs al * y ^ 2 <= Rabs al * y) by (apply Rmult_le_compat_l; lra). nra.
Qed.
Lemma rho_low : forall x, low <= rho x.
Proof.
  intro x. apply low_bound; [apply rho_pos|]. pose proof (rho_inv x). pose proof (pow2_ge_0 (sl x)). lra.
Qed.
Definition slope : R := sqrt (2 / low + Rabs al).
Lemma sl_bound : forall x, Rabs (sl x) <= slope * rho x.
Proof.
  intro x. pose proof (rho_low x) as L. pose proof low_pos as P. pose proof (rho_pos x) as Q. pose proof (rho_inv x) as I. pose proof p_pos as PP.
  pose proof (Rle_abs (- al)) as A'. rewrite Rabs_Ropp in A'. pose proof (Rabs_pos al) as A.
  assert (S : 0 <= 2 / low + Rabs al) by (pose proof (Rdiv_lt_0_compat 2 low ltac:(lra) P); lra).
  replace (slope * rho x) with (Rabs (slope * rho x)) by (apply Rabs_right; apply Rle_ge, Rmult_le_pos; [apply sqrt_pos|lra]).
  apply Rsqr_le_abs_0. unfold Rsqr. replace (slope * rho x * (slope * rho x)) with (slope * slope * rho x ^ 2) by ring.
  unfold slope. rewrite sqrt_sqrt by exact S.
  assert (T : 2 * rho x <= 2 / low * rho x ^ 2).
  { replace (2 / low * rho x ^ 2) with (2 * rho x * (rho x / low)) by (field; lra).
    assert (1 <= rho x / low) by (apply Rmult_le_reg_r with low; [lra|]; unfold Rdiv; rewrite Rmult_assoc, Rinv_l by lra; lra). nra. }
  nra.
Qed.
End Orbit.
