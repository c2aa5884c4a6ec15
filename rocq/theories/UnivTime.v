(* Time as a function of the universal variable and back; existence and uniqueness of the motion. *)
From Coq Require Import Reals Lra Psatz.
From Coquelicot Require Import Coquelicot.
From Verif Require Import SphModel SphProofs KepModel KepElem UnivModel UnivSpec UnivFun UnivOrbit.
Open Scope R_scope.

Lemma d_lim : forall (f : R -> R) (x l : R), is_derive f x l <-> derivable_pt_lim f x l.
Proof. intros. apply is_derive_Reals. Qed.
Lemma d_cont : forall (f : R -> R) (x l : R), is_derive f x l -> continuity_pt f x.
Proof. intros f x l D. apply derivable_continuous_pt. exists l. apply d_lim. exact D. Qed.
(* a slope bounded below *)
Lemma grows : forall (f f' : R -> R) k, (forall x, is_derive f x (f' x)) -> (forall x, k <= f' x) ->
  forall a b, a <= b -> k * (b - a) <= f b - f a.
Proof.
  intros f f' k D B a b L. destruct (Req_dec a b) as [E|N]; [subst; lra|].
  destruct (MVT_cor2 f f' a b ltac:(lra)) as (c & E & _); [intros; apply d_lim, D|].
  rewrite E. apply Rmult_le_compat_r; [lra|apply B].
Qed.
Lemma flat : forall (f : R -> R), (forall x, is_derive f x 0) -> forall a b, f a = f b.
Proof.
  assert (L : forall (f : R -> R), (forall x, is_derive f x 0) -> forall a b, a < b -> f a = f b).
  { intros f D a b Lt. destruct (MVT_cor2 f (fun _ => 0) a b Lt) as (c & E & _); [intros; apply d_lim, D|]. lra. }
  intros f D a b. destruct (Rtotal_order a b) as [X|[X|X]]; [apply L; assumption|subst; reflexivity|symmetry; apply L; assumption].
Qed.

Section Time.
Variables (r v : vec) (mu : R).
Hypotheses (mu_pos : 0 < mu) (free : cross r v <> (0, 0, 0)).
Let K := kf r v mu.
Let P := rho r v mu.
Let lo := low r v mu.
Let m := sqrt mu.
Let lo_pos : 0 < lo := low_pos r v mu mu_pos free.
Let P_low : forall x, lo <= P x := rho_low r v mu mu_pos free.
Let DK : forall x, is_derive K x (P x) := d_kf r v mu.
Let m_pos' : 0 < m := m_pos mu mu_pos.

Lemma K_grows : forall a b, a <= b -> lo * (b - a) <= K b - K a.
Proof. exact (grows K P lo DK P_low). Qed.
Lemma K_0 : K 0 = 0.
Proof. unfold K, kf. rewrite u1_0, u2_0, u3_0. ring. Qed.
Lemma K_abs : forall a b, lo * Rabs (b - a) <= Rabs (K b - K a).
Proof.
  intros a b. destruct (Rle_lt_dec a b) as [L|L].
  - pose proof (K_grows a b L) as G. rewrite Rabs_right by lra. rewrite Rabs_right; [exact G|]. nra.
  - pose proof (K_grows b a ltac:(lra)) as G. rewrite (Rabs_left (b - a)) by lra. rewrite Rabs_left1; [lra|]. nra.
Qed.
Lemma K_inj : forall a b, K a = K b -> a = b.
Proof.
  intros a b E. pose proof (K_abs a b) as A. rewrite E, Rminus_eq_0, Rabs_R0 in A.
  destruct (Req_dec a b) as [|N]; [assumption|exfalso]. assert (0 < Rabs (b - a)) by (apply Rabs_pos_lt; lra). nra.
Qed.
Lemma K_root : forall y, { x | K x = y }.
Proof.
  intro y. set (b := Rabs y / lo + 1).
  assert (B : 0 < b) by (unfold b; pose proof (Rabs_pos y); assert (0 <= Rabs y / lo) by (apply Rmult_le_pos; [lra|left; apply Rinv_0_lt_compat; exact lo_pos]); lra).
  assert (LB : Rabs y <= lo * b) by (unfold b; replace (lo * (Rabs y / lo + 1)) with (Rabs y + lo) by (field; lra); lra).
  pose proof (K_grows 0 b ltac:(lra)) as G1. pose proof (K_grows (- b) 0 ltac:(lra)) as G2. rewrite K_0 in *.
  assert (C : continuity (fun x => K x - y)).
  { intro x. apply continuity_pt_minus; [apply (d_cont K x (P x)), DK|apply continuity_pt_const; intros ? ?; reflexivity]. }
  destruct (IVT_cor (fun x => K x - y) (- b) b C ltac:(lra)) as (x & _ & E).
  - pose proof (Rle_abs y). pose proof (Rle_abs (- y)) as A. rewrite Rabs_Ropp in A. nra.
  - exists x. lra.
Qed.
Definition chi_at (t : R) : R := proj1_sig (K_root (m * t)).
Lemma chi_at_eq : forall t, K (chi_at t) = m * t.
Proof. intro t. unfold chi_at. apply proj2_sig. Qed.
Lemma chi_at_0 : chi_at 0 = 0.
Proof. apply K_inj. rewrite chi_at_eq, K_0. ring. Qed.
Lemma d_chi_at : forall t, is_derive chi_at t (m / P (chi_at t)).
Proof.
  intro t. apply d_lim. intros eps E. set (x := chi_at t).
  pose proof (P_low x) as Px.
  assert (E1 : 0 < eps * (lo * lo) / m) by (apply Rdiv_lt_0_compat; [|exact m_pos']; apply Rmult_lt_0_compat; nra).
  destruct ((proj1 (d_lim K x (P x)) (DK x)) _ E1) as (d & D).
  assert (E2 : 0 < d * lo / m) by (apply Rdiv_lt_0_compat; [|exact m_pos']; apply Rmult_lt_0_compat; [apply cond_pos|lra]).
  exists (mkposreal _ E2). intros h N L. cbn [pos] in L.
  set (k := chi_at (t + h) - x).
  assert (EK : K (x + k) - K x = m * h).
  { unfold k. replace (x + (chi_at (t + h) - x)) with (chi_at (t + h)) by ring. unfold x. rewrite !chi_at_eq. ring. }
  assert (KN : k <> 0). { intro Z. rewrite Z, Rplus_0_r in EK. nra. }
  assert (KL : Rabs k < d).
  { pose proof (K_abs x (x + k)) as A. replace (x + k - x) with k in A by ring. rewrite EK, Rabs_mult, (Rabs_right m) in A by lra.
    apply Rmult_lt_reg_l with lo; [lra|]. apply Rle_lt_trans with (1 := A).
    replace (lo * d) with (m * (d * lo / m)) by (field; lra). apply Rmult_lt_compat_l; [lra|].  exact L. }
  specialize (D k KN KL). rewrite EK in D.
  assert (Y : lo <= m * h / k).
  { pose proof (K_grows x (x + k)) as G1. pose proof (K_grows (x + k) x) as G2.
    destruct (Rlt_le_dec 0 k) as [S|S].
    - specialize (G1 ltac:(lra)). rewrite EK in G1. apply Rmult_le_reg_r with k; [lra|]. unfold Rdiv. rewrite Rmult_assoc, Rinv_l by lra. lra.
    - specialize (G2 ltac:(lra)). apply Rmult_le_reg_r with (- k); [lra|]. replace (m * h / k * - k) with (- (m * h)) by (field; lra). lra. }
  fold k. replace ((chi_at (t + h) - x) / h - m / P x) with (k / h - m / P x) by reflexivity.
  set (y := m * h / k) in *.
  assert (Q : k / h = m / y) by (unfold y; field; repeat split; lra).
  rewrite Q. replace (m / y - m / P x) with (- (m * (y - P x)) / (y * P x)) by (field; lra).
  unfold Rdiv. rewrite Rabs_mult, Rabs_Ropp, Rabs_mult, (Rabs_right m) by lra.
  assert (YP : lo * lo <= y * P x) by (apply Rmult_le_compat; lra).
  assert (LL : 0 < lo * lo) by nra.
  rewrite (Rabs_right (/ (y * P x))) by (apply Rle_ge; left; apply Rinv_0_lt_compat; lra).
  apply Rmult_lt_reg_r with (y * P x); [lra|]. rewrite Rmult_assoc, Rinv_l, Rmult_1_r by lra.
  apply Rlt_le_trans with (m * (eps * (lo * lo) / m)); [apply Rmult_lt_compat_l; [lra|exact D]|].
  replace (m * (eps * (lo * lo) / m)) with (eps * (lo * lo)) by (field; lra). apply Rmult_le_compat_l; lra.
Qed.

(* the motion at time t after the given state *)
Definition motion_x (t : R) : vec := ux r v mu (chi_at t).
Definition motion_v (t : R) : vec := uv r v mu (chi_at t).

Lemma vlin_deriv : forall (a b : R -> R) t (a' b' : R), is_derive a t a' -> is_derive b t b' ->
  vderiv (fun t => lin (a t) (b t) r v) t (lin a' b' r v).
Proof.
  intros a b t a' b' A B. destruct r as [[r1 r2] r3], v as [[v1 v2] v3]. unfold vderiv, lin, vplus, scale, vx, vy, vz. cbn [fst snd].
  assert (G : forall p q, derivable_pt_lim (fun t => a t * p + b t * q) t (a' * p + b' * q)).
  { intros p q. apply d_lim.
    refine (d_eq _ _ _ _ (d_plus _ _ _ _ _ (d_mult _ _ _ _ _ A (d_const p t)) (d_mult _ _ _ _ _ B (d_const q t))) _). ring. }
  repeat split; apply G.
Qed.
Lemma motion_start : motion_x 0 = r /\ motion_v 0 = v.
Proof.
  unfold motion_x, motion_v. rewrite chi_at_0. unfold ux, uv, cf, cg, cfd, cgd. rewrite u1_0, u2_0.
  pose proof (rho_pos r v mu mu_pos free 0) as RP. pose proof (r0_pos r v free) as R0. pose proof m_pos' as M. fold m.
  replace (1 - 0 / norm r) with 1 by (field; lra). replace ((norm r * 0 + dot r v / m * 0) / m) with 0 by (field; lra).
  replace (- (m * 0) / (norm r * rho r v mu 0)) with 0 by (field; lra). replace (1 - 0 / rho r v mu 0) with 1 by (field; lra).
  clear. destruct r as [[r1 r2] r3], v as [[v1 v2] v3]. unfold lin, vplus, scale. split; vring.
Qed.
Lemma motion_two_body : two_body mu motion_x motion_v.
Proof.
  intro t. set (x := chi_at t). pose proof (rho_pos r v mu mu_pos free x) as RP. pose proof m_pos' as M. fold P in RP.
  assert (N : norm (motion_x t) = P x) by (apply ux_norm; assumption).
  split; [|split].
  - intro E. rewrite E in N. unfold norm, dot in N. rewrite !Rmult_0_r, !Rplus_0_r, sqrt_0 in N. lra.
  - apply (vlin_deriv (fun t => cf r v mu (chi_at t)) (fun t => cg r v mu (chi_at t))).
    + refine (d_eq _ _ _ _ (d_comp chi_at (cf r v mu) t _ _ (d_chi_at t) (d_cf r v mu mu_pos free (chi_at t))) _).
      fold P m. fold x. field. lra.
    + refine (d_eq _ _ _ _ (d_comp chi_at (cg r v mu) t _ _ (d_chi_at t) (d_cg r v mu mu_pos free (chi_at t))) _).
      fold P m. fold x. field. lra.
  - rewrite N. unfold motion_x, ux. rewrite scale_lin.
    apply (vlin_deriv (fun t => cfd r v mu (chi_at t)) (fun t => cgd r v mu (chi_at t))).
    + refine (d_eq _ _ _ _ (d_comp chi_at (cfd r v mu) t _ _ (d_chi_at t) (d_cfd r v mu mu_pos free (chi_at t))) _).
      fold P m. fold x. field. lra.
    + refine (d_eq _ _ _ _ (d_comp chi_at (cgd r v mu) t _ _ (d_chi_at t) (d_cgd r v mu mu_pos free (chi_at t))) _).
      fold P m. fold x. field. lra.
Qed.
End Time.
