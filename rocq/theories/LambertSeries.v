(* The series used near the parabola agrees with the time of flight to 27 digits. *)
From Coq Require Import Reals ZArith Lra Lia Psatz Field.
From Coquelicot Require Import Coquelicot.
From Verif Require Import SphModel KepModel KepHyp UnivFun LambertModel LambertPlane LambertTime.
Open Scope R_scope.

(* the coefficients and partial sums of 2F1(3, 1, 5/2, z), and the derivative of a partial sum *)
Fixpoint coef (n : nat) : R := match n with O => 1 | S k => coef k * (3 + INR k) / (5 / 2 + INR k) end.
Fixpoint psum (n : nat) (z : R) : R := match n with O => 1 | S k => psum k z + coef (S k) * z ^ (S k) end.
Fixpoint dsum (n : nat) (z : R) : R := match n with O => 0 | S k => dsum k z + coef (S k) * (INR (S k) * z ^ k) end.
Lemma loop_sum : forall k n z, hyp_loop k (INR n) z (coef n * z ^ n) (psum n z) = psum (n + k) z.
Proof.
  induction k as [|k IH]; intros n z; [rewrite Nat.add_0_r; reflexivity|]. cbn [hyp_loop].
  assert (T : coef n * z ^ n * (3 + INR n) * (1 + INR n) / (5 / 2 + INR n) * z / (INR n + 1) = coef (S n) * z ^ S n).
  { cbn [coef pow]. pose proof (pos_INR n). field. lra. }
  rewrite T. replace (INR n + 1) with (INR (S n)) by apply S_INR. replace (n + S k)%nat with (S n + k)%nat by lia. rewrite <- IH. reflexivity.
Qed.
Lemma hyp_is : forall z, z < 1 -> hyp2f1b z = Some (psum 100 z).
Proof. intros z Z. unfold hyp2f1b. destruct (Rle_dec 1 z); [lra|]. f_equal.
  transitivity (hyp_loop 100 (INR 0) z (coef 0 * z ^ 0) (psum 0 z)); [|exact (loop_sum 100 0 z)]. f_equal; cbn; ring.
Qed.
Lemma d_psum : forall n z, is_derive (psum n) z (dsum n z).
Proof.
  induction n as [|n IH]; intro z; [apply d_const|]. cbn [dsum]. apply (d_plus (psum n) (fun z => coef (S n) * z ^ S n)); [apply IH|].
  apply d_scal. apply is_derive_Reals. replace n with (Init.Nat.pred (S n)) at 2 by reflexivity. apply derivable_pt_lim_pow.
Qed.
Lemma sum_ode : forall n z, z * (1 - z) * dsum n z - 3 * z * psum n z + 3 / 2 * (psum n z - 1) = - ((INR n + 3) * coef n * z ^ S n).
Proof.
  induction n as [|n IH]; intro z; [cbn; lra|].
  cbn [dsum psum]. rewrite S_INR. pose proof (pos_INR n) as N.
  replace (z * (1 - z) * (dsum n z + coef (S n) * ((INR n + 1) * z ^ n)) - 3 * z * (psum n z + coef (S n) * z ^ S n) + 3 / 2 * (psum n z + coef (S n) * z ^ S n - 1))
    with ((z * (1 - z) * dsum n z - 3 * z * psum n z + 3 / 2 * (psum n z - 1)) + coef (S n) * z ^ n * z * ((1 - z) * (INR n + 1) - 3 * z + 3 / 2)) by (cbn [pow]; ring).
  rewrite IH. cbn [coef pow]. field. lra.
Qed.
Lemma coef_bound : forall n, 0 < coef n <= (6 / 5) ^ n.
Proof.
  induction n as [|n IH]; [cbn; lra|]. cbn [coef pow]. pose proof (pos_INR n) as N. split.
  - apply Rdiv_lt_0_compat; [nra|lra].
  - replace (coef n * (3 + INR n) / (5 / 2 + INR n)) with (coef n * ((3 + INR n) / (5 / 2 + INR n))) by (field; lra).
    assert ((3 + INR n) / (5 / 2 + INR n) <= 6 / 5). { apply (Rmult_le_reg_r (5 / 2 + INR n)); [lra|]. unfold Rdiv at 1. rewrite Rmult_assoc, Rinv_l by lra. lra. }
    rewrite Rmult_comm. apply Rmult_le_compat; [|lra|assumption|lra]. apply Rlt_le, Rdiv_lt_0_compat; lra.
Qed.
(* the error of the series in the elliptic and in the hyperbolic case *)
Definition We (n : nat) (t : R) : R := sin t ^ 3 * (4 / 3 * psum n ((1 - cos t) / 2)) - (2 * t - sin (2 * t)).
Definition Wh (n : nat) (t : R) : R := sinh t ^ 3 * (4 / 3 * psum n ((1 - cosh t) / 2)) - (sinh (2 * t) - 2 * t).
Lemma ode_angle : forall n z s2 c, c = 1 - 2 * z -> s2 = 4 * (z * (1 - z)) ->
  3 * c * psum n z + s2 / 2 * dsum n z = 3 - 2 * ((INR n + 3) * coef n * z ^ S n).
Proof. intros n z s2 c C S2. pose proof (sum_ode n z) as O. rewrite C, S2. set (P := psum n z) in *. set (D := dsum n z) in *. set (K := (INR n + 3) * coef n * z ^ S n) in *. lra. Qed.
Lemma d_We : forall n t, is_derive (We n) t (- (8 / 3 * ((INR n + 3) * coef n * ((1 - cos t) / 2) ^ S n) * sin t ^ 2)).
Proof.
  intros n t. unfold We. set (z := (1 - cos t) / 2).
  assert (DZ : is_derive (fun t => psum n ((1 - cos t) / 2)) t (dsum n z * (sin t / 2))).
  { apply (d_comp (fun t => (1 - cos t) / 2) (psum n)); [|apply d_psum]. auto_derive; [exact I|]. field. }
  assert (DS : is_derive (fun t => sin t ^ 3) t (3 * sin t ^ 2 * cos t)). { auto_derive; [exact I|]. ring. }
  assert (DR : is_derive (fun t => 2 * t - sin (2 * t)) t (4 * sin t ^ 2)).
  { auto_derive; [exact I|]. rewrite cos_2a_sin. ring. }
  pose proof (ode_angle n z (sin t ^ 2) (cos t) ltac:(unfold z; lra)) as O.
  assert (S2 : sin t ^ 2 = 4 * (z * (1 - z))). { unfold z. pose proof (sin2_cos2 t) as T. unfold Rsqr in T. lra. } specialize (O S2).
  replace (- (8 / 3 * ((INR n + 3) * coef n * z ^ S n) * sin t ^ 2))
    with ((3 * sin t ^ 2 * cos t) * (4 / 3 * psum n z) + sin t ^ 3 * (4 / 3 * (dsum n z * (sin t / 2))) - 4 * sin t ^ 2).
  - apply d_minus; [|exact DR]. apply (d_mult (fun t => sin t ^ 3) (fun t => 4 / 3 * psum n ((1 - cos t) / 2))); [exact DS|]. apply d_scal. exact DZ.
  - replace ((3 * sin t ^ 2 * cos t) * (4 / 3 * psum n z) + sin t ^ 3 * (4 / 3 * (dsum n z * (sin t / 2))) - 4 * sin t ^ 2)
      with (sin t ^ 2 * (4 / 3) * (3 * cos t * psum n z + sin t ^ 2 / 2 * dsum n z) - 4 * sin t ^ 2) by field.
    rewrite O. field.
Qed.
Lemma d_Wh : forall n t, is_derive (Wh n) t (- (8 / 3 * ((INR n + 3) * coef n * ((1 - cosh t) / 2) ^ S n) * sinh t ^ 2)).
Proof.
  intros n t. unfold Wh. set (z := (1 - cosh t) / 2).
  assert (DC : is_derive (fun t => (1 - cosh t) / 2) t (- sinh t / 2)).
  { unfold cosh, sinh. auto_derive; [exact I|]. field. }
  assert (DZ : is_derive (fun t => psum n ((1 - cosh t) / 2)) t (dsum n z * (- sinh t / 2))).
  { apply (d_comp (fun t => (1 - cosh t) / 2) (psum n)); [exact DC|apply d_psum]. }
  assert (DS : is_derive (fun t => sinh t ^ 3) t (3 * sinh t ^ 2 * cosh t)). { unfold cosh, sinh. auto_derive; [exact I|]. field. }
  assert (DR : is_derive (fun t => sinh (2 * t) - 2 * t) t (4 * sinh t ^ 2)).
  { unfold sinh. auto_derive; [exact I|]. replace (2 * t) with (t + t) by ring. rewrite Ropp_plus_distr, !exp_plus.
    assert (E : exp t * exp (- t) = 1) by (rewrite <- exp_plus, Rplus_opp_r; apply exp_0). set (u := exp t) in *. set (v := exp (- t)) in *. nra. }
  pose proof (ode_angle n z (- sinh t ^ 2) (cosh t) ltac:(unfold z; lra)) as O.
  assert (S2 : - sinh t ^ 2 = 4 * (z * (1 - z))). { unfold z. pose proof (ch_sh t) as T. lra. } specialize (O S2).
  replace (- (8 / 3 * ((INR n + 3) * coef n * z ^ S n) * sinh t ^ 2))
    with ((3 * sinh t ^ 2 * cosh t) * (4 / 3 * psum n z) + sinh t ^ 3 * (4 / 3 * (dsum n z * (- sinh t / 2))) - 4 * sinh t ^ 2).
  - apply d_minus; [|exact DR]. apply (d_mult (fun t => sinh t ^ 3) (fun t => 4 / 3 * psum n ((1 - cosh t) / 2))); [exact DS|]. apply d_scal. exact DZ.
  - replace ((3 * sinh t ^ 2 * cosh t) * (4 / 3 * psum n z) + sinh t ^ 3 * (4 / 3 * (dsum n z * (- sinh t / 2))) - 4 * sinh t ^ 2)
      with (sinh t ^ 2 * (4 / 3) * (3 * cosh t * psum n z + - sinh t ^ 2 / 2 * dsum n z) - 4 * sinh t ^ 2) by field.
    rewrite O. field.
Qed.
Lemma mvt_bound : forall (f f' : R -> R) a K, 0 < a -> (forall t, is_derive f t (f' t)) -> f 0 = 0 -> (forall t, 0 <= t <= a -> Rabs (f' t) <= K) -> Rabs (f a) <= K * a.
Proof.
  intros f f' a K A D Z B. destruct (MVT_cor2 f f' 0 a A) as (c & E & C); [intros; apply is_derive_Reals, D|].
  rewrite Z in E. replace (f a) with (f' c * a) by lra. rewrite Rabs_mult, (Rabs_right a) by lra. apply Rmult_le_compat_r; [lra|]. apply B. lra.
Qed.
Lemma We_0 : forall n, We n 0 = 0.
Proof. intro n. unfold We. rewrite Rmult_0_r, sin_0. ring. Qed.
Lemma Wh_0 : forall n, Wh n 0 = 0.
Proof. intro n. unfold Wh. rewrite Rmult_0_r, sinh_0. ring. Qed.
Lemma We_bound : forall n t, 0 < t <= PI -> Rabs (We n t) <= 8 / 3 * ((INR n + 3) * coef n * ((1 - cos t) / 2) ^ S n) * t.
Proof.
  intros n t T. apply (mvt_bound _ _ _ _ (proj1 T) (d_We n) (We_0 n)). intros u U.
  rewrite Rabs_Ropp. pose proof (coef_bound n) as [CP _]. pose proof (pos_INR n) as N.
  assert (C0 : cos t <= cos u) by (destruct (Req_EM_T u t) as [->|]; [lra|left; apply cos_decreasing_1; lra]).
  pose proof (COS_bound u). pose proof (COS_bound t).
  assert (ZU : 0 <= (1 - cos u) / 2) by lra. assert (ZL : (1 - cos u) / 2 <= (1 - cos t) / 2) by lra.
  pose proof (pow_incr _ _ (S n) (conj ZU ZL)) as PI'. pose proof (pow_le _ (S n) ZU) as P0.
  assert (S2 : 0 <= sin u ^ 2 <= 1). { pose proof (sin2_cos2 u) as T2. unfold Rsqr in T2. split; nra. }
  assert (KP : 0 < (INR n + 3) * coef n) by nra.
  rewrite Rabs_right. 2:{ apply Rle_ge, Rmult_le_pos; [|lra]. apply Rmult_le_pos; [lra|]. apply Rmult_le_pos; lra. }
  replace (8 / 3 * ((INR n + 3) * coef n * ((1 - cos t) / 2) ^ S n)) with (8 / 3 * ((INR n + 3) * coef n * ((1 - cos t) / 2) ^ S n) * 1) by ring.
  apply Rmult_le_compat; [apply Rmult_le_pos; [lra|apply Rmult_le_pos; lra]|lra| |lra].
  apply Rmult_le_compat_l; [lra|]. apply Rmult_le_compat_l; lra.
Qed.
Lemma Wh_bound : forall n t, 0 < t -> Rabs (Wh n t) <= 8 / 3 * ((INR n + 3) * coef n * ((cosh t - 1) / 2) ^ S n) * sinh t ^ 2 * t.
Proof.
  intros n t T. apply (mvt_bound _ _ _ _ T (d_Wh n) (Wh_0 n)). intros u U.
  rewrite Rabs_Ropp, !Rabs_mult. pose proof (coef_bound n) as [CP _]. pose proof (pos_INR n) as N.
  rewrite <- !RPow_abs. pose proof (ch_mono u t U) as CM. pose proof (ch_ge1 u) as C1.
  assert (AZ : Rabs ((1 - cosh u) / 2) = (cosh u - 1) / 2) by (rewrite Rabs_left1 by lra; field). rewrite AZ.
  rewrite (Rabs_right (8 / 3)), (Rabs_right (INR n + 3)), (Rabs_right (coef n)) by lra.
  pose proof (sh_nonneg u (proj1 U)) as SU. rewrite (Rabs_right (sinh u)) by lra.
  assert (SL : sinh u <= sinh t). { pose proof (ch_sh u). pose proof (ch_sh t). pose proof (sh_nonneg t ltac:(lra)). nra. }
  pose proof (pow_incr ((cosh u - 1) / 2) ((cosh t - 1) / 2) (S n) ltac:(lra)) as PI'. pose proof (pow_le ((cosh u - 1) / 2) (S n) ltac:(lra)) as P0.
  pose proof (pow_incr (sinh u) (sinh t) 2 ltac:(lra)) as SI. pose proof (pow_le (sinh u) 2 SU) as S0.
  assert (KP : 0 < (INR n + 3) * coef n) by nra.
  apply Rmult_le_compat; [apply Rmult_le_pos; [lra|apply Rmult_le_pos; lra]|lra| |lra].
  apply Rmult_le_compat_l; [lra|]. apply Rmult_le_compat_l; lra.
Qed.
(* the remainder of the hundred-term sum for |z| <= 2/5 *)
Lemma small_power : 618 / 5 * (12 / 25) ^ 99 <= / 10 ^ 28 / 3.
Proof.
  unfold Rdiv at 2. rewrite Rpow_mult_distr, <- Rinv_pow by lra. rewrite !pow_IZR.
  assert (QP : (0 < 25 ^ Z.of_nat 99)%Z) by (vm_compute; reflexivity). assert (TP : (0 < 10 ^ Z.of_nat 28)%Z) by (vm_compute; reflexivity).
  assert (K : (618 * 3 * 12 ^ Z.of_nat 99 * 10 ^ Z.of_nat 28 <= 5 * 25 ^ Z.of_nat 99)%Z) by (vm_compute; discriminate).
  revert QP TP K. generalize (12 ^ Z.of_nat 99)%Z (25 ^ Z.of_nat 99)%Z (10 ^ Z.of_nat 28)%Z. intros p q t QP TP K.
  apply IZR_lt in QP. apply IZR_lt in TP. apply IZR_le in K. rewrite !mult_IZR in K.
  apply (Rmult_le_reg_r (IZR q * IZR t * 15)); [repeat apply Rmult_lt_0_compat; lra|].
  replace (618 / 5 * (IZR p * / IZR q) * (IZR q * IZR t * 15)) with (618 * 3 * IZR p * IZR t) by (field; lra).
  replace (/ IZR t / 3 * (IZR q * IZR t * 15)) with (5 * IZR q) by (field; lra). exact K.
Qed.
Lemma tail_gen : forall n z, 0 <= z <= 2 / 5 -> (INR (S n) + 3) * coef (S n) * z ^ n <= (INR (S n) + 3) * (6 / 5) * (12 / 25) ^ n.
Proof.
  intros n z Z. pose proof (coef_bound (S n)) as [CP CB]. pose proof (pos_INR (S n)) as N.
  pose proof (pow_incr z (2 / 5) n Z) as PB. pose proof (pow_le z n (proj1 Z)) as P0.
  replace ((INR (S n) + 3) * (6 / 5) * (12 / 25) ^ n) with ((INR (S n) + 3) * (6 / 5) ^ S n * (2 / 5) ^ n).
  - apply Rmult_le_compat; [apply Rmult_le_pos; lra|lra|apply Rmult_le_compat_l; lra|lra].
  - replace (12 / 25) with (6 / 5 * (2 / 5)) by field. rewrite Rpow_mult_distr. cbn [pow]. ring.
Qed.
Lemma tail_bound : forall z, 0 <= z <= 2 / 5 -> (INR 100 + 3) * coef 100 * z ^ 99 <= / 10 ^ 28 / 3.
Proof.
  intros z Z. apply Rle_trans with (1 := tail_gen 99 z Z). pose proof small_power as P.
  replace (INR 100 + 3) with (103) by (rewrite INR_IZR_INZ; cbn; lra). replace (103 * (6 / 5) * (12 / 25) ^ 99) with (618 / 5 * (12 / 25) ^ 99); [exact P|].
  generalize ((12 / 25) ^ 99). intro w. field.
Qed.

Section window.
Variables (l x y : R).
Hypotheses (l_small : l * l < 1) (y_nn : 0 < y) (y_sq : y * y = 1 - l * l * (1 - x * x)).
Hypotheses (x_pos : 0 < x) (x_lo : 6 / 10 < x * x) (x_hi : x * x < 14 / 10).
Let eta := y - l * x.
Let A := x * y + l * (1 - x * x).
Let z := (1 - A) / 2.
Definition series (n : nat) : R := (eta ^ 3 * (4 / 3 * psum n z) + 4 * l * eta) / 2.
Let EP : 0 < eta := eta_p l x y l_small y_nn y_sq.
Lemma eta_le : eta <= 3.
Proof. unfold eta. assert (y <= 13 / 10) by nra. assert ((l * x) * (l * x) < 14 / 10) by nra. assert (- (13 / 10) < l * x) by nra. lra. Qed.
Lemma A_ell : x < 1 -> 2 * (x * x) - 1 <= A.
Proof.
  intro X. unfold A. set (w := 1 - x * x). assert (W : 0 < w < 4 / 10) by (unfold w; nra).
  assert (XX : x * x = 1 - w) by (unfold w; ring). assert (L : -1 < l < 1) by nra.
  destruct (Rle_dec (x * x - (1 + l) * w) 0) as [N|N]; [assert (0 < x * y) by nra; lra|].
  assert (K : (x * x - (1 + l) * w) * (x * x - (1 + l) * w) <= (x * y) * (x * y)).
  { replace ((x * y) * (x * y)) with ((x * x) * (y * y)) by ring. rewrite y_sq. fold w. rewrite XX.
    assert (0 <= w * (1 + l) * (3 - l - 4 * w)) by (apply Rmult_le_pos; [apply Rmult_le_pos|]; lra). nra. }
  assert (0 < x * y) by nra. assert (x * x - (1 + l) * w <= x * y) by nra. lra.
Qed.
Lemma A_hyp : 1 < x -> A <= 2 * (x * x) - 1.
Proof.
  intro X. unfold A. set (v := x * x - 1). assert (V : 0 < v < 4 / 10) by (unfold v; nra). replace (1 - x * x) with (- v) by (unfold v; ring).
  assert (XX : x * x = 1 + v) by (unfold v; ring). assert (L : -1 < l < 1) by nra.
  assert (K : (x * y) * (x * y) <= (x * x + (1 + l) * v) * (x * x + (1 + l) * v)).
  { replace ((x * y) * (x * y)) with ((x * x) * (y * y)) by ring. rewrite y_sq. replace (1 - x * x) with (- v) by (unfold v; ring). rewrite XX.
    assert (0 <= v * ((1 + v) * ((3 - l) * (1 + l)) + (1 + l) * (1 + l) * v)).
    { apply Rmult_le_pos; [lra|]. apply Rplus_le_le_0_compat; repeat apply Rmult_le_pos; lra. } nra. }
  assert (0 < x * y) by nra. assert (0 < x * x + (1 + l) * v) by nra. assert (x * y <= x * x + (1 + l) * v) by nra. lra.
Qed.
Let psi := compute_psi x y l.
Lemma series_ell : forall n, x < 1 -> Rabs (series (S n) - T_x l x y 0) <= 108 * ((INR (S n) + 3) * coef (S n) * z ^ n) /\ 0 <= z <= 2 / 5.
Proof.
  intros n X. assert (I : -1 < x < 1) by lra. destruct (psi_ell l x y l_small y_nn y_sq I) as (B & CP & SP). fold psi in B, CP, SP. fold A in CP. fold eta in SP.
  destruct (w_is x I) as [W W2]. set (w := sqrt (1 - x * x)) in *. pose proof (A_ell X) as AL. pose proof (ang l x y y_sq) as AN. fold A eta in AN.
  assert (A1 : A < 1) by (rewrite <- W2 in AN; assert (0 < (w * w) * (eta * eta)) by (apply Rmult_lt_0_compat; nra); nra).
  assert (ZB : 0 <= z <= 2 / 5) by (unfold z; lra). split; [|exact ZB].
  assert (ZC : (1 - cos psi) / 2 = z) by (rewrite CP; reflexivity).
  assert (D : series (S n) - T_x l x y 0 = We (S n) psi / (2 * w ^ 3)).
  { unfold series, T_x. destruct (Req_EM_T x 1); [lra|]. rewrite Rabs_right by nra. fold psi w. unfold We. rewrite ZC, sin_2a, SP, CP. set (P := psum (S n) z).
    rewrite <- W2. unfold A, eta. cbn [INR]. field_simplify_eq; [|lra]. assert (W3 : w ^ 2 = 1 - x * x) by (rewrite <- W2; ring).
    replace (w ^ 5) with (w ^ 2 * w ^ 2 * w) by ring. replace (w ^ 4) with (w ^ 2 * w ^ 2) by ring. replace (w ^ 3) with (w ^ 2 * w) by ring. rewrite ?W3.
    clear - y_sq. clearbody w. ring [y_sq]. }
  rewrite D. pose proof (We_bound (S n) psi ltac:(lra)) as WB. rewrite ZC in WB. set (K := (INR (S n) + 3) * coef (S n) * z ^ n).
  assert (KP : 0 <= K). { unfold K. pose proof (coef_bound (S n)) as [CO _]. pose proof (pos_INR (S n)). pose proof (pow_le z n (proj1 ZB)). apply Rmult_le_pos; [apply Rmult_le_pos|]; lra. }
  replace (8 / 3 * ((INR (S n) + 3) * coef (S n) * z ^ S (S n)) * psi) with (8 / 3 * K * (z * z) * psi) in WB by (unfold K; cbn [pow]; ring).
  assert (W3 : 0 < w ^ 3) by (apply pow_lt; exact W).
  assert (ZW : z <= 9 / 2 * (w * w)).
  { assert (z * (2 * (1 + A)) = (w * w) * (eta * eta)) by (unfold z; rewrite <- W2 in AN; lra). pose proof eta_le. assert (eta * eta <= 9) by nra.
    assert ((w * w) * (eta * eta) <= (w * w) * 9) by (apply Rmult_le_compat_l; nra). nra. }
  assert (WL : w <= 1) by (assert (w * w <= 1) by (rewrite W2; nra); nra).
  assert (ZZ : z * z <= 81 / 4 * w ^ 3).
  { apply Rle_trans with (9 / 2 * (w * w) * (9 / 2 * (w * w))); [apply Rmult_le_compat; lra|].
    replace (9 / 2 * (w * w) * (9 / 2 * (w * w))) with (81 / 4 * w ^ 3 * w) by field. nra. }
  pose proof PI_4. pose proof PI_RGT_0.
  unfold Rdiv. rewrite Rabs_mult, (Rabs_right (/ (2 * w ^ 3))) by (apply Rle_ge, Rlt_le, Rinv_0_lt_compat; lra).
  apply (Rmult_le_reg_r (2 * w ^ 3)); [lra|]. rewrite Rmult_assoc, Rinv_l, Rmult_1_r by lra.
  apply Rle_trans with (1 := WB). apply Rle_trans with (8 / 3 * K * (z * z) * 4).
  - apply Rmult_le_compat_l; [|lra]. apply Rmult_le_pos; [lra|nra].
  - assert (8 / 3 * K * (z * z) <= 8 / 3 * K * (81 / 4 * w ^ 3)) by (apply Rmult_le_compat_l; lra). lra.
Qed.
Lemma series_hyp : forall n, 1 < x -> Rabs (series (S n) - T_x l x y 0) <= 108 * ((INR (S n) + 3) * coef (S n) * (- z) ^ n) /\ 0 <= - z <= 2 / 5.
Proof.
  intros n X. destruct (psi_hyp l x y l_small y_nn y_sq X) as (B & CP & SP). fold psi in B, CP, SP. fold A in CP. fold eta in SP.
  destruct (v_is x X) as [V V2]. set (v := sqrt (x * x - 1)) in *. pose proof (A_hyp X) as AL. pose proof (ch_ge1 psi) as A1. rewrite CP in A1.
  assert (ZB : 0 <= - z <= 2 / 5) by (unfold z; lra). split; [|exact ZB].
  assert (ZC : (1 - cosh psi) / 2 = z) by (rewrite CP; reflexivity). assert (ZC' : (cosh psi - 1) / 2 = - z) by (rewrite CP; unfold z; lra).
  assert (S2A : sinh (2 * psi) = 2 * sinh psi * cosh psi). { unfold sinh, cosh. replace (2 * psi) with (psi + psi) by ring. rewrite Ropp_plus_distr, !exp_plus. field. }
  assert (D : series (S n) - T_x l x y 0 = Wh (S n) psi / (2 * v ^ 3)).
  { unfold series, T_x. destruct (Req_EM_T x 1); [lra|]. rewrite Rabs_left by nra. replace (- (1 - x * x)) with (x * x - 1) by ring. fold psi v. unfold Wh. rewrite ZC, S2A, SP, CP. set (P := psum (S n) z).
    replace (1 - x * x) with (- (v * v)) by lra. unfold A, eta. cbn [INR]. field_simplify_eq; [|lra]. assert (W3 : v ^ 2 = x * x - 1) by (rewrite <- V2; ring).
    replace (v ^ 5) with (v ^ 2 * v ^ 2 * v) by ring. replace (v ^ 4) with (v ^ 2 * v ^ 2) by ring. replace (v ^ 3) with (v ^ 2 * v) by ring. rewrite ?W3.
    clear - y_sq. clearbody v. ring [y_sq]. }
  rewrite D. pose proof (Wh_bound (S n) psi B) as WB. rewrite ZC', SP in WB. set (K := (INR (S n) + 3) * coef (S n) * (- z) ^ n).
  assert (KP : 0 <= K). { unfold K. pose proof (coef_bound (S n)) as [CO _]. pose proof (pos_INR (S n)). pose proof (pow_le (- z) n (proj1 ZB)). apply Rmult_le_pos; [apply Rmult_le_pos|]; lra. }
  replace (8 / 3 * ((INR (S n) + 3) * coef (S n) * (- z) ^ S (S n)) * (v * eta) ^ 2 * psi) with (8 / 3 * K * (- z * - z) * (v * v) * (eta * eta) * psi) in WB by (unfold K; cbn [pow]; ring).
  assert (W3 : 0 < v ^ 3) by (apply pow_lt; exact V). pose proof (sh_ge psi ltac:(lra)) as PL. rewrite SP in PL.
  pose proof eta_le as E3. assert (ZZ : 0 <= - z * - z <= 4 / 25) by (split; nra).
  assert (EE : eta * eta * eta <= 27) by (assert (eta * eta <= 9) by nra; nra).
  unfold Rdiv. rewrite Rabs_mult, (Rabs_right (/ (2 * v ^ 3))) by (apply Rle_ge, Rlt_le, Rinv_0_lt_compat; lra).
  apply (Rmult_le_reg_r (2 * v ^ 3)); [lra|]. rewrite Rmult_assoc, Rinv_l, Rmult_1_r by lra.
  apply Rle_trans with (1 := WB). set (u := - z * - z) in *.
  assert (Q1 : 0 <= 8 / 3 * K * u) by (apply Rmult_le_pos; lra).
  assert (Q2 : 8 / 3 * K * u <= 8 / 3 * K * (4 / 25)) by (apply Rmult_le_compat_l; lra).
  apply Rle_trans with (8 / 3 * K * u * (v * v) * (eta * eta) * (v * eta)).
  - apply Rmult_le_compat_l; [|exact PL]. apply Rmult_le_pos; [apply Rmult_le_pos|]; nra.
  - replace (8 / 3 * K * u * (v * v) * (eta * eta) * (v * eta)) with (8 / 3 * K * u * (v ^ 3 * (eta * eta * eta))) by ring.
    apply Rle_trans with (8 / 3 * K * (4 / 25) * (v ^ 3 * 27)).
    + apply Rmult_le_compat; [exact Q1|apply Rmult_le_pos; [lra|repeat apply Rmult_le_pos; lra]|exact Q2|apply Rmult_le_compat_l; lra].
    + assert (0 <= K * v ^ 3) by (apply Rmult_le_pos; lra). lra.
Qed.
(* the series of the code *)
Lemma series_code : tof_series x y l = Some (series 100) /\ Rabs (series 100 - T_x l x y 0) <= / 10 ^ 26.
Proof.
  assert (Z : (1 - l - x * (y - l * x)) / 2 = z) by (unfold z, A; field).
  assert (SM : 108 * (/ 10 ^ 28 / 3) <= / 10 ^ 26). { replace (10 ^ 28) with (100 * 10 ^ 26) by ring. assert (0 < / 10 ^ 26) by (apply Rinv_0_lt_compat, pow_lt; lra). rewrite Rinv_mult by lra. lra. }
  destruct (Rtotal_order x 1) as [X|[X|X]].
  - destruct (series_ell 99 X) as [B ZB]. split.
    + unfold tof_series. rewrite Z, hyp_is by lra. reflexivity.
    + pose proof (tail_bound z ZB) as T. apply Rle_trans with (1 := B). lra.
  - assert (Y1 : y = 1) by (pose proof y_sq as YS; rewrite X in YS; nra). assert (Z0 : z = 0) by (unfold z, A; rewrite X, Y1; field).
    assert (P0 : forall n, psum n 0 = 1) by (induction n as [|n IH]; [reflexivity|cbn [psum]; rewrite IH, pow_ne_zero by discriminate; ring]).
    split.
    + unfold tof_series. rewrite Z, hyp_is by lra. reflexivity.
    + unfold series, T_x. destruct (Req_EM_T x 1); [|contradiction]. rewrite Z0, P0. unfold eta, T_one. rewrite X, Y1.
      replace (((1 - l * 1) ^ 3 * (4 / 3 * 1) + 4 * l * (1 - l * 1)) / 2 - 2 * (1 - l ^ 3) / 3) with 0 by field. rewrite Rabs_R0. left. apply Rinv_0_lt_compat, pow_lt. lra.
  - destruct (series_hyp 99 X) as [B ZB]. split.
    + unfold tof_series. rewrite Z, hyp_is by lra. reflexivity.
    + pose proof (tail_bound (- z) ZB) as T. apply Rle_trans with (1 := B). lra.
Qed.
End window.
