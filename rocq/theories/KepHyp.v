From Coq Require Import Reals Lra Lia ZArith.
From Coquelicot Require Import Coquelicot.
From Verif Require Import SphModel SphSpec SphProofs KepModel KepSpec KepProofs KepNewton.
Open Scope R_scope.

(* ---- hyperbolic functions ---- *)
Lemma exp_neg : forall x, exp (- x) = / exp x.
Proof. exact exp_Ropp. Qed.
Lemma ch_sh : forall x, cosh x ^ 2 - sinh x ^ 2 = 1.
Proof. intros. unfold cosh, sinh. rewrite exp_neg. pose proof (exp_pos x). field. lra. Qed.
Lemma ch_pos : forall x, 0 < cosh x.
Proof. intros. unfold cosh. pose proof (exp_pos x). pose proof (exp_pos (- x)). lra. Qed.
Lemma ch_ge1 : forall x, 1 <= cosh x.
Proof. intros. pose proof (ch_sh x). pose proof (ch_pos x). pose proof (sq_pos (sinh x)). nra. Qed.
Lemma sh_le_ch : forall x, Rabs (sinh x) <= cosh x.
Proof. intros. pose proof (ch_sh x). pose proof (ch_pos x). rewrite <- (pow2_abs (sinh x)) in H. pose proof (Rabs_pos (sinh x)). nra. Qed.
Lemma ch_neg : forall x, cosh (- x) = cosh x.
Proof. intros. unfold cosh. rewrite Ropp_involutive. lra. Qed.
Lemma sh_neg : forall x, sinh (- x) = - sinh x.
Proof. intros. unfold sinh. rewrite Ropp_involutive. lra. Qed.
Lemma ch_2 : forall x, cosh x = 2 * cosh (x / 2) ^ 2 - 1.
Proof.
  intros. unfold cosh. replace (exp x) with (exp (x / 2) * exp (x / 2)) by (rewrite <- exp_plus; f_equal; field).
  replace (exp (- x)) with (exp (- (x / 2)) * exp (- (x / 2))) by (rewrite <- exp_plus; f_equal; field).
  rewrite exp_neg. pose proof (exp_pos (x / 2)). field. lra.
Qed.
Lemma sh_pos : forall x, 0 < x -> 0 < sinh x.
Proof. intros. rewrite <- sinh_0. apply sinh_lt. exact H. Qed.
Lemma sh_nonneg : forall x, 0 <= x -> 0 <= sinh x.
Proof. intros x [H| <-]; [left; apply sh_pos; exact H|rewrite sinh_0; lra]. Qed.
Lemma ch_mono : forall x y, 0 <= x <= y -> cosh x <= cosh y.
Proof.
  intros x y H. assert (sinh x <= sinh y). { destruct (Req_dec x y) as [->|]; [lra|left; apply sinh_lt; lra]. }
  pose proof (ch_sh x). pose proof (ch_sh y). pose proof (ch_pos x). pose proof (ch_pos y). pose proof (sh_nonneg x ltac:(lra)). nra.
Qed.
Lemma ch_shift : forall x t, Rabs t <= 1 -> cosh (x + t) <= 3 * cosh x.
Proof.
  intros x t T. unfold cosh. rewrite Ropp_plus_distr, !exp_plus.
  assert (K : forall u, u <= 1 -> exp u <= 3).
  { intros u U. pose proof exp_le_3. destruct (Req_dec u 1) as [->|]; [lra|]. pose proof (exp_increasing u 1). lra. }
  pose proof (K t). pose proof (K (- t)). pose proof (exp_pos x). pose proof (exp_pos (- x)).
  assert (- 1 <= t <= 1) by (unfold Rabs in T; destruct (Rcase_abs t); lra). nra.
Qed.
(* sinh is convex on [0, oo) *)
Lemma sh_tangent : forall x y, 0 <= x -> 0 <= y -> sinh x + (y - x) * cosh x <= sinh y.
Proof.
  intros x y X Y. destruct (Rtotal_order x y) as [L|[->|L]]; [|lra|].
  - destruct (MVT_cor2 sinh cosh x y L) as (c & E & C); [intros; apply derivable_pt_lim_sinh|].
    pose proof (ch_mono x c ltac:(lra)). nra.
  - destruct (MVT_cor2 sinh cosh y x L) as (c & E & C); [intros; apply derivable_pt_lim_sinh|].
    pose proof (ch_mono c x ltac:(lra)). nra.
Qed.
Lemma sh_ge : forall x, 0 <= x -> x <= sinh x.
Proof. intros x X. pose proof (sh_tangent 0 x ltac:(lra) X). rewrite sinh_0, cosh_0 in H. lra. Qed.
(* the remainder of a Newton step *)
Lemma sh_rem_pos : forall x t, 0 <= t <= 1 -> Rabs (sinh x - sinh (x + t) + t * cosh (x + t)) <= 3 / 2 * cosh x * t ^ 2.
Proof.
  intros x t T.
  assert (A : forall sg, sg = 1 \/ sg = -1 -> 0 <= 3 / 2 * cosh x * t ^ 2 - sg * (sinh x - sinh (x + t) + t * cosh (x + t))).
  { intros sg S. set (f := fun t => 3 / 2 * cosh x * t ^ 2 - sg * (sinh x - sinh (x + t) + t * cosh (x + t))).
    change (0 <= f t). destruct (Req_dec t 0) as [->|N].
    { unfold f. rewrite Rplus_0_r. lra. }
    destruct (MVT_cor2 f (fun t => 3 * cosh x * t - sg * (t * sinh (x + t))) 0 t) as (c & E & C); [lra| |].
    - intros c C. unfold f, sinh, cosh. apply is_derive_Reals. auto_derive; [exact I|]. field.
    - assert (F0 : f 0 = 0) by (unfold f; rewrite Rplus_0_r; ring). rewrite F0 in E.
      pose proof (sh_le_ch (x + c)) as B. pose proof (ch_shift x c ltac:(rewrite Rabs_right; lra)) as D.
      assert (- (3 * cosh x) <= sinh (x + c) <= 3 * cosh x) by (unfold Rabs in B; destruct (Rcase_abs (sinh (x + c))); lra).
      assert (0 <= 3 * cosh x * c - sg * (c * sinh (x + c))) by (destruct S as [-> | ->]; nra). nra. }
  pose proof (A 1 (or_introl eq_refl)). pose proof (A (-1) (or_intror eq_refl)). apply Rabs_le. lra.
Qed.
Lemma sh_rem : forall x t, Rabs t <= 1 -> Rabs (sinh x - sinh (x + t) + t * cosh (x + t)) <= 3 / 2 * cosh x * t ^ 2.
Proof.
  intros x t T. unfold Rabs in T. destruct (Rcase_abs t) as [L|L]; [|apply sh_rem_pos; lra].
  pose proof (sh_rem_pos (- x) (- t) ltac:(lra)) as H. replace (- x + - t) with (- (x + t)) in H by ring.
  rewrite !sh_neg, !ch_neg in H. rewrite <- Rabs_Ropp.
  replace (- (sinh x - sinh (x + t) + t * cosh (x + t))) with (- sinh x - - sinh (x + t) + - t * cosh (x + t)) by ring.
  replace (t ^ 2) with ((- t) ^ 2) by ring. exact H.
Qed.

(* ---- the hyperbolic anomaly ---- *)
Section Hyperbola.
Variable e : R.
Hypothesis e_range : 1 < e.
Lemma roots : 0 < sqrt (e - 1) /\ 0 < sqrt (e + 1) /\ sqrt (e - 1) ^ 2 = e - 1 /\ sqrt (e + 1) ^ 2 = e + 1.
Proof. repeat split; try (apply sqrt_lt_R0; lra); apply sqrt_sq2; lra. Qed.
Lemma arctanh_tanh : forall H, arctanh (sinh H / cosh H) = Some H.
Proof.
  intros H. unfold arctanh. pose proof (ch_sh H) as P. pose proof (ch_pos H) as C.
  assert (L : Rabs (sinh H / cosh H) < 1).
  { unfold Rdiv. rewrite Rabs_mult, Rabs_inv, (Rabs_right (cosh H)) by lra.
    assert (Rabs (sinh H) < cosh H). { rewrite <- (pow2_abs (sinh H)) in P. pose proof (Rabs_pos (sinh H)). nra. }
    apply (Rmult_lt_reg_r (cosh H)); [exact C|]. rewrite Rmult_assoc, Rinv_l by lra. lra. }
  destruct (Rlt_dec (Rabs (sinh H / cosh H)) 1); [|contradiction]. f_equal.
  assert (X : (1 + sinh H / cosh H) / (1 - sinh H / cosh H) = exp (2 * H)).
  { replace (2 * H) with (H + H) by ring. rewrite exp_plus.
    assert (cosh H - sinh H = / exp H) by (unfold cosh, sinh; rewrite exp_neg; pose proof (exp_pos H); field; lra).
    assert (cosh H + sinh H = exp H) by (unfold cosh, sinh; field).
    pose proof (exp_pos H). assert (0 < / exp H) by (apply Rinv_0_lt_compat; assumption).
    transitivity ((cosh H + sinh H) / (cosh H - sinh H)); [field; split; lra|]. rewrite H0, H1. field. lra. }
  rewrite X, ln_exp. field.
Qed.
Lemma tanh_arctanh : forall x H, arctanh x = Some H -> sinh H / cosh H = x.
Proof.
  intros x H E. unfold arctanh in E. destruct (Rlt_dec (Rabs x) 1) as [L|]; [|discriminate]. injection E as <-.
  assert (B : -1 < x < 1) by (unfold Rabs in L; destruct (Rcase_abs x); lra).
  set (l := / 2 * ln ((1 + x) / (1 - x))).
  assert (P : 0 < (1 + x) / (1 - x)) by (apply Rdiv_lt_0_compat; lra).
  assert (X : exp l * exp l = (1 + x) / (1 - x)).
  { rewrite <- exp_plus. replace (l + l) with (ln ((1 + x) / (1 - x))) by (unfold l; field). apply exp_ln, P. }
  unfold sinh, cosh. rewrite exp_neg. pose proof (exp_pos l) as E. set (w := exp l) in *.
  transitivity ((w * w - 1) / (w * w + 1)); [field; split; [nra|lra]|]. rewrite X. field. lra.
Qed.
Lemma half_tan : forall H, sqrt ((e - 1) / (e + 1)) * (sqrt (e + 1) * sinh (H / 2) / (sqrt (e - 1) * cosh (H / 2))) = sinh (H / 2) / cosh (H / 2).
Proof.
  intros H. destruct roots as (A & B & _). pose proof (ch_pos (H / 2)). rewrite sqrt_div_alt by lra. field. repeat split; lra.
Qed.
Lemma nu_H_range : forall H, - PI < hyperbolic_nu e H < PI.
Proof. intros. unfold hyperbolic_nu. pose proof (atan_bound (sqrt (e + 1) * sinh (H / 2) / (sqrt (e - 1) * cosh (H / 2)))). lra. Qed.
Lemma nu_H_pos : forall H, 0 < H -> 0 < hyperbolic_nu e H.
Proof.
  intros H P. unfold hyperbolic_nu. destruct roots as (A & B & _). pose proof (ch_pos (H / 2)). pose proof (sh_pos (H / 2) ltac:(lra)).
  assert (X : 0 < sqrt (e + 1) * sinh (H / 2) / (sqrt (e - 1) * cosh (H / 2))) by (apply Rdiv_lt_0_compat; nra).
  apply atan_increasing in X. rewrite atan_0 in X. lra.
Qed.
Lemma nu_H_nonneg : forall H, 0 <= H -> 0 <= hyperbolic_nu e H.
Proof.
  intros H [P| <-]; [left; apply nu_H_pos; exact P|]. unfold hyperbolic_nu. replace (0 / 2) with 0 by field. rewrite sinh_0.
  rewrite Rmult_0_r. unfold Rdiv. rewrite Rmult_0_l, atan_0. lra.
Qed.
(* the hyperbolic anomaly of a true anomaly obtained from one *)
Lemma H_of_nu_H : forall H, 0 <= H -> hyperbolic_H (hyperbolic_nu e H) e = Some H.
Proof.
  intros H P. pose proof (nu_H_range H) as R. pose proof (nu_H_nonneg H P) as N. unfold hyperbolic_H.
  rewrite wrap_nu_id by (unfold turn; lra).
  assert (C : 0 < cos (hyperbolic_nu e H / 2)) by (apply cos_gt_0; lra).
  destruct (Req_EM_T (cos (hyperbolic_nu e H / 2)) 0); [lra|].
  replace (tan (hyperbolic_nu e H / 2)) with (sqrt (e + 1) * sinh (H / 2) / (sqrt (e - 1) * cosh (H / 2))).
  - rewrite half_tan, arctanh_tanh. cbn [option_map]. f_equal. field.
  - unfold hyperbolic_nu. replace (2 * atan (sqrt (e + 1) * sinh (H / 2) / (sqrt (e - 1) * cosh (H / 2))) / 2)
      with (atan (sqrt (e + 1) * sinh (H / 2) / (sqrt (e - 1) * cosh (H / 2)))) by field. rewrite tan_atan. reflexivity.
Qed.
(* and back *)
Lemma nu_of_H : forall nu H, 0 <= nu < turn -> hyperbolic_H nu e = Some H ->
  (nu < PI /\ 0 <= H /\ hyperbolic_nu e H = nu) \/ (PI < nu /\ H < 0 /\ hyperbolic_nu e H = nu - turn).
Proof.
  intros nu H N E. unfold hyperbolic_H in E. rewrite wrap_nu_id in E by lra. pose proof PI_RGT_0. unfold turn in *.
  destruct (Req_EM_T (cos (nu / 2)) 0) as [|CN]; [discriminate|].
  destruct (arctanh (sqrt ((e - 1) / (e + 1)) * tan (nu / 2))) as [h|] eqn:A; [|discriminate]. cbn in E. injection E as <-.
  apply tanh_arctanh in A. destruct roots as (P & Q & _).
  assert (T : sqrt (e + 1) * sinh (2 * h / 2) / (sqrt (e - 1) * cosh (2 * h / 2)) = tan (nu / 2)).
  { replace (2 * h / 2) with h by field. pose proof (ch_pos h).
    transitivity (sqrt (e + 1) / sqrt (e - 1) * (sinh h / cosh h)); [field; split; lra|].
    rewrite A. rewrite sqrt_div_alt by lra. field. split; lra. }
  assert (V : hyperbolic_nu e (2 * h) = 2 * atan (tan (nu / 2))) by (unfold hyperbolic_nu; rewrite T; reflexivity).
  assert (S : forall x, (0 <= sinh x / cosh x -> 0 <= x) /\ (sinh x / cosh x < 0 -> x < 0)).
  { intros x. pose proof (ch_pos x) as C. assert (I : 0 < / cosh x) by (apply Rinv_0_lt_compat; exact C). unfold Rdiv.
    assert (NS : x < 0 -> sinh x < 0) by (intros L; pose proof (sh_pos (- x) ltac:(lra)) as SP; rewrite sh_neg in SP; lra).
    split; intros K.
    - destruct (Rlt_dec x 0) as [L|L]; [|lra]. specialize (NS L). nra.
    - destruct (Rlt_dec x 0) as [L|L]; [lra|]. pose proof (sh_nonneg x ltac:(lra)). nra. }
  assert (R0 : 0 < sqrt ((e - 1) / (e + 1))) by (apply sqrt_lt_R0, Rdiv_lt_0_compat; lra).
  destruct (Rtotal_order nu PI) as [L|[->|L]].
  - left. split; [exact L|]. rewrite V, atan_tan by lra. split; [|field].
    destruct (S h) as [S1 _]. rewrite A in S1. assert (0 <= tan (nu / 2)).
    { destruct (Req_dec nu 0) as [->|]; [replace (0 / 2) with 0 by field; rewrite tan_0; lra|]. left. apply tan_gt_0; lra. }
    assert (0 <= h) by (apply S1; nra). lra.
  - exfalso. apply CN. apply cos_PI2.
  - right. split; [exact L|]. 
    assert (TN : tan (nu / 2) = tan (nu / 2 - PI)).
    { unfold tan. replace (nu / 2) with ((nu / 2 - PI) + PI) at 1 2 by ring. rewrite neg_sin, neg_cos.
      assert (cos (nu / 2 - PI) <> 0) by (apply Rgt_not_eq, cos_gt_0; lra). field. assumption. }
    rewrite V, TN, atan_tan by lra. split; [|field].
    destruct (S h) as [_ S2]. rewrite A, TN in S2.
    assert (tan (nu / 2 - PI) < 0). { assert (TP : 0 < tan (- (nu / 2 - PI))) by (apply tan_gt_0; lra). rewrite tan_neg in TP. lra. }
    assert (h < 0) by (apply S2; nra). lra.
Qed.
(* true anomalies inside the asymptotes have a hyperbolic anomaly *)
Lemma H_exists : forall nu, 0 <= nu < turn -> on_hyperbola e nu -> exists H, hyperbolic_H nu e = Some H.
Proof.
  intros nu N O. unfold on_hyperbola, hyperbolic_H, arctanh in *. rewrite wrap_nu_id by lra. pose proof PI_RGT_0.
  assert (C2 : cos nu = 2 * cos (nu / 2) ^ 2 - 1) by (replace nu with (2 * (nu / 2)) at 1 by field; rewrite cos_2a_cos; ring).
  destruct (Req_EM_T (cos (nu / 2)) 0) as [Z|Z]; [rewrite C2, Z in O; nra|].
  set (x := sqrt ((e - 1) / (e + 1)) * tan (nu / 2)).
  assert (X : x ^ 2 < 1).
  { unfold x. rewrite Rpow_mult_distr, sqrt_sq2 by (apply Rle_div_r || idtac; try lra; apply Rlt_le, Rdiv_lt_0_compat; lra).
    unfold tan. pose proof (sc (nu / 2)) as SC. assert (CC : 0 < cos (nu / 2) ^ 2) by nra.
    replace ((e - 1) / (e + 1) * (sin (nu / 2) / cos (nu / 2)) ^ 2) with ((e - 1) * (1 - cos (nu / 2) ^ 2) / ((e + 1) * cos (nu / 2) ^ 2)) by (rewrite <- SC; field; split; lra).
    apply (Rmult_lt_reg_r ((e + 1) * cos (nu / 2) ^ 2)); [nra|]. unfold Rdiv. rewrite Rmult_assoc, Rinv_l by nra. nra. }
  assert (L : Rabs x < 1). { rewrite <- (pow2_abs x) in X. pose proof (Rabs_pos x). nra. }
  destruct (Rlt_dec (Rabs x) 1); [|contradiction]. eexists. reflexivity.
Qed.
(* the radius of the returned anomaly *)
Lemma ch_of_nu : forall H, let nu := hyperbolic_nu e H in 0 < 1 + e * cos nu /\ e * cosh H = 1 + (e ^ 2 - 1) / (1 + e * cos nu).
Proof.
  intros H nu. destruct roots as (P & Q & P2 & Q2). pose proof (ch_pos (H / 2)) as C. pose proof (ch_sh (H / 2)) as CS. pose proof (ch_2 H) as C2.
  set (t := sqrt (e + 1) * sinh (H / 2) / (sqrt (e - 1) * cosh (H / 2))).
  assert (N : cos nu = (1 - t ^ 2) / (1 + t ^ 2)).
  { unfold nu, hyperbolic_nu. fold t. rewrite cos_2a_cos, cos_atan. assert (0 < 1 + t ^ 2) by (pose proof (sq_pos t); lra).
    pose proof (sqrt_sq2 (1 + t ^ 2) ltac:(lra)) as S. replace (1 + t²) with (1 + t ^ 2) by (unfold Rsqr; ring).
    assert (0 < sqrt (1 + t ^ 2)) by (apply sqrt_lt_R0; assumption).
    transitivity (2 / sqrt (1 + t ^ 2) ^ 2 - 1); [field; lra|]. rewrite S. field. lra. }
  assert (T : t ^ 2 = (e + 1) * (cosh (H / 2) ^ 2 - 1) / ((e - 1) * cosh (H / 2) ^ 2)).
  { unfold t. transitivity (sqrt (e + 1) ^ 2 * sinh (H / 2) ^ 2 / (sqrt (e - 1) ^ 2 * cosh (H / 2) ^ 2)); [field; split; lra|].
    rewrite P2, Q2. replace (sinh (H / 2) ^ 2) with (cosh (H / 2) ^ 2 - 1) by lra. reflexivity. }
  pose proof (ch_ge1 (H / 2)). assert (K : 1 <= cosh (H / 2) ^ 2) by nra. rewrite C2. set (k := cosh (H / 2) ^ 2) in *.
  assert (D : 1 + e * cos nu = (e ^ 2 - 1) / (e * (2 * k - 1) - 1)).
  { rewrite N, T. field. repeat split; nra. }
  rewrite D. assert (0 < e * (2 * k - 1) - 1) by nra. assert (0 < e ^ 2 - 1) by nra. split; [apply Rdiv_lt_0_compat; assumption|].
  field. split; lra.
Qed.

(* ---- the iteration ---- *)
Lemma slope : forall F, 0 < e * cosh F - 1.
Proof. intros. pose proof (ch_ge1 F). nra. Qed.
Lemma step_sign : forall M F, F - hyperbolic_ratio e M F = (e * (F * cosh F - sinh F) + M) / (e * cosh F - 1).
Proof. intros. unfold hyperbolic_ratio. pose proof (slope F). field. lra. Qed.
Lemma fcosh : forall F, 0 <= F -> 0 <= F * cosh F - sinh F.
Proof. intros F P. pose proof (sh_tangent F 0 P ltac:(lra)) as T. rewrite sinh_0 in T. lra. Qed.
Lemma stays_pos : forall M F, 0 < M -> 0 < F -> 0 < F - hyperbolic_ratio e M F.
Proof. intros M F P Q. rewrite step_sign. pose proof (slope F). pose proof (fcosh F ltac:(lra)). apply Rdiv_lt_0_compat; nra. Qed.
Lemma stays_nonneg : forall M F, 0 <= M -> 0 <= F -> 0 <= F - hyperbolic_ratio e M F.
Proof.
  intros M F P Q. rewrite step_sign. pose proof (slope F). pose proof (fcosh F ltac:(lra)).
  unfold Rdiv. apply Rmult_le_pos; [nra|]. left. apply Rinv_0_lt_compat. assumption.
Qed.
Lemma loop_pos : forall M max_iter tol, 0 < M -> 0 < fst (kepler_loop e M max_iter tol).
Proof.
  intros. unfold kepler_loop. destruct (Rlt_dec e 1); [lra|].
  apply (newton_inv (fun F => 0 < F)); [intros; apply stays_pos; assumption|assumption].
Qed.
Lemma loop_nonneg : forall M max_iter tol, 0 <= M -> 0 <= fst (kepler_loop e M max_iter tol).
Proof.
  intros. unfold kepler_loop. destruct (Rlt_dec e 1); [lra|].
  apply (newton_inv (fun F => 0 <= F)); [intros; apply stays_nonneg; assumption|assumption].
Qed.
Lemma solve_is : forall M max_iter tol, 0 <= M ->
  solve_kepler e M max_iter tol = hyperbolic_nu e (fst (kepler_loop e M max_iter tol)).
Proof.
  intros M n tol P. unfold solve_kepler. destruct (Rlt_dec e 1); [lra|]. destruct (Rlt_dec 1 e); [|lra].
  set (F := fst (kepler_loop e M n tol)). assert (0 <= F) by (apply loop_nonneg; exact P).
  pose proof (nu_H_range F). pose proof (nu_H_nonneg F ltac:(lra)). pose proof PI_RGT_0. unfold normalise, turn.
  destruct (Rlt_dec (hyperbolic_nu e F) 0); [lra|]. destruct (Rle_dec (2 * PI) (hyperbolic_nu e F)); lra.
Qed.
Lemma mean_nonneg : forall H, 0 <= H -> 0 <= e * sinh H - H.
Proof. intros H P. pose proof (sh_ge H P). nra. Qed.
Lemma hyper_converged : forall M max_iter tol, 0 <= tol <= 1 -> converged e M max_iter tol ->
  let F := fst (kepler_loop e M max_iter tol) in Rabs (e * sinh F - F - M) <= 3 / 2 * (e * cosh F) * tol ^ 2.
Proof.
  intros M n tol T C. unfold converged, kepler_loop in *. destruct (Rlt_dec e 1); [lra|].
  destruct (newton (hyperbolic_ratio e M) tol (S n) M (10 ^ 15)) as [F q] eqn:X. cbn [fst snd] in *.
  assert (T15 : tol < 10 ^ 15) by (assert (1 < 10 ^ 15) by (cbn; lra); lra).
  destruct (newton_last _ _ _ _ _ _ _ X C (start_pos tol T15)) as (Fp & Q & ->).
  pose proof (slope Fp) as SL.
  assert (QE : q * (e * cosh Fp - 1) = e * sinh Fp - Fp - M) by (rewrite Q; unfold hyperbolic_ratio; field; lra).
  replace (e * sinh (Fp - q) - (Fp - q) - M) with (e * (sinh (Fp - q) - sinh (Fp - q + q) + q * cosh (Fp - q + q))).
  - rewrite Rabs_mult, (Rabs_right e) by lra. pose proof (sh_rem (Fp - q) q ltac:(lra)) as S.
    assert (q ^ 2 <= tol ^ 2). { rewrite <- (pow2_abs q). pose proof (Rabs_pos q). nra. }
    pose proof (ch_pos (Fp - q)). eapply Rle_trans; [apply Rmult_le_compat_l; [lra|exact S]|].
    replace (3 / 2 * (e * cosh (Fp - q)) * tol ^ 2) with (e * (3 / 2 * cosh (Fp - q) * tol ^ 2)) by ring.
    apply Rmult_le_compat_l; [lra|]. apply Rmult_le_compat_l; [nra|assumption].
  - replace (Fp - q + q) with Fp by ring. replace (e * sinh (Fp - q) - (Fp - q) - M) with (e * sinh (Fp - q) - e * sinh Fp + q + (e * sinh Fp - Fp - M)) by ring.
    rewrite <- QE. ring.
Qed.
(* every step from a non-negative anomaly lands above the solution *)
Lemma above : forall M H F, 0 <= H -> e * sinh H - H = M -> 0 <= F -> H <= F - hyperbolic_ratio e M F.
Proof.
  intros M H F P E Q. rewrite step_sign. pose proof (slope F) as SL. pose proof (sh_tangent F H Q P) as T.
  apply (Rmult_le_reg_r (e * cosh F - 1)); [exact SL|]. unfold Rdiv. rewrite Rmult_assoc, Rinv_l by lra. rewrite <- E. nra.
Qed.
Lemma ratio_nonneg : forall M H F, 0 <= H -> e * sinh H - H = M -> H <= F -> 0 <= hyperbolic_ratio e M F.
Proof.
  intros M H F P E Q. unfold hyperbolic_ratio. pose proof (slope F). unfold Rdiv. apply Rmult_le_pos.
  - pose proof (sh_tangent H F P ltac:(lra)) as T. pose proof (ch_ge1 H). rewrite <- E.
    assert (F - H <= sinh F - sinh H) by nra. assert (F - H <= e * (sinh F - sinh H)) by nra. lra.
  - left. apply Rinv_0_lt_compat. assumption.
Qed.
Lemma newton_stop : forall ratio tol fuel E q, Rabs q <= tol -> newton ratio tol fuel E q = (E, q).
Proof. intros. destruct fuel; cbn [newton]; [reflexivity|]. destruct (Rlt_dec tol (Rabs q)); [lra|reflexivity]. Qed.
Lemma descends : forall M H tol, 0 <= H -> e * sinh H - H = M -> forall n F q, H <= F -> F - H < INR n * tol ->
  Rabs (snd (newton (hyperbolic_ratio e M) tol n F q)) <= tol.
Proof.
  intros M H tol P E n. induction n as [|n IH]; intros F q G B; [cbn in B; lra|].
  destruct (Rlt_dec tol (Rabs q)) as [L|L]; [|rewrite newton_stop by lra; cbn; lra].
  cbn [newton]. destruct (Rlt_dec tol (Rabs q)); [|lra].
  pose proof (ratio_nonneg M H F P E G) as RN. pose proof (above M H F P E ltac:(lra)) as AB.
  destruct (Rle_dec (Rabs (hyperbolic_ratio e M F)) tol) as [S|S]; [rewrite newton_stop by exact S; exact S|].
  apply IH; [exact AB|]. rewrite Rabs_right in S by lra. rewrite S_INR in B. lra.
Qed.
Lemma hyper_converges : forall H tol, 0 <= H -> 0 < tol ->
  exists N, forall n, (N <= n)%nat -> converged e (e * sinh H - H) n tol.
Proof.
  intros H tol P T. set (M := e * sinh H - H). assert (0 <= M) by (apply mean_nonneg; exact P).
  set (F := M - hyperbolic_ratio e M M).
  assert (HN : exists N, (F - H) / tol < INR N).
  { exists (Z.to_nat (Rdefinitions.up ((F - H) / tol))). destruct (archimed ((F - H) / tol)) as [U _].
    destruct (Z_le_dec 0 (Rdefinitions.up ((F - H) / tol))) as [Z|Z].
    - rewrite INR_IZR_INZ, Z2Nat.id by exact Z. exact U.
    - rewrite INR_IZR_INZ. assert (IZR (Rdefinitions.up ((F - H) / tol)) <= IZR (Z.of_nat (Z.to_nat (Rdefinitions.up ((F - H) / tol))))) by (apply IZR_le; lia). lra. }
  destruct HN as [N HN]. exists N. intros n L.
  unfold converged, kepler_loop. destruct (Rlt_dec e 1); [lra|]. cbn [newton].
  destruct (Rlt_dec tol (Rabs (10 ^ 15))) as [L1|L1]; [|cbn [snd]; lra].
  apply (descends M H tol P eq_refl); [apply above; [exact P|reflexivity|assumption]|]. fold F.
  apply (Rmult_lt_reg_r (/ tol)); [apply Rinv_0_lt_compat; lra|]. rewrite Rmult_assoc, Rinv_r, Rmult_1_r by lra.
  apply le_INR in L. unfold Rdiv in HN. lra.
Qed.
End Hyperbola.

(* ---- parabolas ---- *)
Lemma barker_solved : forall M, - PI < solve_barker M < PI /\ barker (solve_barker M) = 2 * M.
Proof.
  intros M. unfold solve_barker, barker. set (w := sqrt ((3 * M) ^ 2 + 1)).
  assert (W : w ^ 2 = (3 * M) ^ 2 + 1) by (apply sqrt_sq2; pose proof (sq_pos (3 * M)); lra).
  assert (W0 : 0 < w) by (apply sqrt_lt_R0; pose proof (sq_pos (3 * M)); lra).
  set (b := 3 * M + w). assert (B : 0 < b). { unfold b. destruct (Rle_dec 0 M); [lra|]. nra. }
  set (z := Rpower b (1 / 3)). assert (Z : 0 < z) by apply exp_pos.
  assert (Z3 : z ^ 3 = b).
  { unfold z. rewrite <- Rpower_pow by apply exp_pos. rewrite Rpower_mult. replace (1 / 3 * INR 3) with 1 by (cbn; field). apply Rpower_1. exact B. }
  assert (ZI : Rpower b (- 1 / 3) = / z) by (unfold z; rewrite <- Rpower_Ropp; f_equal; field). rewrite ZI.
  set (D := z - / z). pose proof (atan_bound D). split; [lra|].
  replace (2 * atan D / 2) with (atan D) by field. rewrite tan_atan.
  assert (C : D ^ 3 + 3 * D = z ^ 3 - / z ^ 3) by (unfold D; field; lra).
  assert (BI : / b = w - 3 * M) by (apply (Rmult_eq_reg_l b); [rewrite Rinv_r by lra; unfold b; ring_simplify; lra|lra]).
  rewrite Z3, BI in C. unfold b in C. lra.
Qed.
Lemma parabolic_M_bound : forall nu, 0 <= nu < turn -> 0 <= parabolic_M nu < 5.
Proof.
  intros nu N. unfold parabolic_M. rewrite wrap_nu_id by lra. set (D := atan (nu / 2)).
  assert (D0 : 0 <= D). { unfold D. destruct (Req_dec nu 0) as [->|]; [replace (0 / 2) with 0 by field; rewrite atan_0; lra|]. left. rewrite <- atan_0. apply atan_increasing. lra. }
  assert (D1 : D < 2) by (unfold D; pose proof (atan_bound (nu / 2)); pose proof PI_4; lra).
  unfold wrap_M. assert (0 <= D ^ 3) by (apply pow_le; exact D0). assert (D ^ 3 <= 2 ^ 3) by (apply pow_incr; lra).
  destruct (Rlt_dec (D + D ^ 3 / 3) 0); lra.
Qed.
