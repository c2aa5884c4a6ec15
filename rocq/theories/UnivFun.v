(* The universal functions: relations, derivatives and their link to the Stumpff functions. *)
From Coq Require Import Reals Lra Psatz.
From Coquelicot Require Import Coquelicot.
From Verif Require Import SphModel KepModel KepHyp UnivModel.
Open Scope R_scope.

Definition u0 (a x : R) : R :=
  if Rlt_dec 0 a then cos (sqrt a * x) else if Rlt_dec a 0 then cosh (sqrt (- a) * x) else 1.
Definition u1 (a x : R) : R :=
  if Rlt_dec 0 a then sin (sqrt a * x) / sqrt a else if Rlt_dec a 0 then sinh (sqrt (- a) * x) / sqrt (- a) else x.
Definition u2 (a x : R) : R :=
  if Rlt_dec 0 a then (1 - cos (sqrt a * x)) / a else if Rlt_dec a 0 then (1 - cosh (sqrt (- a) * x)) / a else x ^ 2 / 2.
Definition u3 (a x : R) : R :=
  if Rlt_dec 0 a then (x - sin (sqrt a * x) / sqrt a) / a
  else if Rlt_dec a 0 then (x - sinh (sqrt (- a) * x) / sqrt (- a)) / a else x ^ 3 / 6.

Ltac cases a := destruct (Rlt_dec 0 a) as [Hp|Hp];
  [pose proof (sqrt_lt_R0 a Hp) as Hw; pose proof (sqrt_sqrt a ltac:(lra)) as Hq
  |destruct (Rlt_dec a 0) as [Hn|Hn];
    [pose proof (sqrt_lt_R0 (- a) ltac:(lra)) as Hw; pose proof (sqrt_sqrt (- a) ltac:(lra)) as Hq
    |assert (Hz : a = 0) by lra]].

Lemma u0_0 : forall a, u0 a 0 = 1.
Proof. intro a. unfold u0. cases a; rewrite ?Rmult_0_r, ?cos_0, ?cosh_0; reflexivity. Qed.
Lemma u1_0 : forall a, u1 a 0 = 0.
Proof. intro a. unfold u1. cases a; rewrite ?Rmult_0_r, ?sin_0, ?sinh_0; try reflexivity; field; lra. Qed.
Lemma u2_0 : forall a, u2 a 0 = 0.
Proof. intro a. unfold u2. cases a; rewrite ?Rmult_0_r, ?cos_0, ?cosh_0; field; lra. Qed.
Lemma u3_0 : forall a, u3 a 0 = 0.
Proof. intro a. unfold u3. cases a; rewrite ?Rmult_0_r, ?sin_0, ?sinh_0; field; lra. Qed.

Lemma u0_u2 : forall a x, u0 a x = 1 - a * u2 a x.
Proof. intros a x. unfold u0, u2. cases a; [field; lra|field; lra|rewrite Hz; ring]. Qed.
Lemma u1_u3 : forall a x, u1 a x = x - a * u3 a x.
Proof. intros a x. unfold u1, u3. cases a; [field; lra|field; lra|rewrite Hz; ring]. Qed.
Lemma u1_sq : forall a x, u1 a x ^ 2 = u2 a x * (2 - a * u2 a x).
Proof.
  intros a x. unfold u1, u2. cases a.
  - pose proof (sin2_cos2 (sqrt a * x)) as T. unfold Rsqr in T.
    replace ((sin (sqrt a * x) / sqrt a) ^ 2) with (sin (sqrt a * x) * sin (sqrt a * x) / (sqrt a * sqrt a)) by (field; lra).
    rewrite Hq. replace (sin (sqrt a * x) * sin (sqrt a * x)) with (1 - cos (sqrt a * x) * cos (sqrt a * x)) by lra. field; lra.
  - pose proof (ch_sh (sqrt (- a) * x)) as T.
    replace ((sinh (sqrt (- a) * x) / sqrt (- a)) ^ 2) with (sinh (sqrt (- a) * x) ^ 2 / (sqrt (- a) * sqrt (- a))) by (field; lra).
    rewrite Hq. replace (sinh (sqrt (- a) * x) ^ 2) with (cosh (sqrt (- a) * x) ^ 2 - 1) by lra. field; lra.
  - rewrite Hz. field.
Qed.
Lemma u2_nonneg : forall a x, 0 <= u2 a x.
Proof.
  intros a x. unfold u2. cases a.
  - apply Rmult_le_pos; [pose proof (COS_bound (sqrt a * x)); lra|left; apply Rinv_0_lt_compat; lra].
  - pose proof (ch_ge1 (sqrt (- a) * x)) as T.
    replace ((1 - cosh (sqrt (- a) * x)) / a) with ((cosh (sqrt (- a) * x) - 1) / (- a)) by (field; lra).
    apply Rmult_le_pos; [lra|left; apply Rinv_0_lt_compat; lra].
  - nra.
Qed.

Lemma d_cosh : forall x, is_derive cosh x (sinh x).
Proof. intro x. apply is_derive_Reals. apply derivable_pt_lim_cosh. Qed.
Lemma d_sinh : forall x, is_derive sinh x (cosh x).
Proof. intro x. apply is_derive_Reals. apply derivable_pt_lim_sinh. Qed.
Lemma d_ch : forall w x, is_derive (fun x => cosh (w * x)) x (w * sinh (w * x)).
Proof. intros w x. unfold cosh, sinh. auto_derive; [exact I|]. field. Qed.
Lemma d_sh : forall w x, is_derive (fun x => sinh (w * x)) x (w * cosh (w * x)).
Proof. intros w x. unfold cosh, sinh. auto_derive; [exact I|]. field. Qed.

(* derivative rules over plain reals *)
Lemma d_const : forall c x, is_derive (fun _ : R => c) x 0.
Proof. intros c x. apply is_derive_Reals. apply derivable_pt_lim_const. Qed.
Lemma d_id : forall x, is_derive (fun y : R => y) x 1.
Proof. intro x. apply is_derive_Reals. apply derivable_pt_lim_id. Qed.
Lemma d_plus : forall (f g : R -> R) x l m, is_derive f x l -> is_derive g x m -> is_derive (fun y => f y + g y) x (l + m).
Proof. intros f g x l m A B. apply is_derive_Reals. apply derivable_pt_lim_plus; apply is_derive_Reals; assumption. Qed.
Lemma d_minus : forall (f g : R -> R) x l m, is_derive f x l -> is_derive g x m -> is_derive (fun y => f y - g y) x (l - m).
Proof. intros f g x l m A B. apply is_derive_Reals. apply derivable_pt_lim_minus; apply is_derive_Reals; assumption. Qed.
Lemma d_mult : forall (f g : R -> R) x l m, is_derive f x l -> is_derive g x m -> is_derive (fun y => f y * g y) x (l * g x + f x * m).
Proof. intros f g x l m A B. apply is_derive_Reals. apply derivable_pt_lim_mult; apply is_derive_Reals; assumption. Qed.
Lemma d_scal : forall k (f : R -> R) x l, is_derive f x l -> is_derive (fun y => k * f y) x (k * l).
Proof. intros k f x l A. apply is_derive_Reals. apply (derivable_pt_lim_scal f k x l). apply is_derive_Reals; assumption. Qed.
Lemma d_div : forall (f g : R -> R) x l m, g x <> 0 -> is_derive f x l -> is_derive g x m -> is_derive (fun y => f y / g y) x ((l * g x - m * f x) / (g x) ^ 2).
Proof.
  intros f g x l m N A B. apply is_derive_Reals. replace ((g x) ^ 2) with (Rsqr (g x)) by (unfold Rsqr; ring).
  apply derivable_pt_lim_div; [apply is_derive_Reals; assumption|apply is_derive_Reals; assumption|exact N].
Qed.
Lemma d_comp : forall (f g : R -> R) x l m, is_derive f x l -> is_derive g (f x) m -> is_derive (fun y => g (f y)) x (m * l).
Proof. intros f g x l m A B. apply is_derive_Reals. apply (derivable_pt_lim_comp f g x l m); apply is_derive_Reals; assumption. Qed.
Lemma d_eq : forall (f : R -> R) (x l l' : R), is_derive f x l -> l = l' -> is_derive f x l'.
Proof. intros f x l l' A <-. exact A. Qed.
Lemma d_ext : forall (f g : R -> R) (x l l' : R), (forall y, f y = g y) -> l = l' -> is_derive f x l -> is_derive g x l'.
Proof. intros f g x l l' E <- D. apply (is_derive_ext f); [exact E|exact D]. Qed.

Lemma d_u3 : forall a x, is_derive (u3 a) x (u2 a x).
Proof.
  intros a x. unfold u3, u2. cases a.
  - auto_derive; [lra|]. field. lra.
  - unfold sinh, cosh. auto_derive; [lra|]. field. lra.
  - auto_derive; [exact I|]. field.
Qed.
Lemma d_u2 : forall a x, is_derive (u2 a) x (u1 a x).
Proof.
  intros a x. unfold u2, u1. cases a.
  - auto_derive; [exact I|]. replace (/ a) with (/ (sqrt a * sqrt a)) by (rewrite Hq; reflexivity). field. lra.
  - unfold sinh, cosh. auto_derive; [exact I|]. replace (/ a) with (/ (- (sqrt (- a) * sqrt (- a)))) by (rewrite Hq, Ropp_involutive; reflexivity). field. lra.
  - auto_derive; [exact I|]. field.
Qed.
Lemma d_u1 : forall a x, is_derive (u1 a) x (u0 a x).
Proof.
  intros a x. unfold u1, u0. cases a.
  - auto_derive; [lra|]. field. lra.
  - unfold sinh, cosh. auto_derive; [lra|]. field. lra.
  - auto_derive; [exact I|]. reflexivity.
Qed.
Lemma d_u0 : forall a x, is_derive (u0 a) x (- a * u1 a x).
Proof.
  intros a x. apply (d_ext (fun y => 1 - a * u2 a y) _ x (- a * u1 a x)); [intro y; symmetry; apply u0_u2|reflexivity|].
  refine (d_eq _ _ _ _ (d_minus _ _ _ _ _ (d_const 1 x) (d_scal a _ _ _ (d_u2 a x))) _). ring.
Qed.

(* half arguments *)
Lemma u2_half : forall a x, u2 a x = 2 * u1 a (x / 2) ^ 2.
Proof.
  intros a x. unfold u1, u2. cases a.
  - replace (sqrt a * x) with (2 * (sqrt a * (x / 2))) by field. rewrite cos_2a_sin.
    replace (2 * (sin (sqrt a * (x / 2)) / sqrt a) ^ 2) with (2 * sin (sqrt a * (x / 2)) * sin (sqrt a * (x / 2)) / (sqrt a * sqrt a)) by (field; lra).
    rewrite Hq. field. lra.
  - assert (T : cosh (sqrt (- a) * x) = 1 + 2 * sinh (sqrt (- a) * (x / 2)) ^ 2).
    { unfold cosh, sinh. replace (sqrt (- a) * x) with (sqrt (- a) * (x / 2) + sqrt (- a) * (x / 2)) by field.
      rewrite Ropp_plus_distr, !exp_plus.
      assert (P : exp (sqrt (- a) * (x / 2)) * exp (- (sqrt (- a) * (x / 2))) = 1) by (rewrite <- exp_plus, Rplus_opp_r; apply exp_0).
      nra. }
    rewrite T. replace (2 * (sinh (sqrt (- a) * (x / 2)) / sqrt (- a)) ^ 2) with (2 * sinh (sqrt (- a) * (x / 2)) ^ 2 / (sqrt (- a) * sqrt (- a))) by (field; lra).
    rewrite Hq. field. lra.
  - field.
Qed.
Lemma u1_half : forall a x, u1 a x = 2 * u1 a (x / 2) * u0 a (x / 2).
Proof.
  intros a x. unfold u1, u0. cases a.
  - replace (sqrt a * x) with (2 * (sqrt a * (x / 2))) by field. rewrite sin_2a. field. lra.
  - assert (T : sinh (sqrt (- a) * x) = 2 * sinh (sqrt (- a) * (x / 2)) * cosh (sqrt (- a) * (x / 2))).
    { unfold cosh, sinh. replace (sqrt (- a) * x) with (sqrt (- a) * (x / 2) + sqrt (- a) * (x / 2)) by field.
      rewrite Ropp_plus_distr, !exp_plus. field. }
    rewrite T. field. lra.
  - field.
Qed.

(* the Stumpff values the program computes *)
Lemma sqrt_scaled : forall a x, 0 < a -> sqrt (a * x ^ 2) = sqrt a * Rabs x.
Proof. intros a x Ha. rewrite sqrt_mult by nra. rewrite <- (sqrt_Rsqr_abs x). unfold Rsqr. do 2 f_equal. ring. Qed.
Lemma stumpff_u : forall a x c, calc_stumpff (a * x ^ 2) = Some c ->
  x ^ 2 * s_2 c = u2 a x /\ x ^ 3 * s_3 c = u3 a x.
Proof.
  intros a x c H. destruct (Req_dec x 0) as [E|N].
  - subst x. rewrite u2_0, u3_0. split; ring.
  - assert (X : 0 < x ^ 2) by nra. revert H. unfold calc_stumpff, u2, u3. cases a.
    + destruct (Rlt_dec 0 (a * x ^ 2)) as [_|B]; [|exfalso; apply B; nra].
      intro H. assert (E : c = from_c01 (a * x ^ 2) (cos (sqrt (a * x ^ 2))) (sin (sqrt (a * x ^ 2)) / sqrt (a * x ^ 2))) by congruence.
      rewrite E. unfold from_c01. cbn [s_2 s_3]. rewrite sqrt_scaled by lra.
      unfold Rabs. destruct (Rcase_abs x) as [L|L].
      * replace (sqrt a * - x) with (- (sqrt a * x)) by ring. rewrite cos_neg, sin_neg. split; field; repeat split; lra.
      * split; field; repeat split; lra.
    + destruct (Rlt_dec 0 (a * x ^ 2)) as [B|_]; [exfalso; nra|].
      destruct (Rlt_dec (a * x ^ 2) 0) as [_|B]; [|exfalso; apply B; nra].
      replace (- (a * x ^ 2)) with (- a * x ^ 2) by ring. rewrite sqrt_scaled by lra.
      destruct (Rlt_dec _ overflow) as [_|_]; [|discriminate]. intro H.
      assert (E : c = from_c01 (a * x ^ 2) (cosh (sqrt (- a) * Rabs x)) (sinh (sqrt (- a) * Rabs x) / (sqrt (- a) * Rabs x))) by congruence.
      rewrite E. unfold from_c01. cbn [s_2 s_3].
      unfold Rabs. destruct (Rcase_abs x) as [L|L].
      * replace (sqrt (- a) * - x) with (- (sqrt (- a) * x)) by ring.
        assert (C1 : forall y, cosh (- y) = cosh y) by (intro y; unfold cosh; rewrite Ropp_involutive; field).
        assert (C2 : forall y, sinh (- y) = - sinh y) by (intro y; unfold sinh; rewrite Ropp_involutive; field).
        rewrite C1, C2. split; field; repeat split; lra.
      * split; field; repeat split; lra.
    + rewrite Hz, Rmult_0_l. destruct (Rlt_dec 0 0) as [B|_]; [lra|]. intro H.
      assert (E : c = mkc 1 1 (1 / 2) (1 / 6) (1 / 24) (1 / 120)) by congruence.
      rewrite E. cbn [s_2 s_3]. split; field.
Qed.
