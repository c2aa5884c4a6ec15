(* Claims C291-C294: one iteration of the least-squares corrector. *)
From Coq Require Import Reals List Bool Lia Lra Permutation.
From Verif Require Import LsqModel LsqSpec LsqProofs.
Import ListNotations.
Open Scope R_scope.

(* ---------------------------------------------------------------- C291 ---- *)
(* the perturbation of a parameter is never zero, and is the given fraction of the parameter unless that is tiny *)
Theorem C291 : forall delta base i, delta <> 0 ->
  step_size delta base i <> 0
  /\ (/ 10 ^ 20 <= Rabs (base i * delta) -> step_size delta base i = base i * delta)
  /\ (base i = 0 -> (i < 3)%nat -> step_size delta base i = delta)
  /\ (base i = 0 -> (3 <= i)%nat -> step_size delta base i = delta / 100).
Proof.
  intros delta base i D. split; [apply step_nonzero; exact D|].
  assert (Z : base i = 0 -> Rabs (base i * delta) < / 10 ^ 20).
  { intros ->. rewrite Rmult_0_l, Rabs_R0. apply Rinv_0_lt_compat. apply pow_lt. lra. }
  unfold step_size. destruct (Rlt_dec (Rabs (base i * delta)) (/ 10 ^ 20)) as [H|H].
  - split; [intros X; lra|]. split; intros _ Hi.
    + apply Nat.ltb_lt in Hi. rewrite Hi. ring.
    + apply Nat.ltb_ge in Hi. rewrite Hi. unfold Rdiv. ring.
  - split; [reflexivity|]. split; intros Z0; exfalso; apply H; apply Z; exact Z0.
Qed.
Print Assumptions C291.
Example C291_case : step_size (/ 1000) (fun i => if Nat.eqb i 0 then 2 else 0) 0 = 2 / 1000 /\ step_size (/ 1000) (fun i => if Nat.eqb i 0 then 2 else 0) 4 = / 100000.
Proof.
  assert (D : / 1000 <> 0) by lra. split.
  - destruct (C291 (/ 1000) (fun i => if Nat.eqb i 0 then 2 else 0) 0 D) as (_ & H & _). rewrite H. cbn. lra.
    cbn [Nat.eqb]. rewrite Rabs_right by lra. apply Rle_trans with (/ 10 ^ 3); [apply Rinv_le_contravar; [apply pow_lt; lra|apply Rle_pow; [lra|lia]]|lra].
  - destruct (C291 (/ 1000) (fun i => if Nat.eqb i 0 then 2 else 0) 4 D) as (_ & _ & _ & H). rewrite H; [lra|reflexivity|lia].
Qed.

(* ---------------------------------------------------------------- C292 ---- *)
(* a sky linear in the state: one-sided and central differences are the derivatives, for every state and every step *)
Theorem C292 : forall Obs Sky (ephem : vec -> Obs -> Sky) resid observed J, linear_sky ephem resid observed J ->
  forall central delta base o i, delta <> 0 -> (i < 6)%nat -> partials ephem resid central delta base o i = J o i.
Proof. intros Obs Sky ephem resid observed J L central delta base o i D Hi. exact (partials_exact ephem resid observed J L central delta base o i D Hi). Qed.
Print Assumptions C292.

(* ---------------------------------------------------------------- C293 ---- *)
Section Step.
  Context {Obs Sky : Type} (ephem : vec -> Obs -> Sky) (resid : Sky -> Sky -> R * R) (observed : Obs -> Sky) (weight : Obs -> R * R).
  Context (inv : (nat -> nat -> R) -> nat -> nat -> R) (J : Obs -> nat -> R * R).
  Hypothesis LS : linear_sky ephem resid observed J.
  Hypothesis W : forall o, 0 <= fst (weight o) /\ 0 <= snd (weight o).
  Variables (central : bool) (delta : R) (l : list Obs) (base : vec).
  Hypothesis D : delta <> 0.
  (* the inverse is right for the information of the observations, which determine the state *)
  Hypothesis INV : forall M, (forall i j, (i < 6)%nat -> (j < 6)%nat -> M i j = information weight J l i j) -> inverse6 M (inv M).

  Let A := fun o i => partials ephem resid central delta base o i.
  Let x' := fst (iterate ephem resid observed weight inv central delta l base).
  Let P := snd (iterate ephem resid observed weight inv central delta l base).

  Lemma A_J o i : (i < 6)%nat -> A o i = J o i.
  Proof. intros Hi. exact (partials_exact ephem resid observed J LS central delta base o i D Hi). Qed.

  Lemma P_inverse : inverse6 (information weight J l) P.
  Proof.
    assert (X : forall M N Q, (forall i j, (i < 6)%nat -> (j < 6)%nat -> M i j = N i j) -> inverse6 M Q -> inverse6 N Q).
    { intros M N Q E H i j Hi Hj. rewrite <- H by auto. apply along_ext; auto. intros k Hk. symmetry. auto. }
    apply (X (atwa weight A l)).
    - intros i j Hi Hj. apply atwa_info; auto. exact A_J.
    - apply INV. intros i j Hi Hj. apply atwa_info; auto. exact A_J.
  Qed.

  Lemma normal i : (i < 6)%nat -> along (information weight J l i) (fun k => x' k - base k) = rhs weight J (residuals ephem resid observed base) l i.
  Proof.
    intros Hi. set (v := rhs weight J (residuals ephem resid observed base) l).
    assert (E : forall k, (k < 6)%nat -> x' k - base k = along (P k) v).
    { intros k Hk. unfold x', iterate. cbn [fst]. unfold update_orbit, corrections. fold A.
      replace (sum6 _) with (along (P k) v); [ring|]. unfold P, iterate. cbn [snd]. fold A. rewrite <- sum6_along.
      assert (V : forall j, (j < 6)%nat -> v j = atwb weight A (residuals ephem resid observed base) l j).
      { intros j Hj. unfold v, rhs, atwb. apply rsum_ext. intros o. rewrite (A_J o j Hj). reflexivity. }
      unfold sum6. rewrite !V by lia. reflexivity. }
    rewrite (along_ext _ (information weight J l i) _ (fun k => along (P k) v)); auto.
    rewrite <- along_swap. rewrite (along_ext _ (fun j => if Nat.eqb i j then 1 else 0) _ v); auto.
    - apply along_unit. exact Hi.
    - intros j Hj. apply P_inverse; auto.
  Qed.

  Lemma cost y : S weight (residuals ephem resid observed y) l
    = S weight (residuals ephem resid observed x') l + S weight (fun o => (along (fun i => fst (J o i)) (fun i => y i - x' i), along (fun i => snd (J o i)) (fun i => y i - x' i))) l.
  Proof.
    set (b := residuals ephem resid observed base).
    assert (R0 : forall z o, residuals ephem resid observed z o = after J b (fun i => z i - base i) o).
    { intros z o. unfold residuals, after, b. destruct LS as [_ L]. exact (L z base o). }
    assert (Sx : forall f g : Obs -> R * R, (forall o, f o = g o) -> S weight f l = S weight g l).
    { intros f g E. apply rsum_ext. intros o. rewrite E. reflexivity. }
    rewrite (Sx _ _ (R0 y)), (Sx _ _ (R0 x')).
    rewrite (Sx (after J b (fun i => y i - base i)) (after J b (fun i => (x' i - base i) + (y i - x' i)))).
    - rewrite (S_split weight J b (fun i => x' i - base i) (fun i => y i - x' i) l), (cross_zero weight J b (fun i => x' i - base i) l normal). ring.
    - intros o. unfold after. f_equal; f_equal; apply along_ext; auto; intros; ring.
  Qed.

  Lemma rms_S b : rms weight l b = sqrt (S weight b l / (INR (length l) * 2)).
  Proof. reflexivity. Qed.

  (* no state has a smaller RMS than the updated one *)
  Theorem C293 : forall y, rms weight l (residuals ephem resid observed x') <= rms weight l (residuals ephem resid observed y).
  Proof.
    intros y. rewrite !rms_S, (cost y). set (q := S weight (fun o => _) l). assert (Q : 0 <= q) by (apply S_nonneg; exact W).
    apply sqrt_le_1_alt. destruct (Nat.eq_dec (length l) 0) as [E|E].
    - assert (Z : q = 0) by (unfold q, S; apply length_zero_iff_nil in E; rewrite E; reflexivity). rewrite Z, Rplus_0_r. lra.
    - unfold Rdiv. apply Rmult_le_compat_r; [|lra]. apply Rlt_le, Rinv_0_lt_compat. apply Rmult_lt_0_compat; [|lra]. apply lt_0_INR. lia.
  Qed.

  (* and only the updated one has it; the covariance reported is the inverse of the information of the observations, and symmetric *)
  Theorem C293_unique : (forall y, rms weight l (residuals ephem resid observed y) <= rms weight l (residuals ephem resid observed x') -> forall i, (i < 6)%nat -> y i = x' i)
    /\ inverse6 (information weight J l) P /\ forall i j, (i < 6)%nat -> (j < 6)%nat -> P i j = P j i.
  Proof.
    split; [|split; [exact P_inverse|]].
    2:{ intros i j. apply inverse_sym with (information weight J l); [apply info_sym|exact P_inverse]. }
    intros y H i Hi. rewrite !rms_S, (cost y) in H. set (q := S weight (fun o => _) l) in *. assert (Q : 0 <= q) by (apply S_nonneg; exact W).
    assert (Z : q = 0).
    { destruct (Nat.eq_dec (length l) 0) as [E|E].
      - unfold q, S. apply length_zero_iff_nil in E. rewrite E. reflexivity.
      - assert (N : 0 < INR (length l) * 2) by (apply Rmult_lt_0_compat; [apply lt_0_INR; lia|lra]).
        set (s := S weight (residuals ephem resid observed x') l) in *. assert (Sp : 0 <= s) by (apply S_nonneg; exact W).
        apply sqrt_le_0 in H.
        + apply Rmult_le_reg_r in H; [lra|]. apply Rinv_0_lt_compat. exact N.
        + apply Rmult_le_pos; [lra|]. apply Rlt_le, Rinv_0_lt_compat. exact N.
        + apply Rmult_le_pos; [lra|]. apply Rlt_le, Rinv_0_lt_compat. exact N. }
    pose proof (info_kernel weight J W (fun i => y i - x' i) l Z) as K.
    pose proof (inverse_left (information weight J l) P (fun i => y i - x' i) (info_sym weight J l) P_inverse (fun i _ => K i) i Hi) as H0. cbv beta in H0. lra.
  Qed.
End Step.
Print Assumptions C293.
Print Assumptions C293_unique.

(* three observations of a toy sky, each showing one coordinate and one velocity *)
Definition toy_eph (x : vec) (o : nat) : R * R := (x o, x (o + 3)%nat).
Definition toy_res (a b : R * R) : R * R := (fst a - fst b, snd a - snd b).
Definition toy_J (o i : nat) : R * R := (if Nat.eqb i o then 1 else 0, if Nat.eqb i (o + 3) then 1 else 0).
Definition toy_eph3 (x : vec) (o : nat) : R * R := if Nat.ltb o 3 then toy_eph x o else (0, 0).
Definition toy_J3 (o i : nat) : R * R := if Nat.ltb o 3 then toy_J o i else (0, 0).
Definition toy_inv (_ : nat -> nat -> R) (i j : nat) : R := if Nat.eqb i j then (if Nat.ltb i 3 then 1 else / 4) else 0.
Example C293_case :
  linear_sky toy_eph3 toy_res (fun o => (INR o, 1)) toy_J3
  /\ (forall M, (forall i j, (i < 6)%nat -> (j < 6)%nat -> M i j = information (fun _ => (1, 4)) toy_J3 [0; 1; 2]%nat i j) -> inverse6 M (toy_inv M))
  /\ forall i, (i < 6)%nat -> fst (iterate toy_eph3 toy_res (fun o => (INR o, 1)) (fun _ => (1, 4)) toy_inv true (/ 2) [0; 1; 2]%nat (fun _ => 7)) i = if Nat.ltb i 3 then INR i else 1.
Proof.
  assert (L : linear_sky toy_eph3 toy_res (fun o => (INR o, 1)) toy_J3).
  { split; intros x y o; destruct o as [|[|[|o]]]; unfold toy_res, along, toy_eph3, toy_J3, toy_eph, toy_J; cbn [Nat.ltb Nat.leb Nat.eqb Nat.add fst snd]; f_equal; ring. }
  assert (V : forall M, (forall i j, (i < 6)%nat -> (j < 6)%nat -> M i j = information (fun _ => (1, 4)) toy_J3 [0; 1; 2]%nat i j) -> inverse6 M (toy_inv M)).
  { intros M H i j Hi Hj. unfold along. rewrite !H by lia. clear H. unfold toy_inv.
    destruct i as [|[|[|[|[|[|i]]]]]]; try lia; destruct j as [|[|[|[|[|[|j]]]]]]; try lia; unfold toy_J3, toy_J;
      cbn [information Nat.ltb Nat.leb Nat.eqb Nat.add fst snd]; field. }
  split; [exact L|]. split; [exact V|]. intros i Hi. symmetry.
  assert (Wt : forall o : nat, 0 <= fst ((fun _ : nat => (1, 4)) o) /\ 0 <= snd ((fun _ : nat => (1, 4)) o)) by (intros; cbn; lra).
  assert (Dt : / 2 <> 0) by lra.
  destruct (C293_unique toy_eph3 toy_res (fun o => (INR o, 1)) (fun _ => (1, 4)) toy_inv toy_J3 L Wt true (/ 2) [0; 1; 2]%nat (fun _ => 7) Dt V) as [U _].
  apply (U (fun i => if Nat.ltb i 3 then INR i else 1)); auto.
  replace (rms _ _ (residuals _ _ _ (fun i => if Nat.ltb i 3 then INR i else 1))) with 0; [apply sqrt_pos|].
  unfold rms, residuals, rsum, toy_res, toy_eph3, toy_eph. cbn [fold_right Nat.ltb Nat.leb Nat.add fst snd]. rewrite <- sqrt_0 at 1. f_equal. cbn [length]. unfold Rdiv. ring.
Qed.

(* ---------------------------------------------------------------- C294 ---- *)
(* with positive weights the RMS is zero exactly for zero residuals; it does not depend on the order of the observations; and it grows with the residuals *)
Theorem C294 : forall Obs (weight : Obs -> R * R) l b, (forall o, 0 < fst (weight o) /\ 0 < snd (weight o)) -> l <> [] ->
  (rms weight l b = 0 <-> forall o, In o l -> b o = (0, 0))
  /\ (forall m, Permutation l m -> rms weight m b = rms weight l b)
  /\ (forall c, rms weight l (fun o => (c * fst (b o), c * snd (b o))) = Rabs c * rms weight l b).
Proof.
  intros Obs weight l b W L.
  assert (W' : forall o, 0 <= fst (weight o) /\ 0 <= snd (weight o)) by (intros o; destruct (W o); split; lra).
  assert (N : 0 < INR (length l) * 2) by (apply Rmult_lt_0_compat; [apply lt_0_INR; destruct l; [congruence|cbn; lia]|lra]).
  assert (Q : forall b, 0 <= S weight b l / (INR (length l) * 2)).
  { intros b'. apply Rmult_le_pos; [apply S_nonneg; exact W'|]. apply Rlt_le, Rinv_0_lt_compat. exact N. }
  split; [|split].
  - change (rms weight l b) with (sqrt (S weight b l / (INR (length l) * 2))). split.
    + intros H o Ho. apply sqrt_eq_0 in H; [|apply Q]. assert (Z : S weight b l = 0).
      { apply Rmult_integral in H. destruct H as [H|H]; auto. exfalso. pose proof (Rinv_0_lt_compat _ N). lra. }
      pose proof (S_zero weight W' b l Z o Ho) as T. destruct (W o) as [W1 W2]. destruct (b o) as [u v]. cbn [fst snd] in T.
      assert (Pa : 0 <= u ^ 2 * fst (weight o)) by (apply Rmult_le_pos; [apply pow2_ge_0|lra]).
      assert (Pc : 0 <= v ^ 2 * snd (weight o)) by (apply Rmult_le_pos; [apply pow2_ge_0|lra]).
      assert (U : u ^ 2 * fst (weight o) = 0) by lra. assert (V : v ^ 2 * snd (weight o) = 0) by lra.
      apply Rmult_integral in U, V. destruct U as [U|U]; [|lra]. destruct V as [V|V]; [|lra]. f_equal; nra.
    + intros H. replace (S weight b l) with 0; [unfold Rdiv; rewrite Rmult_0_l; apply sqrt_0|]. symmetry. clear N Q L. unfold S. induction l as [|o r IH]; [reflexivity|].
      rewrite rsum_cons, IH by (intros x Hx; apply H; right; exact Hx). rewrite (H o (or_introl eq_refl)). cbn. ring.
  - intros m Pm. unfold rms. rewrite (Permutation_length Pm), (rsum_perm _ _ _ Pm). reflexivity.
  - intros c. change (sqrt (S weight (fun o => (c * fst (b o), c * snd (b o))) l / (INR (length l) * 2)) = Rabs c * sqrt (S weight b l / (INR (length l) * 2))).
    replace (S weight (fun o => (c * fst (b o), c * snd (b o))) l) with (c ^ 2 * S weight b l).
    + unfold Rdiv. rewrite Rmult_assoc, sqrt_mult; [|apply pow2_ge_0|apply Q]. f_equal. rewrite <- sqrt_Rsqr_abs. f_equal. unfold Rsqr. ring.
    + clear. unfold S. induction l as [|o r IH]; [cbn; ring|]. rewrite !rsum_cons, <- IH. cbn [fst snd]. ring.
Qed.
Print Assumptions C294.
Example C294_case : rms (fun _ => (1, 1)) [0; 1]%nat (fun o => (3, 3)) = 3.
Proof. unfold rms, rsum. cbn [fold_right fst snd length INR]. replace (_ / _) with (3 * 3) by field. apply sqrt_square. lra. Qed.
