(* Lemmas about LsqModel.v. *)
From Coq Require Import Reals List Bool Lia Lra Permutation.
From Verif Require Import LsqModel LsqSpec.
Import ListNotations.
Open Scope R_scope.

Lemma lt6 (P : nat -> Prop) : P 0%nat -> P 1%nat -> P 2%nat -> P 3%nat -> P 4%nat -> P 5%nat -> forall i, (i < 6)%nat -> P i.
Proof. intros. destruct i as [|[|[|[|[|[|i]]]]]]; auto. lia. Qed.

Lemma sum6_along f g : sum6 (fun i => f i * g i) = along f g.
Proof. reflexivity. Qed.
Lemma along_ext a b g h : (forall i, (i < 6)%nat -> a i = b i) -> (forall i, (i < 6)%nat -> g i = h i) -> along a g = along b h.
Proof. intros A G. unfold along. rewrite !A, !G by lia. reflexivity. Qed.
Lemma along_swap M P v : along (fun j => along M (fun k => P k j)) v = along M (fun k => along (P k) v).
Proof. unfold along. ring. Qed.
Lemma along_unit h i : (i < 6)%nat -> along (fun j => if Nat.eqb i j then 1 else 0) h = h i.
Proof. revert i. apply lt6; unfold along; cbn [Nat.eqb]; ring. Qed.
Lemma along_comm a b : along a b = along b a.
Proof. unfold along. ring. Qed.
Lemma along_plus a g h : along a (fun i => g i + h i) = along a g + along a h.
Proof. unfold along. ring. Qed.

Lemma step_nonzero delta base i : delta <> 0 -> step_size delta base i <> 0.
Proof.
  intros D. unfold step_size. destruct (Rlt_dec (Rabs (base i * delta)) (/ 10 ^ 20)) as [H|H].
  - destruct (Nat.ltb i 3); apply Rmult_integral_contrapositive_currified; auto; lra.
  - intros E. apply H. rewrite E, Rabs_R0. apply Rinv_0_lt_compat. apply pow_lt. lra.
Qed.

Lemma along_step a i d x y : (i < 6)%nat -> (forall j, x j - y j = if Nat.eqb j i then d else 0) -> along a (fun j => x j - y j) = a i * d.
Proof.
  intros Hi H. rewrite (along_ext a a _ (fun j => if Nat.eqb j i then d else 0)); auto. clear H. revert i Hi. apply lt6; unfold along; cbn [Nat.eqb]; ring.
Qed.

Lemma rsum_cons {A} (f : A -> R) x l : rsum f (x :: l) = f x + rsum f l.
Proof. reflexivity. Qed.

Section Lsq.
  Context {Obs Sky : Type} (ephem : vec -> Obs -> Sky) (resid : Sky -> Sky -> R * R) (observed : Obs -> Sky) (weight : Obs -> R * R).
  Context (J : Obs -> nat -> R * R).
  Hypothesis LS : linear_sky ephem resid observed J.

  Lemma partials_exact central delta base o i : delta <> 0 -> (i < 6)%nat -> partials ephem resid central delta base o i = J o i.
  Proof.
    intros D Hi. pose proof (step_nonzero delta base i D) as N. unfold partials. set (d := step_size delta base i) in *. destruct LS as [L _].
    destruct central; rewrite L; unfold scale2; cbn [fst snd].
    - rewrite !(along_step _ i (2 * d)); auto.
      + rewrite (surjective_pairing (J o i)) at 3. f_equal; field; exact N.
      + intros j. unfold update_orbit, unit_step. destruct (Nat.eqb j i); ring.
      + intros j. unfold update_orbit, unit_step. destruct (Nat.eqb j i); ring.
    - rewrite !(along_step _ i d); auto.
      + rewrite (surjective_pairing (J o i)) at 3. f_equal; field; exact N.
      + intros j. unfold update_orbit, unit_step. destruct (Nat.eqb j i); ring.
      + intros j. unfold update_orbit, unit_step. destruct (Nat.eqb j i); ring.
  Qed.

  Definition S (b : Obs -> R * R) (l : list Obs) : R := rsum (fun o => fst (b o) ^ 2 * fst (weight o) + snd (b o) ^ 2 * snd (weight o)) l.

  Lemma atwa_info A l i j : (forall o i, (i < 6)%nat -> A o i = J o i) -> (i < 6)%nat -> (j < 6)%nat -> atwa weight A l i j = information weight J l i j.
  Proof. intros E Hi Hj. unfold atwa, rsum. induction l as [|o l IH]; cbn [fold_right information]; auto. rewrite IH, !E by auto. ring. Qed.
  Lemma info_sym l i j : information weight J l i j = information weight J l j i.
  Proof. induction l as [|o l IH]; cbn; auto. rewrite IH. ring. Qed.

  Definition cross (h : vec) (e : Obs -> R * R) (l : list Obs) : R :=
    rsum (fun o => fst (weight o) * along (fun i => fst (J o i)) h * fst (e o) + snd (weight o) * along (fun i => snd (J o i)) h * snd (e o)) l.
  Definition after (b : Obs -> R * R) (d : vec) (o : Obs) : R * R :=
    (fst (b o) - along (fun i => fst (J o i)) d, snd (b o) - along (fun i => snd (J o i)) d).
  Definition rhs (b : Obs -> R * R) (l : list Obs) (i : nat) : R := atwb weight J b l i.

  Lemma normal_cross b d h l : along h (fun i => rhs b l i - along (information weight J l i) d) = cross h (after b d) l.
  Proof.
    unfold rhs, atwb, cross. induction l as [|o l IH].
    - cbn. unfold along. ring.
    - rewrite (rsum_cons _ o l), <- IH. unfold along. rewrite !rsum_cons. cbn [information]. unfold after, along. cbn [fst snd]. ring.
  Qed.

  Lemma cross_zero b d l : (forall i, (i < 6)%nat -> along (information weight J l i) d = rhs b l i) -> forall h, cross h (after b d) l = 0.
  Proof.
    intros H h. rewrite <- normal_cross. unfold along at 1. rewrite !H by lia. ring.
  Qed.

  Lemma S_split b d h l : S (after b (fun i => d i + h i)) l
    = S (after b d) l - 2 * cross h (after b d) l + S (fun o => (along (fun i => fst (J o i)) h, along (fun i => snd (J o i)) h)) l.
  Proof.
    unfold S, cross. induction l as [|o l IH]. cbn. ring. rewrite !rsum_cons, IH. unfold after. cbn [fst snd]. rewrite !along_plus. ring.
  Qed.

  Hypothesis W : forall o, 0 <= fst (weight o) /\ 0 <= snd (weight o).
  Lemma term_nonneg b o : 0 <= fst (b o) ^ 2 * fst (weight o) + snd (b o) ^ 2 * snd (weight o).
  Proof. destruct (W o). pose proof (pow2_ge_0 (fst (b o))). pose proof (pow2_ge_0 (snd (b o))). apply Rplus_le_le_0_compat; apply Rmult_le_pos; auto. Qed.
  Lemma S_nonneg b l : 0 <= S b l.
  Proof. unfold S. induction l as [|o l IH]. cbn. lra. rewrite rsum_cons. pose proof (term_nonneg b o). lra. Qed.
  Lemma S_zero b l : S b l = 0 -> forall o, In o l -> fst (b o) ^ 2 * fst (weight o) + snd (b o) ^ 2 * snd (weight o) = 0.
  Proof.
    induction l as [|x l IH]; intros H o []; unfold S in H; rewrite rsum_cons in H; fold (S b l) in H; pose proof (S_nonneg b l); pose proof (term_nonneg b x).
    - subst. lra.
    - apply IH; auto. lra.
  Qed.

  (* zero change on the sky, zero in the normal equations *)
  Lemma info_kernel h l : S (fun o => (along (fun i => fst (J o i)) h, along (fun i => snd (J o i)) h)) l = 0 ->
    forall i, along (information weight J l i) h = 0.
  Proof.
    intros Z i. pose proof (S_zero _ _ Z) as Q. clear Z. induction l as [|o l IH]; cbn. unfold along. ring.
    assert (E : along (fun j => fst (weight o) * fst (J o i) * fst (J o j) + snd (weight o) * snd (J o i) * snd (J o j) + information weight J l i j) h
      = fst (J o i) * (fst (weight o) * along (fun j => fst (J o j)) h) + snd (J o i) * (snd (weight o) * along (fun j => snd (J o j)) h) + along (information weight J l i) h).
    { unfold along. ring. }
    change (along (fun j => fst (weight o) * fst (J o i) * fst (J o j) + snd (weight o) * snd (J o i) * snd (J o j) + information weight J l i j) h = 0).
    rewrite E, IH by (intros x Hx; apply Q; right; exact Hx). specialize (Q o (or_introl eq_refl)). cbn [fst snd] in Q. destruct (W o) as [W1 W2].
    set (a := along (fun j => fst (J o j)) h) in *. set (c := along (fun j => snd (J o j)) h) in *.
    assert (Pa : 0 <= a ^ 2 * fst (weight o)) by (apply Rmult_le_pos; auto; apply pow2_ge_0).
    assert (Pc : 0 <= c ^ 2 * snd (weight o)) by (apply Rmult_le_pos; auto; apply pow2_ge_0).
    assert (Za : fst (weight o) * a = 0).
    { assert (X : a * (fst (weight o) * a) = 0) by (replace (a * (fst (weight o) * a)) with (a ^ 2 * fst (weight o)) by ring; lra).
      apply Rmult_integral in X. destruct X as [X|X]; auto. rewrite X. ring. }
    assert (Zc : snd (weight o) * c = 0).
    { assert (X : c * (snd (weight o) * c) = 0) by (replace (c * (snd (weight o) * c)) with (c ^ 2 * snd (weight o)) by ring; lra).
      apply Rmult_integral in X. destruct X as [X|X]; auto. rewrite X. ring. }
    rewrite Za, Zc. ring.
  Qed.
End Lsq.

(* the inverse of a symmetric matrix is symmetric and inverse from both sides *)
Lemma inverse_sym M P : (forall i j, M i j = M j i) -> inverse6 M P -> forall i j, (i < 6)%nat -> (j < 6)%nat -> P i j = P j i.
Proof.
  intros Sy I i j Hi Hj.
  (* both are the sum of P k i M k m P m j *)
  assert (A : along (fun m => along (fun k => P k i) (fun k => M k m)) (fun m => P m j) = P i j).
  { rewrite (along_ext _ (fun m => if Nat.eqb i m then 1 else 0) _ (fun m => P m j)); auto.
    - rewrite along_unit by auto. reflexivity.
    - intros m Hm. rewrite along_comm. rewrite (along_ext _ (M m) _ (fun k => P k i)); auto. rewrite I by auto. destruct (Nat.eqb_spec m i), (Nat.eqb_spec i m); subst; try reflexivity; contradiction. }
  rewrite <- A. rewrite along_swap.
  rewrite (along_ext _ (fun k => P k i) _ (fun k => if Nat.eqb j k then 1 else 0)); auto.
  - rewrite along_comm, along_unit by auto. reflexivity.
  - intros k Hk. cbv beta. change (along (fun j0 => M k j0) (fun m => P m j)) with (along (M k) (fun m => P m j)). rewrite I by auto.
    destruct (Nat.eqb_spec k j), (Nat.eqb_spec j k); subst; try reflexivity; contradiction.
Qed.

Lemma inverse_left M P h : (forall i j, M i j = M j i) -> inverse6 M P -> (forall i, (i < 6)%nat -> along (M i) h = 0) -> forall i, (i < 6)%nat -> h i = 0.
Proof.
  intros Sy I Z i Hi.
  assert (A : along (fun m => along (fun k => P k i) (fun k => M k m)) h = h i).
  { rewrite (along_ext _ (fun m => if Nat.eqb i m then 1 else 0) _ h); auto.
    - apply along_unit. exact Hi.
    - intros m Hm. rewrite along_comm. rewrite (along_ext _ (M m) _ (fun k => P k i)); auto. rewrite I by auto. destruct (Nat.eqb_spec m i), (Nat.eqb_spec i m); subst; try reflexivity; contradiction. }
  rewrite <- A, along_swap. rewrite (along_ext _ (fun k => P k i) _ (fun _ => 0)); auto. unfold along. ring.
Qed.

Lemma rsum_perm {A} (f : A -> R) l m : Permutation l m -> rsum f l = rsum f m.
Proof. induction 1; cbn; unfold rsum in *; try lra. Qed.

Lemma rsum_ext {A} (f g : A -> R) l : (forall x, f x = g x) -> rsum f l = rsum g l.
Proof. intros E. induction l as [|x l IH]; [reflexivity|]. rewrite !rsum_cons, IH, E. reflexivity. Qed.
