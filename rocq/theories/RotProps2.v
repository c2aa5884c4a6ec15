(* The staged period search looks around each of its best local minima. *)
From Coq Require Import Reals Lra.
From Coq Require Import List String Bool Lia Arith.
From Verif Require Import Base ListLemmas PhotModel RotModel RotScore RotFit RotClus RotStage RotProps.
Import ListNotations.
Open Scope list_scope.
Open Scope R_scope.

(* C181: if c is one of the (at most twelve) best local minima of the coarse scores, and not next to
   the end of the grid, then no frequency within the radius of c fits better than the result. *)
Theorem C181_minima : forall exact quick n f c q, (0 < n)%nat -> search exact quick true n = Some f ->
  coarse_minimum quick n c q -> (c + stride_of n < n)%nat ->
  (forall l, NoDup l -> (forall d, In d l -> exists r, coarse_minimum quick n d r /\ r_sigma r <= r_sigma q) -> (List.length l <= 12)%nat) ->
  forall i g, (i < n)%nat -> (i <= c + radius_of n)%nat -> (c <= i + radius_of n)%nat -> exact i = Some g -> r_sigma f <= r_sigma g.
Proof. intros exact quick n f c q N. exact (search_minima exact quick n N f c q). Qed.
Print Assumptions C181_minima.

Definition valley (i : nat) : option fitres := Some (mkfitres 1 2 [] (Rabs (INR i - 900)) 1 20 7 30 0).
Lemma val_sigma : forall i r, valley i = Some r -> r_sigma r = Rabs (INR i - 900).
Proof. intros i r H. unfold valley in H. injection H as <-. reflexivity. Qed.
Example C181_minima_case : exists f, search valley valley true (50 * 60) = Some f /\ coarse_minimum valley (50 * 60) 900 (mkfitres 1 2 [] (Rabs (INR 900 - 900)) 1 20 7 30 0) /\
  forall i g, (i < 50 * 60)%nat -> (i <= 900 + radius_of (50 * 60))%nat -> (900 <= i + radius_of (50 * 60))%nat -> valley i = Some g -> r_sigma f <= r_sigma g.
Proof.
  destruct (C181_found valley valley (50 * 60) true 0 (mkfitres 1 2 [] (Rabs (INR 0 - 900)) 1 20 7 30 0)) as (f & F); [lia|reflexivity|].
  assert (I9 : INR 900 = 900) by (rewrite INR_IZR_INZ; reflexivity).
  assert (Z9 : Rabs (INR 900 - 900) = 0) by (rewrite I9; replace (900 - 900) with 0 by ring; apply Rabs_R0).
  assert (ST : stride_of (50 * 60) = 3%nat) by reflexivity.
  assert (M : coarse_minimum valley (50 * 60) 900 (mkfitres 1 2 [] (Rabs (INR 900 - 900)) 1 20 7 30 0)).
  { split; [split; [lia|left; exists 300%nat; rewrite ST; reflexivity]|]. split; [reflexivity|].
    split; intros d r _ V; apply val_sigma in V; rewrite V; cbn [r_sigma]; rewrite Z9; apply Rabs_pos. }
  exists f. split; [exact F|]. split; [exact M|].
  apply (C181_minima valley valley (50 * 60) f 900 _ ltac:(lia) F M); [rewrite ST; lia|].
  intros l ND H. assert (A : forall d, In d l -> d = 900%nat).
  { intros d D. destruct (H d D) as (r & (_ & V & _) & S). apply val_sigma in V. rewrite V in S. cbn [r_sigma] in S. rewrite Z9 in S.
    pose proof (Rabs_pos (INR d - 900)) as P. assert (Rabs (INR d - 900) = 0) as E by lra. apply INR_eq. rewrite I9. unfold Rabs in E. destruct (Rcase_abs _); lra. }
  destruct l as [|a [|b l]]; cbn [List.length]; [lia|lia|]. exfalso. inversion ND as [|? ? N1 _]; subst. apply N1. rewrite (A a), (A b); [left; reflexivity|right; left; reflexivity|left; reflexivity].
Qed.
