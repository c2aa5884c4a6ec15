(* Vocabulary of the claims about one iteration of the least-squares corrector; independent of the functions of LsqModel.v. *)
From Coq Require Import Reals List.
From Verif Require Import LsqModel.
Import ListNotations.
Open Scope R_scope.

(* the change of one angle for a change h of the state, with derivatives a *)
Definition along (a h : nat -> R) : R := a 0%nat * h 0%nat + a 1%nat * h 1%nat + a 2%nat * h 2%nat + a 3%nat * h 3%nat + a 4%nat * h 4%nat + a 5%nat * h 5%nat.

(* the sky depends linearly on the state: J are the derivatives of RA and Dec of an observation *)
Definition linear_sky {Obs Sky} (ephem : vec -> Obs -> Sky) (resid : Sky -> Sky -> R * R) (observed : Obs -> Sky) (J : Obs -> nat -> R * R) : Prop :=
  (forall x y o, resid (ephem x o) (ephem y o) = (along (fun i => fst (J o i)) (fun i => x i - y i), along (fun i => snd (J o i)) (fun i => x i - y i)))
  /\ (forall x y o, resid (observed o) (ephem x o)
        = (fst (resid (observed o) (ephem y o)) - along (fun i => fst (J o i)) (fun i => x i - y i),
           snd (resid (observed o) (ephem y o)) - along (fun i => snd (J o i)) (fun i => x i - y i))).

(* the information about parameters i and j in a list of observations *)
Fixpoint information {Obs} (weight : Obs -> R * R) (J : Obs -> nat -> R * R) (l : list Obs) (i j : nat) : R :=
  match l with
  | [] => 0
  | o :: r => fst (weight o) * fst (J o i) * fst (J o j) + snd (weight o) * snd (J o i) * snd (J o j) + information weight J r i j
  end.

(* P is the inverse of the 6 by 6 matrix M *)
Definition inverse6 (M P : nat -> nat -> R) : Prop :=
  forall i j, (i < 6)%nat -> (j < 6)%nat -> along (M i) (fun k => P k j) = if Nat.eqb i j then 1 else 0.
