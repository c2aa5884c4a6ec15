(* Specifications for covariance and variant properties, independent of the model's helpers. *)
From Coq Require Import Reals String.
From Verif Require Import Base TimeModel SigmaModel.
Open Scope R_scope.

(* position of entry (i, j) in a row-major listing of the upper (i <= j) or lower (j <= i)
   triangle of an n x n matrix *)
Definition upper_position (n i j : nat) : nat := (i * n + j - (i * (i + 1)) / 2)%nat.
Definition lower_position (i j : nat) : nat := ((i * (i + 1)) / 2 + j)%nat.

(* sums and matrix products over D dimensions *)
Fixpoint total (D : nat) (f : nat -> R) : R := match D with O => 0 | Datatypes.S k => total k f + f k end.
Definition product (D : nat) (A B : mat) : mat := fun i j => total D (fun k => A i k * B k j).
(* [L] is a symmetric square root of [C] in D dimensions *)
Definition root (D : nat) (C L : mat) : Prop :=
  (forall i j, (i < D)%nat -> (j < D)%nat -> L i j = L j i) /\
  (forall i j, (i < D)%nat -> (j < D)%nat -> product D L L i j = C i j).
Definition same_matrix (D : nat) (A B : mat) : Prop := forall i j, (i < D)%nat -> (j < D)%nat -> A i j = B i j.
(* the spread around [m] of weighted samples *)
Fixpoint spread (m : vec) (ws : list (R * vec)) (i j : nat) : R :=
  match ws with [] => 0 | (w, s) :: ws' => w * (s i - m i) * (s j - m j) + spread m ws' i j end.
(* the variants of an orbit at exactly its epoch *)
Definition belongs (o : orow) (v : vrow) : bool :=
  String.eqb (o_id o) (v_id v) && (days (o_time o) =? days (v_time v))%Z && (nanos (o_time o) =? nanos (v_time v))%Z.
(* and seen from the same observatory *)
Definition code_belongs (o : orow) (v : vrow) : bool := belongs o v && String.eqb (o_code o) (v_code v).
Definition key_of (o : orow) := (o_id o, days (o_time o), millis (o_time o)).
Definition pair_of (v : vrow) : R * vec := (v_wcov v, v_vals v).
(* the short way round from longitude [a] to longitude [b], in degrees *)
Definition short_way (a b d : R) : Prop := -180 <= d <= 180 /\ exists k : Z, d = b - a + 360 * IZR k.
