(* Specification vocabulary for the table operations. *)
From Coq Require Import String Permutation.
From Verif Require Import Base TimeModel TableModel.
Open Scope Z_scope.
Open Scope list_scope.

(* [gs] splits [l] by [key]: one non-empty group per distinct key, holding exactly the rows with
   that key in their original order *)
Definition split_by {A K} (key : A -> K) (l : list A) (gs : list (K * list A)) : Prop :=
  NoDup (map fst gs) /\
  (forall k, In k (map fst gs) <-> exists x, In x l /\ key x = k) /\
  (forall k g, In (k, g) gs -> exists p : A -> bool, (forall x, p x = true <-> key x = k) /\ g = filter p l) /\
  Permutation (concat (map snd gs)) l.

(* row i of the left table and row j of the right table are in the same group *)
Definition paired {K} (gs : list (K * list nat * list nat)) (i j : nat) : Prop :=
  exists k ls rs, In (k, ls, rs) gs /\ In i ls /\ In j rs.

(* truncation of an epoch to the precision *)
Definition truncated (unit : Z) (r : row) : row := mkrow (days r) (nanos r - nanos r mod unit).
