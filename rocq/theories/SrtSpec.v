(* Vocabulary of the claims about sorted linkages; independent of the functions of SrtModel.v. *)
From Coq Require Import ZArith List.
Import ListNotations.
Open Scope Z_scope.

(* the time of the observation with this id *)
Definition has_time (os : list (Z * (Z * Z))) (id : Z) (t : Z * Z) : Prop := In (id, t) os.
Definition no_time (os : list (Z * (Z * Z))) (id : Z) : Prop := forall t, ~ In (id, t) os.
(* times as days and nanoseconds *)
Definition not_later (t u : Z * Z) : Prop := fst t < fst u \/ (fst t = fst u /\ snd t <= snd u).

(* every two rows, in the order of the list *)
Definition in_order {A} (R : A -> A -> Prop) (l : list A) : Prop := forall l1 a l2 b l3, l = l1 ++ a :: l2 ++ b :: l3 -> R a b.
