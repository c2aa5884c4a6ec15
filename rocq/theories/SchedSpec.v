(* Specification vocabulary for chunking and scheduling. *)
From Verif Require Import Base SchedModel.
Open Scope Z_scope.
Open Scope list_scope.

(* consecutive non-empty pieces of at most [cs] rows, all full except possibly the last *)
Definition tiles {A} (cs : Z) (l : list A) (chunks : list (list A)) : Prop :=
  concat chunks = l /\ Forall (fun c => 1 <= zlen c <= cs) chunks /\
  (forall i c, nth_error chunks i = Some c -> (S i < length chunks)%nat -> zlen c = cs).

(* the table 2-body propagation should return: orbit-major, one row per orbit and epoch *)
Section TwoBodySpec.
  Context {O T S C : Type} (bad_orbit : O -> bool) (prop2 : O -> T -> S) (bad_state : S -> bool)
    (cov : O -> C) (jac : O -> T -> C -> C).
  Definition two_body_row (o : O) (t : T) : trow O T S C := mktrow o t (prop2 o t) (jac o t (cov o)).
  Definition two_body_table (os : list O) (ts : list T) : list (trow O T S C) :=
    flat_map (fun o => map (two_body_row o) ts) os.
  (* some requested row has a non-finite input or output *)
  Definition two_body_bad (os : list O) (ts : list T) : Prop :=
    exists o t, In o os /\ In t ts /\ (bad_orbit o = true \/ bad_state (prop2 o t) = true).
End TwoBodySpec.

(* the table 2-body ephemeris generation should return, one row per (orbit, observer) pair *)
Section EphSpec.
  Context {O B E C M : Type} (eph : O -> B -> E) (bad_eph : E -> bool) (cov : O -> C) (jac : O -> B -> C -> C)
    (has_hg : O -> bool) (mag : O -> B -> option M).
  Definition eph_row (pm : bool) (o : O) (b : B) : erow E C M :=
    mkerow (eph o b) (jac o b (cov o)) (if (pm && has_hg o)%bool then mag o b else None).
  Definition eph_bad (rows : list (O * B)) : Prop := exists o b, In (o, b) rows /\ bad_eph (eph o b) = true.
End EphSpec.

(* row [i] of a table satisfies [P] *)
Definition row_is {A} (P : A -> Prop) (l : list A) (i : Z) : Prop :=
  0 <= i /\ exists x, nth_error l (Z.to_nat i) = Some x /\ P x.
Definition non_finite (flags : list bool) : Prop := In false flags.

(* no two different rows describe the same (epoch, state) *)
Fixpoint all_different {R} (same : R -> R -> bool) (l : list R) : Prop :=
  match l with [] => True | x :: r => Forall (fun y => same x y = false /\ same y x = false) r /\ all_different same r end.
