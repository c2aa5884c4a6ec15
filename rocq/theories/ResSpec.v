(* Specifications for the residual properties, independent of the model's helpers. *)
From Coq Require Import String QArith.
From Verif Require Import Base ResModel.
Open Scope Z_scope.
Open Scope list_scope.

(* a D x D matrix *)
Definition square (D : nat) (m : list (list num)) : Prop :=
  List.length m = D /\ Forall (fun r => List.length r = D) m.
(* D values with a D x D covariance in every row *)
Definition shaped (D : nat) (t : coords) : Prop :=
  List.length (origins t) = List.length (rows t) /\
  Forall (fun r => List.length (values r) = D /\ square D (cov r)) (rows t).
(* the predicted row that belongs to observed row [i]: row [i], or the only one *)
Definition partner (t : coords) (i : nat) (p : crow) : Prop :=
  rows t = [p] \/ (List.length (rows t) <> 1%nat /\ nth_error (rows t) i = Some p).
(* the dimensions that have a value, and the corresponding entries of a vector or matrix *)
Definition dims (v : list num) : list nat :=
  filter (fun j => match nth_error v j with Some (Some _) => true | _ => false end) (seq 0 (List.length v)).
Definition at_dims {A} (ds : list nat) (l : list A) : list A :=
  flat_map (fun j => match nth_error l j with Some x => [x] | None => [] end) ds.
Definition sub_matrix {A} (ds : list nat) (m : list (list A)) : list (list A) := map (at_dims ds) (at_dims ds m).
Definition nothing_known (m : list (list num)) : Prop := forall r x, In r m -> In x r -> x = None.
(* a table that consists of one row *)
Definition single (t : coords) (c : string) (r : crow) : coords := mkcoords (kind t) (frame t) [c] [r].
(* missing entries read as zero *)
Definition zeroed (m : list (list num)) : list (list num) :=
  map (map (fun x => match x with None => Some (0 # 1)%Q | Some q => Some q end)) m.
Definition entry (m : list (list num)) (j k : nat) : option num :=
  match nth_error m j with Some r => nth_error r k | None => None end.
(* observed covariance plus what is known of the predicted one *)
Definition combined (use_pred : bool) (o p : list (list num)) (m : list (list num)) : Prop :=
  forall j k a b, entry o j k = Some a -> entry p j k = Some b ->
    exists c, entry m j k = Some c /\
      match a with
      | None => c = None
      | Some x => exists z, c = Some z /\ (z == x + match b with Some y => if use_pred then y else 0 | None => 0 end)%Q
      end.
