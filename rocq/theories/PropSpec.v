(* Specification vocabulary for the Propagator drivers. *)
From Coq Require Import String Permutation.
From Verif Require Import Base StrOrder SchedModel PropModel.
Open Scope Z_scope.
Open Scope list_scope.

(* each orbit id belongs to one origin *)
Definition one_origin {I} (iid iorigin : I -> string) (inputs : list I) : Prop :=
  forall i j, In i inputs -> In j inputs -> iid i = iid j -> iorigin i = iorigin j.

(* a backend that treats orbits one by one and returns one row per orbit and epoch, in any order *)
Definition per_orbit {I R} (backend : list I -> list (Z * Z) -> result (list R)) (g : I -> Z * Z -> R) : Prop :=
  forall os ts, exists r, backend os ts = Ok r /\ Permutation r (flat_map (fun o => map (g o) ts) os).

(* strictly earlier *)
Definition tltb (a b : Z * Z) : bool := (fst a <? fst b) || ((fst a =? fst b) && (snd a <? snd b)).

(* what propagate_orbits should return: one row per orbit and epoch, in the input origin, sorted
   by (orbit id, variant id, epoch) *)
Section PropagateSpec.
  Context {I R IV V : Type} (iorigin : I -> string) (oid vid : R -> string) (rtime : R -> Z * Z)
    (g : I -> Z * Z -> R) (gv : IV -> Z * Z -> V) (vkey : V -> key)
    (collapse : list V -> R -> R) (rescale : R -> R) (to_origin : string -> R -> R).
  Definition expected_variants (variants : option (list IV)) (times : list (Z * Z)) : option (list V) :=
    option_map (fun vs => sort (fun a b => kleb (vkey a) (vkey b)) (flat_map (fun v => map (gv v) times) vs)) variants.
  Definition expected_row (variants : option (list IV)) (times : list (Z * Z)) (o : I) (t : Z * Z) : R :=
    to_origin (iorigin o) (rescale (match expected_variants variants times with
                                    | Some vs => collapse vs (g o t) | None => g o t end)).
  Definition expected_propagated (variants : option (list IV)) (orbits : list I) (times : list (Z * Z)) : list R :=
    sort (fun a b => kleb (oid a, vid a, rtime a) (oid b, vid b, rtime b))
      (flat_map (fun o => map (expected_row variants times o) times) orbits).
End PropagateSpec.

(* orbits in the order of (orbit id, variant id) *)
Definition idleb {I} (iid ivid : I -> string) (a b : I) : bool := kleb (iid a, ivid a, (0, 0)) (iid b, ivid b, (0, 0)).
(* the state of orbit o at epoch t, in the scale and origin the caller gets *)
Definition final_row {I R} (iorigin : I -> string) (rescale : R -> R) (to_origin : string -> R -> R)
  (g : I -> Z * Z -> R) (o : I) (t : Z * Z) : R := to_origin (iorigin o) (rescale (g o t)).

(* a toy propagator for the concrete cases: an orbit (id, origin, x) moves one unit per day; its
   backend returns the rows epoch by epoch *)
Definition toy_orbit := (string * string * Z)%type.
Definition toy_row := (string * (Z * Z) * string * Z)%type.   (* id, epoch, origin, x *)
Definition toy_id (o : toy_orbit) := fst (fst o).
Definition toy_origin (o : toy_orbit) := snd (fst o).
Definition toy_rid (r : toy_row) := fst (fst (fst r)).
Definition toy_rtime (r : toy_row) := snd (fst (fst r)).
Definition toy_g (o : toy_orbit) (t : Z * Z) : toy_row := (toy_id o, t, "SOLAR_SYSTEM_BARYCENTER"%string, snd o + fst t).
Definition toy_backend (os : list toy_orbit) (ts : list (Z * Z)) : result (list toy_row) :=
  Ok (flat_map (fun t => map (fun o => toy_g o t) os) ts).
Definition toy_to (c : string) (r : toy_row) : toy_row :=
  let '(i, t, c0, x) := r in if String.eqb c c0 then r else (i, t, c, x + 1000).
Definition toy_code (c : string) : bool := memb String.eqb c ["SUN"; "EARTH"; "SOLAR_SYSTEM_BARYCENTER"]%string.
