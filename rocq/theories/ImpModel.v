(* Model of src/adam_core/dynamics/impacts.py: collision conditions, impact probabilities
   (definitions only).  The detection backend is an oracle; means are exact rationals; the standard
   deviation of the impact times is not modelled. *)
From Coq Require Import String QArith.
From Verif Require Import Base TimeModel.
Open Scope string_scope.
Open Scope Z_scope.
Open Scope list_scope.

(* impacts.py:65-73; the distance and stopping flag are for the backend only *)
Record condition := mkcond { c_id : string; c_object : string; c_stop : bool }.
(* impacts.py:75-82, 270-275, 307-312 *)
Definition default_conditions : list condition := [mkcond "Default" "EARTH" true].
(* impacts.py:173-178 *)
Definition detect_default_conditions : list condition := [mkcond "Earth" "EARTH" true].
(* helper of [calculate_impact_probabilities], impacts.py:314-369 *)
Definition or_default (d : list condition) (c : option (list condition)) : list condition :=
  match c with Some l => l | None => d end.

(* a variant orbit and a collision event; the id columns of variants are not null *)
(* helper of [prob_row], impacts.py:320-362 *)
Record vorbit := mkvorbit { vo_orbit : string; vo_variant : string }.
(* helper of [prob_row], impacts.py:320-362 *)
Record event := mkevent { e_orbit : string; e_variant : string; e_cond : string; e_time : row }.
(* one row of ImpactProbabilities; [i_scale] is the scale attribute of its time columns *)
(* helper of [prob_row], impacts.py:320-362 *)
Record iprob := mkiprob { i_cond : string; i_orbit : string; i_impacts : Z; i_variants : Z; i_prob : Q;
                          i_mean : option Q; i_min : option row; i_max : option row; i_scale : string }.

(* helper of [prob_row], impacts.py:320-362 *)
Definition qsum (l : list Q) : Q := fold_right Qplus 0%Q l.
(* helper of [prob_row], impacts.py:320-362 *)
Definition ok_row (r : result row) : option row := match r with Ok x => Some x | Err _ => None end.
(* impacts.py:320-362: one orbit, one condition *)
Definition prob_row (vscale escale : string) (vs : list vorbit) (es : list event) (o c : string) : iprob :=
  let n := Z.of_nat (List.length (filter (fun v => String.eqb (vo_orbit v) o) vs)) in
  let sel := filter (fun e => String.eqb (e_cond e) c) (filter (fun e => String.eqb (e_orbit e) o) es) in
  let k := Z.of_nat (List.length sel) in
  let ts := map e_time sel in
  match sel with
  | [] => mkiprob c o k n (inject_Z k / inject_Z n) None None None vscale
  | _ => mkiprob c o k n (inject_Z k / inject_Z n) (Some (qsum (map mjd ts) / inject_Z k)%Q)
                 (ok_row (ts_min (mkts escale ts))) (ok_row (ts_max (mkts escale ts))) escale
  end.
(* impacts.py:314-369.  quivr's concatenate rejects tables with different attribute values (its
   TablesNotCompatibleError is shown as RuntimeError); without any row the result is Python's None. *)
Definition calculate_impact_probabilities (vscale escale : string) (vs : list vorbit) (es : list event)
  (conds : option (list condition)) : result (option (list iprob)) :=
  let cs := or_default default_conditions conds in
  let rows := flat_map (fun o => map (fun c => prob_row vscale escale vs es o (c_id c)) cs)
                       (uniq String.eqb (map vo_orbit vs)) in
  match rows with
  | [] => Ok None
  | r :: rs => if forallb (fun x => String.eqb (i_scale r) (i_scale x)) rs then Ok (Some rows) else Err RuntimeError
  end.

Section Detect.
(* the propagator's _detect_collisions: the events found for these variants under these conditions *)
Variable backend : list vorbit -> list condition -> list event.
(* impacts.py:129-228, sequential *)
Definition detect_collisions (vs : list vorbit) (conds : option (list condition)) : list event :=
  backend vs (or_default detect_default_conditions conds).
(* impacts.py:231-284 after the variants have been generated *)
Definition calculate_impacts (vs : list vorbit) (conds : option (list condition)) : list event :=
  detect_collisions vs (Some (or_default default_conditions conds)).
End Detect.

(* impacts.py:372-396 link_impacting_variants: the variants with the same orbit and variant id *)
Definition linked (vs : list vorbit) (e : event) : list vorbit :=
  filter (fun v => String.eqb (vo_orbit v) (e_orbit e) && String.eqb (vo_variant v) (e_variant e)) vs.
