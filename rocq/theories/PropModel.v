(* Model of the Propagator drivers (definitions only): propagator/propagator.py and
   propagator/utils.py.  Times are (days, nanos) pairs in one scale. *)
From Coq Require Import String.
From Verif Require Import Base StrOrder SchedModel.
Open Scope Z_scope.
Open Scope list_scope.

(* helper of [obs_leb], propagator.py:331-833 *)
Definition tleb (a b : Z * Z) : bool := (fst a <? fst b) || ((fst a =? fst b) && (snd a <=? snd b)).
(* helper of [obs_leb], propagator.py:331-833 *)
Definition teqb (a b : Z * Z) : bool := (fst a =? fst b) && (snd a =? snd b).
(* sort keys: (orbit_id, variant_id, days, nanos); plain Orbits have no variant_id, "" here *)
(* helper of [rkey], propagator.py:899-1126 *)
Definition key := (string * string * (Z * Z))%type.
(* helper of [serial_propagate], propagator.py:899-1126 *)
Definition kleb (a b : key) : bool :=
  let '(o1, v1, t1) := a in let '(o2, v2, t2) := b in
  if String.eqb o1 o2 then if String.eqb v1 v2 then tleb t1 t2 else str_leb v1 v2 else str_leb o1 o2.

(* ---- propagator/utils.py:22-48 ensure_input_origin_and_frame ----
   [to_origin o]: transform_coordinates of one row to origin o in the input frame (row-wise by
   C27); [is_code]: names of the OriginCodes enum *)
Section Ensure.
  Context {I R : Type} (iid iorigin : I -> string) (oid : R -> string)
    (to_origin : string -> R -> R) (is_code : string -> bool).
  Definition ensure_step (inputs : list I) (results : list R) (o : string) : result (list R) :=
    let ids := map iid (filter (fun i => String.eqb (iorigin i) o) inputs) in
    let mine := filter (fun r => memb String.eqb (oid r) ids) results in
    if is_code o then Ok (map (to_origin o) mine) else Err KeyError.
  (* None when there are no input rows *)
(* helper of [serial_propagate], propagator.py:899-1126 *)
  Definition ensure_origin (inputs : list I) (results : list R) : result (option (list R)) :=
    bind (mapM (ensure_step inputs results) (uniq String.eqb (map iorigin inputs))) (fun ls =>
    match ls with [] => Ok None | _ => Ok (Some (concat ls)) end).
End Ensure.

(* ---- Propagator.propagate_orbits (propagator.py:899-1126) ---- *)
Section Propagate.
  Context {I R IV V : Type}.
  Variables (iid ivid iorigin : I -> string).
  Variables (oid vid : R -> string) (rtime : R -> Z * Z).
  Variable backend : list I -> list (Z * Z) -> result (list R).     (* self._propagate_orbits *)
  Variable vbackend : list IV -> list (Z * Z) -> result (list V).   (* the same on VariantOrbits *)
  Variable vkey : V -> key.
  Variable collapse : list V -> R -> R.           (* VariantOrbits.collapse, one orbit row *)
  Variable rescale : R -> R.                      (* to the scale of the requested times *)
  Variable to_origin : string -> R -> R.
  Variable is_code : string -> bool.

  Definition rkey (r : R) : key := (oid r, vid r, rtime r).
(* helper of [serial_propagate], propagator.py:899-1126 *)
  Inductive ptask := TOrb (c : list I) | TVar (c : list IV).
(* helper of [serial_propagate], propagator.py:899-1126 *)
  Inductive pres := ROrb (r : list R) | RVar (r : list V).
(* helper of [serial_propagate], propagator.py:899-1126 *)
  Definition run_task (ts : list (Z * Z)) (t : ptask) : result pres :=
    match t with
    | TOrb c => bind (backend c ts) (fun r => Ok (ROrb r))
    | TVar c => bind (vbackend c ts) (fun r => Ok (RVar r))
    end.
(* helper of [serial_propagate], propagator.py:899-1126 *)
  Definition orb_parts (rs : list pres) : list (list R) :=
    flat_map (fun r => match r with ROrb l => [l] | RVar _ => [] end) rs.
(* helper of [serial_propagate], propagator.py:899-1126 *)
  Definition var_parts (rs : list pres) : list (list V) :=
    flat_map (fun r => match r with ROrb _ => [] | RVar l => [l] end) rs.
(* helper of [serial_propagate], propagator.py:899-1126 *)
  Definition sort_variants (l : list V) : list V := sort (fun a b => kleb (vkey a) (vkey b)) l.
  (* [variants]: the sampled variants when covariance is requested *)
(* helper of [serial_propagate], propagator.py:899-1126 *)
  Definition propagate_orbits (pick : nat -> nat) (mp cs : Z) (variants : option (list IV))
      (orbits : list I) (times : list (Z * Z)) : result (list R) :=
    let ts := sort tleb times in
    bind (if 1 <? mp then
            bind (iterate_chunks orbits cs) (fun ocs =>
            bind (match variants with Some vs => iterate_chunks vs cs | None => Ok [] end) (fun vcs =>
            bind (mapM (run_task ts) (fst (window pick mp (map TOrb ocs ++ map TVar vcs)))) (fun rs =>
            match orb_parts rs with
            | [] => Err ValueError
            | ps => Ok (concat ps, match var_parts rs with [] => None | vs => Some (sort_variants (concat vs)) end)
            end)))
          else
            bind (backend orbits ts) (fun p =>
            match variants with
            | None => Ok (p, None)
            | Some vs => bind (vbackend vs ts) (fun q => Ok (p, Some (sort_variants q)))
            end)) (fun pv =>
    let p := match snd pv with Some vs => map (collapse vs) (fst pv) | None => fst pv end in
    bind (ensure_origin iid iorigin oid to_origin is_code orbits (map rescale p)) (fun e =>
    match e with
    | None => Err AttributeError
    | Some l => Ok (sort (fun a b => kleb (rkey a) (rkey b)) l)
    end)).
End Propagate.
(* the call propagate_orbits(orbits, times, max_processes=1) made by _generate_ephemeris
   (propagator.py:369-371): no covariance, so no variants (the variant backend is never called) *)
Definition serial_propagate {I R} (iid iorigin : I -> string) (oid vid : R -> string) (rtime : R -> Z * Z)
    (backend : list I -> list (Z * Z) -> result (list R)) (rescale : R -> R) (to_origin : string -> R -> R)
    (is_code : string -> bool) (os : list I) (ts : list (Z * Z)) : result (list R) :=
  propagate_orbits iid iorigin oid vid rtime backend (fun (vs : list unit) ts => Ok (flat_map (fun _ => ts) vs))
    (fun t => (""%string, ""%string, t)) (fun _ r => r) rescale to_origin is_code (fun _ => 0%nat) 1 1 None os ts.
Arguments TOrb {I IV}. Arguments TVar {I IV}. Arguments ROrb {R V}. Arguments RVar {R V}.

(* ---- EphemerisMixin (propagator.py:331-833), covariance=False ---- *)
Section Ephemeris.
  Context {I R B E : Type}.
  Variables (btime : B -> Z * Z) (bcode : B -> string).
  (* propagate_orbits(orbits, times, max_processes=1) *)
  Variable propagate : list I -> list (Z * Z) -> result (list R).
  (* light time, topocentric state, photometry of one propagated row seen by one observer; the
     row carries the observer's epoch and code and the orbit's ids *)
  Variable observe : R -> B -> E.
  Definition obs_leb (a b : B) : bool :=
    if teqb (btime a) (btime b) then str_leb (bcode a) (bcode b) else tleb (btime a) (btime b).
  (* _generate_ephemeris: observers sorted and tiled; numpy refuses unequal lengths *)
  (* propagator.py:551-833, one chunk *)
  Definition generate_one (orbits : list I) (observers : list B) : result (list E) :=
    let obs := sort obs_leb observers in
    match orbits with
    | [] => Err ValueError
    | _ =>
      bind (propagate orbits (map btime obs)) (fun p =>
      match zip_opt p (concat (repeat obs (length orbits))) with
      | Some l => Ok (map (fun x => observe (fst x) (snd x)) l)
      | None => Err ValueError
      end)
    end.
  (* (orbit_id, variant_id, UTC epoch, observatory code) of an ephemeris row *)
  Variable ekey : E -> key * string.
  (* propagator.py:551-833: final sort order *)
  Definition eleb (a b : E) : bool :=
    let '(k1, c1) := ekey a in let '(k2, c2) := ekey b in
    if kleb k1 k2 && kleb k2 k1 then str_leb c1 c2 else kleb k1 k2.
  Variable to_utc : E -> E.
  (* generate_ephemeris: lines 655-752 in parallel, 754-768 serially *)
  (* propagator.py:551-833: chunk size *)
  Definition effective_chunk (cs n mp : Z) : Z := if 0 <? n then Z.min cs (Z.max 1 (n / mp)) else cs.
  (* propagator.py:551-833 *)
  Definition generate_ephemeris (pick : nat -> nat) (mp cs : Z) (orbits : list I) (observers : list B) : result (list E) :=
    bind (if 1 <? mp then
            bind (iterate_chunks orbits (effective_chunk cs (zlen orbits) mp)) (fun ocs =>
            bind (mapM (fun c => generate_one c observers) (fst (window pick mp ocs))) (fun rs =>
            Ok (sort eleb (concat rs))))
          else generate_one orbits observers) (fun es =>
    Ok (map to_utc es)).
End Ephemeris.
