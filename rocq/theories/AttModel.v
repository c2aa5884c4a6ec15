(* Model of src/adam_core/propagator/propagator.py, lines 40-276: attach_magnitude_or_phase and its helpers (definitions
   only).  Simplifications: H and G are exact rationals and None for null or not finite; columns that may not be null
   hold no nulls; the conversion to heliocentric coordinates, the rescaling of times and the photometric formulas are
   parameters that work row by row; a row without aberrated coordinates has no heliocentric position; Ray object
   references are resolved. *)
From Coq Require Import QArith ZArith String List Bool DecimalString.
From Verif Require Import Base.
Import ListNotations.
Open Scope string_scope.
Open Scope list_scope.
Open Scope nat_scope.

(* propagator.py:82-87: the text of an integer *)
Definition zdec (z : Z) : string := NilEmpty.string_of_int (Z.to_int z).
(* propagator.py:49-56, 89-94: code|days|nanos *)
Definition key (code : string) (days nanos : Z) : string := code ++ "|" ++ zdec days ++ "|" ++ zdec nanos.
(* propagator.py:57, 97 *)
Fixpoint distinct (l : list string) : bool :=
  match l with [] => true | x :: r => negb (existsb (String.eqb x) r) && distinct r end.
(* propagator.py:102: pyarrow.compute.index_in, the first position *)
Fixpoint index_in (x : string) (l : list string) : option nat :=
  match l with [] => None | y :: r => if String.eqb x y then Some 0 else option_map S (index_in x r) end.
(* propagator.py:70-106 *)
Definition align (obs_keys eph_keys : list string) : result (list nat) :=
  if negb (distinct obs_keys) then Err ValueError
  else mapM (fun k => match index_in k obs_keys with Some i => Ok i | None => Err ValueError end) eph_keys.
(* propagator.py:62: numpy.argsort by an order on texts, as pairs of text and position *)
Definition argsort (leb : string -> string -> bool) (l : list string) : list (string * nat) :=
  sort (fun a b => leb (fst a) (fst b)) (combine l (seq 0 (List.length l))).
(* propagator.py:63: numpy.searchsorted, the number of texts below *)
Fixpoint searchsorted (leb : string -> string -> bool) (l : list string) (k : string) : nat :=
  match l with [] => 0 | x :: r => if leb k x then 0 else S (searchsorted leb r k) end.
(* propagator.py:40-67; an index past the end is an IndexError *)
Definition align_sorted (leb : string -> string -> bool) (obs_keys eph_keys : list string) : result (list nat) :=
  if negb (distinct obs_keys) then Err ValueError
  else
    let s := argsort leb obs_keys in
    bind (mapM (fun k => match nth_error s (searchsorted leb (map fst s) k) with Some p => Ok (snd p) | None => Err IndexError end) eph_keys) (fun idx =>
    if forallb (fun q => String.eqb (nth (fst q) obs_keys "") (snd q)) (combine idx eph_keys) then Ok idx else Err ValueError).

(* propagator.py:109-115: an orbit with its identifier, H and G *)
Record hgrow := mk_orb { b_id : string; b_H : option Q; b_G : option Q }.
(* propagator.py:126-135: the rows with both parameters *)
Definition valid_rows (os : list hgrow) : list (string * (Q * Q)) :=
  flat_map (fun o => match b_H o, b_G o with Some h, Some g => [(b_id o, (h, g))] | _, _ => [] end) os.
(* propagator.py:136-138: aggregates of a group, which has at least one row *)
Definition least (l : list Q) : Q := fold_right (fun x m => if Qle_bool x m then x else m) (hd 0%Q l) l.
(* propagator.py:136-138 *)
Definition greatest (l : list Q) : Q := fold_right (fun x m => if Qle_bool m x then x else m) (hd 0%Q l) l.
(* propagator.py:136-138: the values of a group *)
Definition group (v : list (string * (Q * Q))) (id : string) : list (Q * Q) := map snd (filter (fun p => String.eqb (fst p) id) v).
(* propagator.py:140-143 *)
Definition conflict (v : list (string * (Q * Q))) (id : string) : bool :=
  let hs := map fst (group v id) in let gs := map snd (group v id) in
  negb (Qeq_bool (least hs) (greatest hs)) || negb (Qeq_bool (least gs) (greatest gs)).
(* propagator.py:109-158: the parameters of each row *)
Definition hg_params (os : list hgrow) (ids : list string) : result (list (option (Q * Q))) :=
  match valid_rows os with
  | [] => Ok (map (fun _ => None) ids)
  | v => if existsb (conflict v) (map fst v) then Err ValueError
         else Ok (map (fun id => match group v id with [] => None | g => Some (least (map fst g), least (map snd g)) end) ids)
  end.

Section Attach.
  (* heliocentric positions and results of the photometric formulas *)
  Context {P N : Type}.
  (* an observer: code, day and nanosecond, and its state *)
  Record obsr := mk_obsr { o_code : string; o_days : Z; o_nanos : Z; o_pos : option P }.
  (* a row of the ephemeris; [e_pos] None for null aberrated coordinates *)
  Record erow := mk_erow { e_orbit : string; e_code : string; e_days : Z; e_nanos : Z; e_pos : option P; e_alpha : option N; e_mag : option N }.
  (* propagator.py:209-214: Timestamp.rescale from one scale to another *)
  Variable rescale : string -> string -> Z * Z -> Z * Z.
  (* magnitude.py:35-63 *)
  Variable geometry_ok : P -> P -> bool.
  (* magnitude.py:370-512: the magnitude and the phase angle of one row, None when not finite *)
  Variable magnitude : Q -> P -> P -> Q -> option N.
  Variable phase : P -> P -> option N.
  (* propagator.py:209-214 *)
  Definition in_scale (from to : string) (o : obsr) : obsr :=
    if String.eqb to from then o else let '(d, n) := rescale from to (o_days o, o_nanos o) in mk_obsr (o_code o) d n (o_pos o).
  (* propagator.py:225-239; magnitude.py:35-63: the positions of a row and its observer *)
  Definition pair_of (e : erow) (o : option obsr) : option (P * P) :=
    match e_pos e, o with Some p, Some b => match o_pos b with Some q => if geometry_ok p q then Some (p, q) else None | None => None end | _, _ => None end.
  (* propagator.py:241-274: the new columns of a row *)
  Definition with_columns (want_mag want_alpha : bool) (e : erow) (h : option (Q * Q)) (g : P * P) : erow :=
    mk_erow (e_orbit e) (e_code e) (e_days e) (e_nanos e) (e_pos e)
      (if want_alpha then phase (fst g) (snd g) else e_alpha e)
      (if want_mag then match h with Some (x, y) => magnitude x (fst g) (snd g) y | None => None end else e_mag e).
  (* propagator.py:172-276 *)
  Definition attach (want_mag want_alpha : bool) (eph_scale obs_scale : string) (os : list hgrow) (observers : list obsr) (eph : list erow) : result (list erow) :=
    if (negb want_mag && negb want_alpha) || (match eph with [] => true | _ => false end) then Ok eph
    else if forallb (fun e => match e_pos e with None => true | _ => false end) eph then Ok eph
    else
      bind (if want_mag then hg_params os (map e_orbit eph) else Ok (map (fun _ => None) eph)) (fun hg =>
      let want_mag := want_mag && existsb (fun h => match h with Some _ => true | None => false end) hg in
      if negb want_alpha && negb want_mag then Ok eph
      else
        let obs := map (in_scale obs_scale eph_scale) observers in
        bind (align (map (fun o => key (o_code o) (o_days o) (o_nanos o)) obs) (map (fun e => key (e_code e) (e_days e) (e_nanos e)) eph)) (fun idx =>
        mapM (fun q => let '(e, (h, i)) := q in
               match pair_of e (nth_error obs i) with Some g => Ok (with_columns want_mag want_alpha e h g) | None => Err ValueError end)
             (combine eph (combine hg idx)))).
End Attach.
