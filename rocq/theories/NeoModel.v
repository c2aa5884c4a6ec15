(* Model of src/adam_core/orbits/query/neocc.py: _parse_oef and query_neocc (definitions only).
   Simplifications: text is ASCII and floats are exact rationals; float() is a parameter, None where it raises ValueError,
   infinities and NaN in a file are outside the model; the server is a function from the name of a file to its text, None
   where the request or raise_for_status raises; NaN of the photometric columns is None;
   the model ends at the Keplerian coordinates, their conversion to Cartesian ones is that of KepModel. *)
From Coq Require Import Ascii String QArith ZArith List Bool.
From Verif Require Import Base TimeModel MpcModel ObsModel AdesModel CovModel.
Import ListNotations.
Open Scope string_scope.
Open Scope list_scope.
Open Scope nat_scope.

(* ---- the text of a file ---- *)
(* neocc.py:104: line.split("=", 1) where "=" is in line *)
Fixpoint split_once (c : ascii) (s : str) : option (str * str) :=
  match s with
  | [] => None
  | x :: r => if Ascii.eqb x c then Some ([], r)
              else match split_once c r with Some (a, b) => Some (x :: a, b) | None => None end
  end.
(* neocc.py:105: .strip("'") *)
Fixpoint lstrip_char (c : ascii) (s : str) : str :=
  match s with [] => [] | x :: r => if Ascii.eqb x c then lstrip_char c r else s end.
(* neocc.py:105: .strip("'") *)
Definition strip_char (c : ascii) (s : str) : str := rev (lstrip_char c (rev (lstrip_char c s))).
(* neocc.py:105 *)
Definition header_value (v : str) : str := strip_char "'" (strip (hd [] (split_on "!" v))).
(* neocc.py:98-106 *)
Fixpoint parse_header (ls : list str) (h : list (str * str)) : list (str * str) :=
  match ls with
  | [] => h
  | l :: r => if str_eqb (strip l) (s_ "END_OF_HEADER") then h
              else match split_once "=" (strip l) with
                   | Some (k, v) => parse_header r (dset str_eqb (strip k) (header_value v) h)
                   | None => parse_header r h
                   end
  end.
(* neocc.py:111 *)
Definition not_ids : list str := [s_ "!"; s_ " "; s_ "format"; s_ "rectype"; s_ "refsys"; s_ "END_OF_HEADER"].
(* neocc.py:109-114 *)
Definition find_id (ls : list str) : option str :=
  option_map strip (find (fun l => negb (existsb (fun p => startswith p l) not_ids)) ls).

Section Reading.
Variable fl : str -> option Q.
(* float(x) *)
(* helper of [kep], neocc.py:117-128 *)
Definition float_ (x : str) : result Q := match fl x with Some q => Ok q | None => Err ValueError end.
(* float(l[i]) *)
(* helper of [kep], neocc.py:117-128 *)
Definition float_at (l : list str) (i : nat) : result Q := match nth_error l i with Some x => float_ x | None => Err IndexError end.
(* neocc.py:117-118, 132-133, 139-140, 159-160, 177-178: the lines of a keyword *)
Definition of_keyword (kw : string) (ls : list str) : list str := filter (fun l => startswith (s_ kw) (strip l)) ls.
(* line.split()[1:] *)
(* helper of [kep], neocc.py:117-128 *)
Definition fields (l : str) : list str := tl (words l).
(* a value assigned in a loop: every line is read, the last one stays *)
(* helper of [parse_oef], neocc.py:117-146 *)
Definition last_line {A} (f : str -> result A) (ls : list str) : result (option A) :=
  fold_left (fun acc l => bind acc (fun _ => bind (f l) (fun x => Ok (Some x)))) ls (Ok None).
(* neocc.py:117-128: a, e, i, node, peri, M *)
Definition kep (l : str) : result (list Q) := mapM (float_at (fields l)) [0; 1; 2; 3; 4; 5].
(* neocc.py:131-134; the float is read before the time system *)
Definition epoch (l : str) : result (Q * str) :=
  bind (float_at (words l) 1) (fun q => match nth_error (words l) 2 with Some s => Ok (q, s) | None => Err IndexError end).
(* neocc.py:138-144 *)
Definition magnitude (l : str) : result (Q * Q) :=
  bind (float_at (fields l) 0) (fun h => bind (float_at (fields l) 1) (fun g => Ok (h, g))).
(* neocc.py:147-156: values of lines starting with "!", a number or a text *)
Definition derived (ls : list str) : list (str * (Q + str)) :=
  fold_left (fun d l =>
    match words l with
    | _ :: k :: v :: _ => if startswith (s_ "!") (strip l) then dset str_eqb (lower k) (match fl v with Some q => inl q | None => inr v end) d else d
    | _ => d
    end) ls [].
(* neocc.py:158-161, 176-179 *)
Definition triangle (kw : string) (ls : list str) : result (list Q) :=
  bind (mapM (fun l => mapM float_ (fields l)) (of_keyword kw ls)) (fun r => Ok (concat r)).

(* neocc.py:95-185: the dictionary; a missing key is None *)
Record oef := mkoef {
  d_header : list (str * str); d_id : option str; d_elements : option (list Q); d_epoch : option (Q * str);
  d_mag : option (Q * Q); d_derived : list (str * (Q + str));
  d_cov : option (nat -> nat -> Q); d_cor : option (nat -> nat -> Q) }.
(* neocc.py:39-185 *)
Definition parse_oef (data : str) : result oef :=
  let ls := split_on NL (strip data) in
  bind (last_line kep (of_keyword "KEP" ls)) (fun el =>
  bind (last_line epoch (of_keyword "MJD" ls)) (fun ep =>
  bind (last_line magnitude (of_keyword "MAG" ls)) (fun mg =>
  bind (bind (triangle "COV" ls) (oef_covariance 0%Q)) (fun cov =>
  bind (bind (triangle "COR" ls) (oef_covariance 0%Q)) (fun cor =>
  Ok (mkoef (parse_header ls []) (find_id ls) el ep mg (derived ls) cov cor)))))).

(* ---- the query ---- *)
(* neocc.py:238, 257 and other exceptions *)
Inductive nerr := NHttp | NNotImplemented | NErr (e : err).
(* exceptions as values *)
Inductive nres (A : Type) := NOk (a : A) | NFail (e : nerr).
Arguments NOk {A}. Arguments NFail {A}.
(* exceptions as values *)
Definition nbind {A B} (x : nres A) (f : A -> nres B) : nres B := match x with NOk a => f a | NFail e => NFail e end.
(* exceptions as values *)
Definition lift {A} (x : result A) : nres A := match x with Ok a => NOk a | Err e => NFail (NErr e) end.
(* data[key] *)
(* helper of [orbit_of], neocc.py:261-297 *)
Definition need_key {A} (x : option A) : result A := match x with Some a => Ok a | None => Err KeyError end.

(* neocc.py:275-297: one row of the orbits; the sigmas of H and G are NaN *)
Record orbit := mkorbit {
  n_orbit_id : str; n_object_id : str; n_elements : list Q; n_time : row; n_scale : str; n_frame : str; n_origin : str;
  n_cov : nat -> nat -> Q; n_H : option Q; n_G : option Q }.
(* neocc.py:261-297: the rows of one file *)
Definition orbit_of (d : oef) : result (list orbit) :=
  match d_epoch d with
  | None => Ok []
  | Some (q, ts) =>
      if negb (str_eqb ts (s_ "TDT")) then Err ValueError
      else bind (need_key (dget str_eqb (s_ "refsys") (d_header d))) (fun refsys =>
        if negb (str_eqb refsys (s_ "ECLM J2000")) then Err ValueError
        else bind (need_key (d_id d)) (fun id =>
             bind (need_key (d_elements d)) (fun el =>
             bind (need_key (d_cov d)) (fun cov =>
             Ok [mkorbit id id el (from_mjd q) (s_ "tt") (s_ "ecliptic") (s_ "SUN") cov
                   (option_map fst (d_mag d)) (option_map snd (d_mag d))]))))
  end.
(* neocc.py:252 *)
Definition clean_id (i : str) : str := filter (fun c => negb (Ascii.eqb c " ")) i.
(* neocc.py:254 *)
Definition file_name (i typ ep : str) : str := clean_id i ++ s_ "." ++ typ ++ ep.
(* neocc.py:240-245 *)
Definition epoch_code (e : str) : option str :=
  if str_eqb e (s_ "middle") then Some (s_ "0") else if str_eqb e (s_ "present-day") then Some (s_ "1") else None.

Variable get : str -> option str.
(* neocc.py:249-298: the loop body *)
Definition query_one (typ ep i : str) : nres (list orbit) :=
  match get (file_name i typ ep) with
  | None => NFail NHttp
  | Some text => nbind (lift (parse_oef text)) (fun d => if str_eqb typ (s_ "ke") then lift (orbit_of d) else NOk [])
  end.
(* neocc.py:247-300: the loop *)
Fixpoint query_all (typ ep : str) (ids : list str) : nres (list orbit) :=
  match ids with
  | [] => NOk []
  | i :: r => nbind (query_one typ ep i) (fun a => nbind (query_all typ ep r) (fun b => NOk (a ++ b)))
  end.
(* neocc.py:213-300 *)
Definition query_neocc (ids : list str) (typ ep : str) : nres (list orbit) :=
  if str_eqb typ (s_ "eq") then NFail NNotImplemented
  else match epoch_code ep with None => NFail (NErr ValueError) | Some e => query_all typ e ids end.
End Reading.
Arguments NOk {A}. Arguments NFail {A}.
