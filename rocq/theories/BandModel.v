(* Mapping reported bands to filter ids:
   /repo/src/adam_core/photometry/bandpasses/api.py lines 38-99, 223-406.
   Strings are ASCII; a null cell is [None].  The vendored tables (filter curves,
   observatory band map) are parameters: the list of filter ids that have a curve,
   and the list of (key, filter_id) rows in file order. *)
From Coq Require Import List String Ascii Bool.
From Verif Require Import Base.
Import ListNotations.
Open Scope string_scope.
Open Scope list_scope.

(* pyarrow utf8_trim_whitespace / str.lower on ASCII text *)
(* helper of [normalize_x05], api.py:55-99 *)
Definition is_space (c : ascii) : bool :=
  let n := nat_of_ascii c in
  (((9 <=? n) && (n <=? 13)) || (n =? 32) || ((28 <=? n) && (n <=? 31)))%nat.
(* helper of [normalize_x05], api.py:55-99 *)
Definition lower_char (c : ascii) : ascii :=
  let n := nat_of_ascii c in
  if ((65 <=? n) && (n <=? 90))%nat then ascii_of_nat (n + 32) else c.
(* helper of [normalize_x05], api.py:55-99 *)
Fixpoint lower (s : string) : string :=
  match s with
  | EmptyString => EmptyString
  | String c r => String (lower_char c) (lower r)
  end.
(* helper of [normalize_x05], api.py:55-99 *)
Fixpoint trim_left (s : string) : string :=
  match s with
  | EmptyString => EmptyString
  | String c r => if is_space c then trim_left r else s
  end.
(* helper of [normalize_x05], api.py:55-99 *)
Fixpoint trim_right (s : string) : string :=
  match s with
  | EmptyString => EmptyString
  | String c r =>
      match trim_right r with
      | EmptyString => if is_space c then EmptyString else String c EmptyString
      | t => String c t
      end
  end.
(* helper of [normalize_x05], api.py:55-99 *)
Definition trim (s : string) : string := trim_right (trim_left s).

(* utf8_slice_codeunits(b, n) *)
(* helper of [normalize_x05], api.py:55-99 *)
Fixpoint drop (n : nat) (s : string) : string :=
  match n, s with
  | S n', String _ r => drop n' r
  | _, _ => s
  end.

(* helper of [normalize_x05], api.py:55-99 *)
Definition in_strings (s : string) (l : list string) : bool := existsb (String.eqb s) l.

(* api.py 55-99, the row whose code is "X05": whitespace, the "LSST_" prefix, the
   two-letter "Lg" forms in either case, and "Y" *)
Definition normalize_x05 (b : string) : string :=
  let b := trim b in
  let b := if prefix "LSST_" b then drop 5 b else b in
  let b := if in_strings b ["Lu"; "Lg"; "Lr"; "Li"; "Lz"; "Ly"] then drop 1 b else b in
  let b := if in_strings b ["LU"; "LG"; "LR"; "LI"; "LZ"; "LY"] then lower (drop 1 b) else b in
  if String.eqb b "Y" then "y" else b.

(* api.py 73-99 on one row.  A row with a null code or band ends with a null key in
   either case, so the null cases need no value here. *)
Definition band_for_map (code band : string) : string :=
  if String.eqb code "X05" then normalize_x05 band else band.

(* api.py 47-52 (_key_from_code_band): null when either part is null *)
Definition key_of (code band : option string) : option string :=
  match code, band with
  | Some c, Some b => Some (c ++ "|" ++ band_for_map c b)%string
  | _, _ => None
  end.

(* api.py 328-351: a missing band is the text "None" there *)
Definition fallback_of (band : option string) : option string :=
  match band with
  | None => None
  | Some b =>
      let b := lower b in
      if String.eqb b "u" then Some "SDSS_u"
      else if String.eqb b "g" then Some "SDSS_g"
      else if String.eqb b "r" then Some "SDSS_r"
      else if String.eqb b "i" then Some "SDSS_i"
      else if String.eqb b "z" then Some "SDSS_z"
      else if String.eqb b "y" then Some "PS1_y"
      else None
  end.

Section Tables.
Variable curves : list string.
Variable band_map : list (string * string).

(* helper of [resolve_row], api.py:294-351 *)
Definition known (f : option string) : bool :=
  match f with Some s => in_strings s curves | None => false end.

(* pc.index_in + take: the first row with that key *)
(* helper of [resolve_row], api.py:294-351 *)
Fixpoint lookup (k : string) (l : list (string * string)) : option string :=
  match l with
  | [] => None
  | (k', v) :: r => if String.eqb k k' then Some v else lookup k r
  end.

(* api.py 294-351 on one row: the output and whether the fallback was used *)
Definition resolve_row (code band : option string) : option string * bool :=
  if known band then (band, false)
  else
    match (match key_of code band with Some k => lookup k band_map | None => None end) with
    | Some f => (Some f, false)
    | None =>
        match fallback_of band with
        | Some f => (Some f, true)
        | None => (None, false)
        end
    end.

(* helper of [map_to_canonical_filter_bands], api.py:223-406 *)
Definition is_none {A} (o : option A) : bool := match o with None => true | Some _ => false end.

(* api.py 223-406.  [mode] is the on_unknown text. *)
Definition map_to_canonical_filter_bands
    (codes bands : list (option string)) (allow : bool) (mode : string)
    : result (list (option string)) :=
  match zip_opt codes bands with
  | None => Err ValueError
  | Some rows =>
      let out := map (fun r => resolve_row (fst r) (snd r)) rows in
      if negb (in_strings mode ["raise"; "skip"]) then Err ValueError
      else if String.eqb mode "raise" && existsb (fun o => is_none (fst o)) out
      then Err ValueError
      else if negb allow && existsb snd out && negb (String.eqb mode "skip")
      then Err ValueError
      else
        let out' :=
          if negb allow && existsb snd out
          then map (fun o : option string * bool => if snd o then None else fst o) out
          else map fst out in
        if existsb (fun f => negb (is_none f) && negb (known f)) out'
        then Err ValueError
        else Ok out'
  end.

(* api.py:409-426 *)
Definition assert_filter_ids_have_curves (fs : list (option string)) : result unit :=
  if forallb known fs then Ok tt else Err ValueError.
End Tables.
