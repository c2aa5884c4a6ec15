(* Small specification of the band mapping, written against the documentation of
   map_to_canonical_filter_bands (api.py 234-243, 252-279). *)
From Coq Require Import List String Ascii Bool.
From Verif Require Import Base.
Import ListNotations.
Open Scope string_scope.
Open Scope list_scope.

(* the documented generic bands *)
Definition generic : list (string * string) :=
  [("u", "SDSS_u"); ("g", "SDSS_g"); ("r", "SDSS_r"); ("i", "SDSS_i"); ("z", "SDSS_z"); ("y", "PS1_y")].

(* a string of spaces and tabs *)
Inductive blank : string -> Prop :=
| blank_nil : blank ""
| blank_space s : blank s -> blank (String " " s)
| blank_tab s : blank s -> blank (String "009" s).

(* the accepted ways of writing an LSST band *)
Definition spellings (x : string) : list string :=
  match x with
  | "u" => ["u"; "LSST_u"; "Lu"; "LU"]
  | "g" => ["g"; "LSST_g"; "Lg"; "LG"]
  | "r" => ["r"; "LSST_r"; "Lr"; "LR"]
  | "i" => ["i"; "LSST_i"; "Li"; "LI"]
  | "z" => ["z"; "LSST_z"; "Lz"; "LZ"]
  | "y" => ["y"; "LSST_y"; "Ly"; "LY"; "Y"]
  | _ => []
  end.

(* first value stored under a key *)
Inductive first_value {K V} (k : K) : list (K * V) -> V -> Prop :=
| first_here v r : first_value k ((k, v) :: r) v
| first_later k' v' r v : k' <> k -> first_value k r v -> first_value k ((k', v') :: r) v.
