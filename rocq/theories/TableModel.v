(* Model of the table operations that group rows, compute per group and restore the order, and of
   the linkage to observers (definitions only). *)
From Coq Require Import String.
From Verif Require Import Base TimeModel.
Open Scope Z_scope.
Open Scope list_scope.

(* ---- pyarrow helpers ---- *)
(* pc.indices_nonzero(pc.equal(l, k)) *)
(* helper of [from_codes], observers/observers.py:119-175 *)
Definition positions {K} (eqb : K -> K -> bool) (k : K) (l : list K) : list nat :=
  map fst (filter (fun p => eqb (snd p) k) (combine (seq 0 (List.length l)) l)).
(* Table.take *)
(* helper of [from_codes], observers/observers.py:119-175 *)
Definition take {A} (l : list A) (is : list nat) : result (list A) :=
  mapM (fun i => match nth_error l i with Some x => Ok x | None => Err IndexError end) is.
(* np.argsort / pc.array_sort_indices of distinct integers *)
(* helper of [exposure_observers], observations/exposures.py:38-74 *)
Definition argsort (l : list nat) : list nat :=
  map snd (sort (fun a b => Nat.leb (fst a) (fst b)) (combine l (seq 0 (List.length l)))).

(* nullable string keys: pc.equal with a null on either side is null, and a null mask entry
   selects nothing *)
(* helper of [from_codes], observers/observers.py:119-175 *)
Definition okey_eqb (a b : option string) : bool :=
  match a, b with Some x, Some y => String.eqb x y | _, _ => false end.
(* unique() keeps one null *)
(* helper of [from_codes], observers/observers.py:119-175 *)
Definition okey_same (a b : option string) : bool :=
  match a, b with Some x, Some y => String.eqb x y | None, None => true | _, _ => false end.

(* ---- observers/observers.py:119-175 Observers.from_codes ----
   [state c ts]: get_observer_state(code, times).  A null code fails the isinstance test of
   from_code (ValueError). *)
Section FromCodes.
  Context {T S : Type} (state : string -> list T -> result (list S)).
  Definition from_codes (codes : list (option string)) (times : list T) : result (list (string * S)) :=
    if negb (Nat.eqb (List.length codes) (List.length times)) then Err ValueError
    else
      bind (mapM (fun c => match c with
                           | None => Err ValueError
                           | Some code =>
                               let is := positions okey_eqb c codes in
                               bind (take times is) (fun ts =>
                               bind (state code ts) (fun ss =>
                               match zip_opt is ss with
                               | Some l => Ok (map (fun p => (fst p, (code, snd p))) l)
                               | None => Err ValueError
                               end))
                           end) (uniq okey_same codes)) (fun parts =>
      Ok (map snd (sort (fun a b => Nat.leb (fst a) (fst b)) (concat parts)))).
  (* ---- observations/exposures.py:38-74 Exposures.observers ----
     observatory_code is not nullable; [midpoint] of one exposure; pa.concat_arrays([]) raises *)
  Definition exposure_observers {X} (code : X -> string) (midpoint : X -> T) (xs : list X) : result (list (string * S)) :=
    let codes := map code xs in
    bind (mapM (fun c =>
                  bind (state c (map midpoint (filter (fun x => String.eqb (code x) c) xs))) (fun ss =>
                  Ok (positions String.eqb c codes, map (fun s => (c, s)) ss)))
               (uniq String.eqb codes)) (fun parts =>
    match parts with
    | [] => Err ArrowInvalid
    | _ => take (concat (map snd parts)) (argsort (concat (map fst parts)))
    end).
End FromCodes.

(* ---- coordinates/transform.py:1617-1719 apply_time_varying_rotation ----
   [rot fin fout t s]: rotate of one row (state and covariance) by the unit-converted sxform
   matrix at epoch t; a row is (epoch, origin, state).  unique() returns the distinct epochs in
   some order: here first-seen order. *)
Definition spice_name (f : string) : result string :=
  if String.eqb f "itrf93" then Ok "ITRF93"%string
  else if String.eqb f "ecliptic" then Ok "ECLIPJ2000"%string
  else if String.eqb f "equatorial" then Ok "J2000"%string
  else Err ValueError.
Section Rotation.
  Context {St : Type} (rot : string -> string -> row -> St -> St).
(* helper of [cartesian_to_frame], transform.py:1722-1753 *)
  Record frow := mkfrow { f_time : row; f_origin : string; f_state : St }.
(* helper of [cartesian_to_frame], transform.py:1722-1753 *)
  Definition apply_time_varying_rotation (fin fout : string) (cs : list frow) : result (list frow) :=
    if negb (Nat.eqb (List.length (uniq String.eqb (map f_origin cs))) 1) then Err AssertionError
    else
      bind (spice_name fout) (fun so => bind (spice_name fin) (fun si =>
      let times := map f_time cs in
      let ut := uniq row_eqb times in
      let indices := concat (map (fun t => positions row_eqb t times) ut) in
      let rotated := concat (map (fun t =>
            map (fun r => mkfrow (f_time r) (f_origin r) (rot si so t (f_state r)))
                (filter (fun r => row_eqb (f_time r) t) cs)) ut) in
      take rotated (argsort indices))).
  (* transform.py:1722-1753 cartesian_to_frame; [fixed] rotates by TRANSFORM_EQ2EC (true) or
     TRANSFORM_EC2EQ (false) *)
  Variable fixed : bool -> St -> St.
  Definition cartesian_to_frame (fin fout : string) (cs : list frow) : result (list frow) :=
    let app b := Ok (map (fun r => mkfrow (f_time r) (f_origin r) (fixed b (f_state r))) cs) in
    if String.eqb fout "ecliptic" && String.eqb fin "equatorial" then app true
    else if String.eqb fout "equatorial" && String.eqb fin "ecliptic" then app false
    else if String.eqb fout "itrf93" && negb (String.eqb fin "itrf93") then apply_time_varying_rotation fin fout cs
    else if negb (String.eqb fout "itrf93") && String.eqb fin "itrf93" then apply_time_varying_rotation fin fout cs
    else if String.eqb fout fin then Ok cs
    else Err ValueError.
End Rotation.
Arguments mkfrow {St}. Arguments f_time {St}. Arguments f_origin {St}. Arguments f_state {St}.

(* ---- grouping iterators ---- *)
Section Groups.
  Context {A : Type}.
  (* orbits/orbits.py:26-40 group_by_orbit_id and exposures.py:28-36 group_by_observatory_code:
     unique() then apply_mask; the key columns are not nullable *)
  Definition group_by_key (key : A -> string) (l : list A) : list (string * list A) :=
    map (fun k => (k, filter (fun x => String.eqb (key x) k) l)) (uniq String.eqb (map key l)).
  (* observers.py:225-237 iterate_codes: unique().sort() *)
  Variable str_leb : string -> string -> bool.
  Definition iterate_codes (key : A -> string) (l : list A) : list (string * list A) :=
    map (fun k => (k, filter (fun x => String.eqb (key x) k) l)) (sort str_leb (uniq String.eqb (map key l))).
  (* detections.py:54-65 group_by_healpixel: np.unique (sorted) *)
  Definition group_by_healpixel (pix : A -> Z) (l : list A) : list (Z * list A) :=
    map (fun k => (k, filter (fun x => pix x =? k) l)) (sort Z.leb (uniq Z.eqb (map pix l))).
  (* Table.sort_by of a nullable string column: ascending, nulls at the end, stable *)
(* helper of [group_by_exposure], detections.py:36-46 *)
  Definition oleb (a b : option string) : bool :=
    match a, b with Some x, Some y => str_leb x y | Some _, None => true | None, None => true | None, Some _ => false end.
(* helper of [group_by_exposure], detections.py:36-46 *)
  Definition sort_by (key : A -> option string) (l : list A) : list A := sort (fun a b => oleb (key a) (key b)) l.
  (* associations.py:21-45 group_by_object *)
  Definition is_null (k : option string) : bool := match k with None => true | Some _ => false end.
  (* associations.py:21-45 *)
  Definition group_by_object (key : A -> option string) (l : list A) : list (list A) :=
    let ids := uniq okey_same (map key l) in
    let s := sort_by key l in
    map (fun k => filter (fun x => okey_eqb (key x) k) s) (filter (fun k => negb (is_null k)) ids)
    ++ (if existsb is_null ids then [filter (fun x => is_null (key x)) s] else []).
  (* detections.py:36-46 group_by_exposure *)
  Definition group_by_exposure (key : A -> option string) (l : list A) : list (list A) :=
    let s := sort_by key l in
    map (fun k => filter (fun x => okey_eqb (key x) k) s) (uniq okey_same (map key l)).
End Groups.

(* ---- quivr linkages: for every distinct key of either side, the rows (with index) of both
   sides having that key; null keys match nothing ---- *)
Section Link.
  Context {K : Type} (eqb : K -> K -> bool).
  (* time.py:755-783 and quivr linkage *)
  Definition link_groups (left right : list K) : list (K * list nat * list nat) :=
    map (fun k => (k, positions eqb k left, positions eqb k right)) (uniq eqb (left ++ right)).
End Link.

(* orbits/ephemeris.py:28-101 Ephemeris.link_to_observers: the groups and whether the warning is
   issued *)
Definition okeyp := (row * string)%type.
(* keys of orbits/ephemeris.py:28-102 *)
Definition okeyp_eqb (a b : okeyp) : bool := row_eqb (fst a) (fst b) && String.eqb (snd a) (snd b).
(* orbits/ephemeris.py:28-102 *)
Definition link_to_observers (E : time_env) (p : precision) (eph : timestamp) (ecodes : list string)
    (obs : timestamp) (ocodes : list string) : result (list (okeyp * list nat * list nat) * bool) :=
  bind (if String.eqb (scale eph) (scale obs) then Ok obs else rescale E obs (scale eph)) (fun obs' =>
  bind (rounded p eph) (fun re =>
  bind (rounded p obs') (fun ro =>
  let gs := link_groups okeyp_eqb (combine (rows re) ecodes) (combine (rows ro) ocodes) in
  let expected := List.length (uniq okeyp_eqb (combine (rows obs') ocodes)) in
  Ok (gs, negb (Nat.eqb expected (List.length gs)))))).
