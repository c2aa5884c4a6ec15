(* Model of src/adam_core/orbits/query/sbdb.py: query_sbdb_new and what it calls (definitions only).
   Simplifications: exact arithmetic, NaN is None; JSON objects have distinct keys; the reader of floats in text
   ([float] of a string) and the text of a value that is neither a string nor None are parameters;
   NotFoundError is [KeyError]; an entry of a matrix that is a dictionary gives ValueError; a query for no id
   gives an empty table; the model ends at the cometary coordinates, their conversion is that of KepModel. *)
From Coq Require Import QArith ZArith String List Bool DecimalString.
From Verif Require Import Base ResModel CovModel TimeModel.
Import ListNotations.
Open Scope string_scope.
Open Scope list_scope.
Open Scope nat_scope.

(* sbdb.py:318: the value of resp.json() *)
Inductive json := JNull | JBool (b : bool) | JNum (x : num) | JStr (s : string) | JList (l : list json) | JObj (o : list (string * json)).
(* sbdb.py:318 *)
Definition dict := list (string * json).
(* sbdb.py:368, 392, 520: dict.get *)
Definition get (k : string) (o : dict) : json := match find (fun p => String.eqb (fst p) k) o with Some p => snd p | None => JNull end.
(* sbdb.py:381, 510, 541: key in dict *)
Definition has (k : string) (o : dict) : bool := existsb (fun p => String.eqb (fst p) k) o.
(* sbdb.py:439, 515, 519: the truth of a value *)
Definition truthy (j : json) : bool :=
  match j with
  | JNull => false
  | JBool b => b
  | JNum (Some q) => negb (Qeq_bool q 0)
  | JNum None => true
  | JStr s => negb (String.eqb s "")
  | JList l => match l with [] => false | _ => true end
  | JObj o => match o with [] => false | _ => true end
  end.
(* sbdb.py:515, 519: value or {}, whose .get is then called *)
Definition or_empty (j : json) : result dict :=
  if truthy j then match j with JObj o => Ok o | _ => Err AttributeError end else Ok [].
(* sbdb.py:516: f"{i:05d}" *)
Definition dec (n : N) : string := NilZero.string_of_uint (N.to_uint n).
(* helper of [pad5], sbdb.py:516 *)
Fixpoint zero_text (k : nat) : string := match k with O => "" | Datatypes.S m => String (Ascii.ascii_of_nat 48) (zero_text m) end.
(* sbdb.py:516 *)
Definition pad5 (i : nat) : string := let s := dec (N.of_nat i) in (zero_text (5 - String.length s) ++ s)%string.

(* sbdb.py:61-107: entry (a, b) of the result; the symmetric pairs are assigned together *)
Definition convert_covariance {A} (s : nat -> nat -> A) (zero : A) (a b : nat) : A :=
  match a, b with
  | 0, 0 => s 1 1
  | 1, 0 | 0, 1 => s 0 1
  | 2, 0 | 0, 2 => s 5 1
  | 3, 0 | 0, 3 => s 3 1
  | 4, 0 | 0, 4 => s 4 1
  | 5, 0 | 0, 5 => s 2 1
  | 1, 1 => s 0 0
  | 2, 1 | 1, 2 => s 5 0
  | 3, 1 | 1, 3 => s 3 0
  | 4, 1 | 1, 4 => s 4 0
  | 5, 1 | 1, 5 => s 2 0
  | 2, 2 => s 5 5
  | 3, 2 | 2, 3 => s 3 5
  | 4, 2 | 2, 4 => s 4 5
  | 5, 2 | 2, 5 => s 2 5
  | 3, 3 => s 3 3
  | 4, 3 | 3, 4 => s 4 3
  | 5, 3 | 3, 5 => s 2 3
  | 4, 4 => s 4 4
  | 5, 4 | 4, 5 => s 2 4
  | 5, 5 => s 2 2
  | _, _ => zero
  end.
(* sbdb.py:538, 568: entry (i, j) of a matrix *)
Definition entry (m : list (list num)) (i j : nat) : num := nth j (nth i m []) None.

(* sbdb.py:593-612: a row of the result, before its conversion to Cartesian *)
Record sorb := mksorb { sb_id : string; sb_object : string; sb_time : row; sb_scale : string; sb_coords : list num;
                        sb_cov : nat -> nat -> num; sb_phys : num * num * num * num; sb_origin : string; sb_frame : string }.
(* sbdb.py:509-587: what the loop stores of one payload *)
Record spre := mkspre { sp_object : string; sp_epoch : num; sp_coords : list num; sp_cov : nat -> nat -> num; sp_phys : num * num * num * num }.

Section Sbdb.
  (* sbdb.py:354: float of a string, None where it raises *)
  Variable parse : string -> option num.
  (* sbdb.py:371, 443, 517, 528: str of a value other than a string or None *)
  Variable text : json -> string.

  (* sbdb.py:371, 517, 528 *)
  Definition str_of_json (j : json) : string := match j with JStr s => s | JNull => "None" | _ => text j end.
  (* sbdb.py:342-355 *)
  Definition sbdb_float (j : json) : result num :=
    match j with
    | JNull => Err ValueError
    | JNum x => Ok x
    | JBool b => Ok (Some (if b then 1 else 0)%Q)
    | JStr s => match parse s with Some x => Ok x | None => Err ValueError end
    | _ => Err TypeError
    end.
  (* sbdb.py:365-371, 440-443: the dictionaries of a list that have a name; the last of a name counts *)
  Definition named (l : list json) (name : string) : option dict :=
    find (fun o => match get "name" o with JNull => false | j => String.eqb (str_of_json j) name end)
         (rev (flat_map (fun j => match j with JObj o => [o] | _ => [] end) l)).
  (* sbdb.py:375-383 *)
  Definition element_value (els : list json) (name : string) : result num :=
    match named els name with
    | None => Err ValueError
    | Some el => match get "value" el with JNull => Err ValueError | v => sbdb_float v end
    end.
  (* sbdb.py:386-400 *)
  Definition element_sigma (els : list json) (name : string) : result num :=
    match named els name with
    | None => Err ValueError
    | Some el => match sbdb_float (get "sigma" el) with Ok x => Ok x | Err _ => Ok None end
    end.
  (* sbdb.py:403-426: the field of an entry of phys_par, None if there is none that can be read *)
  Definition phys_field (key : string) (el : option dict) : option num :=
    match el with
    | None => None
    | Some o => match sbdb_float (get key o) with Ok x => Some x | Err _ => None end
    end.
  (* sbdb.py:444-449: a or b, zero counting as missing *)
  Definition or_num (a b : option num) : option num :=
    match a with
    | None => b
    | Some (Some q) => if Qeq_bool q 0 then b else a
    | Some None => a
    end.
  (* sbdb.py:439: payload.get("phys_par") or [], then iterated over *)
  Definition phys_list (j : json) : result (list json) :=
    if truthy j then match j with
                     | JList l => Ok l
                     | JObj _ | JStr _ => Ok []
                     | _ => Err TypeError
                     end
    else Ok [].
  (* sbdb.py:461-476: None becomes NaN *)
  Definition or_nan (x : option num) : num := match x with Some y => y | None => None end.
  (* sbdb.py:429-452, 455-482 *)
  Definition phys_par (payload : dict) : result (num * num * num * num) :=
    bind (phys_list (get "phys_par" payload)) (fun l =>
    let h := named l "H" in
    let hm := named l "H_mag" in
    let g := named l "G" in
    Ok (or_nan (or_num (phys_field "value" h) (phys_field "value" hm)),
        or_nan (or_num (phys_field "sigma" h) (phys_field "sigma" hm)),
        or_nan (phys_field "value" g), or_nan (phys_field "sigma" g))).

  (* sbdb.py:535: np.asarray of one entry *)
  Definition cell_of (j : json) : result num :=
    match j with
    | JNull => Ok None
    | JNum x => Ok x
    | JBool b => Ok (Some (if b then 1 else 0)%Q)
    | JStr s => match parse s with Some x => Ok x | None => Err ValueError end
    | _ => Err ValueError
    end.
  (* sbdb.py:535-537: rows of one length, at least six by six *)
  Definition matrix_of (j : json) : result (list (list num)) :=
    match j with
    | JList rows =>
        bind (mapM (fun r => match r with JList cells => mapM cell_of cells | _ => Err ValueError end) rows) (fun m =>
        match m with
        | [] => Err ValueError
        | r :: _ => if forallb (fun x => Nat.eqb (List.length x) (List.length r)) m && Nat.leb 6 (List.length m) && Nat.leb 6 (List.length r)
                    then Ok m else Err ValueError
        end)
    | _ => Err ValueError
    end.
  (* sbdb.py:499 *)
  Definition expected_labels : list string := ["e"; "q"; "tp"; "node"; "peri"; "i"].
  (* helper of [read_covariance], sbdb.py:529 *)
  Fixpoint str_list_eqb (a b : list string) : bool :=
    match a, b with [], [] => true | x :: a', y :: b' => String.eqb x y && str_list_eqb a' b' | _, _ => false end.
  (* sbdb.py:526-538 *)
  Definition read_covariance (cov : dict) : result (list (list num)) :=
    match get "labels" cov with
    | JList ls => if str_list_eqb (map str_of_json (firstn 6 ls)) expected_labels then matrix_of (get "data" cov) else Err ValueError
    | _ => matrix_of (get "data" cov)
    end.
  (* sbdb.py:520-544: the list of elements, the epoch and the covariance matrix if there is one *)
  Definition choose (orbit : dict) : result (json * num * option (list (list num))) :=
    bind (sbdb_float (get "epoch" orbit)) (fun epoch =>
    match get "covariance" orbit with
    | JObj cov =>
        match get "data" cov with
        | JNull => Ok (get "elements" orbit, epoch, None)
        | _ =>
            bind (read_covariance cov) (fun m =>
            match get "elements" cov with
            | JNull => Ok (get "elements" orbit, epoch, Some m)
            | els => match get "epoch" cov with
                     | JNull => Ok (els, epoch, Some m)
                     | t => bind (sbdb_float t) (fun e => Ok (els, e, Some m))
                     end
            end)
        end
    | _ => Ok (get "elements" orbit, epoch, None)
    end).
  (* sbdb.py:572-578: reading the times of NaN fails *)
  Definition jd_row (x : num) : result row := match x with Some q => Ok (from_jd q) | None => Err ArrowInvalid end.
  (* sbdb.py:510-587: one payload *)
  Definition read_payload (payload : dict) : result spre :=
    if negb (has "object" payload) then Err KeyError
    else if negb (has "orbit" payload) then Err ValueError
    else
      bind (or_empty (get "object" payload)) (fun obj =>
      bind (or_empty (get "orbit" payload)) (fun orbit =>
      bind (choose orbit) (fun c =>
      let '(els, epoch, cov) := c in
      match els with
      | JList l =>
          bind (match cov with
                | Some m => Ok m
                | None => bind (mapM (element_sigma l) ["e"; "q"; "tp"; "om"; "w"; "i"]) (fun s => Ok (sigmas_to_covariance s))
                end) (fun m =>
          bind (mapM (element_value l) ["q"; "e"; "i"; "om"; "w"; "tp"]) (fun v =>
          bind (jd_row (nth 5 v None)) (fun tp =>
          bind (phys_par payload) (fun ph =>
          Ok (mkspre (str_of_json (get "fullname" obj)) epoch (firstn 5 v ++ [Some (mjd tp)]) (convert_covariance (entry m) (Some 0%Q)) ph)))))
      | _ => Err ValueError
      end))).
  (* sbdb.py:485-612 *)
  Definition orbits_from_payloads (ids : list string) (payloads : list dict) : result (list sorb) :=
    if negb (Nat.eqb (List.length ids) (List.length payloads)) then Err ValueError
    else
      bind (mapM read_payload payloads) (fun pres =>
      bind (mapM (fun p => jd_row (sp_epoch p)) pres) (fun times =>
      Ok (map (fun q => let '(i, (p, t)) := q in
                 mksorb (pad5 i) (sp_object p) t "tdb" (sp_coords p) (sp_cov p) (sp_phys p) "SUN" "ecliptic")
              (combine (seq 0 (List.length pres)) (combine pres times))))).

  (* sbdb.py:644, 654-656: the futures in the order in which they are done *)
  Fixpoint collect {A} (fetch : nat -> result A) (order : list nat) (slots : list (option A)) : result (list (option A)) :=
    match order with
    | [] => Ok slots
    | i :: rest => bind (fetch i) (fun a => collect fetch rest (firstn i slots ++ Some a :: skipn (Datatypes.S i) slots))
    end.
  (* sbdb.py:615-663; [fetch i id] is the outcome of the requests for the i-th id *)
  Definition get_payloads (workers : Z) (order : list nat) (fetch : nat -> string -> result dict) (ids : list string) : result (list dict) :=
    if Z.leb workers 0 then Err ValueError
    else match ids with
         | [] => Ok []
         | _ => bind (collect (fun i => fetch i (nth i ids "")) order (repeat None (List.length ids))) (fun slots =>
                mapM (fun s => match s with Some d => Ok d | None => Err RuntimeError end) slots)
         end.
  (* sbdb.py:723-725, 730-732 *)
  Definition set_ids (ids : list string) (os : list sorb) : list sorb :=
    map (fun q => let '(i, o) := q in mksorb i (sb_object o) (sb_time o) (sb_scale o) (sb_coords o) (sb_cov o) (sb_phys o) (sb_origin o) (sb_frame o)) (combine ids os).
  (* sbdb.py:666-733 *)
  Definition query_sbdb_new (workers : Z) (order : list nat) (fetch : nat -> string -> result dict) (allow_missing from_input : bool) (ids : list string)
    : result (list sorb) :=
    bind (get_payloads workers order fetch ids) (fun payloads =>
    let kept := if allow_missing then filter (fun p => has "object" (snd p)) (combine ids payloads) else combine ids payloads in
    match kept with
    | [] => Ok []
    | _ => bind (orbits_from_payloads (map fst kept) (map snd kept)) (fun os =>
           Ok (if from_input then set_ids (map fst kept) os else os))
    end).
End Sbdb.

(* sbdb.py:314-333: what one request does *)
Inductive reply := RTimeout | RConnection | RHttp (status : option Z) (e : err) | ROther (e : err) | RJson (j : dict).
(* sbdb.py:336 *)
Definition wait (attempt : nat) : Q := if Qle_bool 8 ((1 # 2) * inject_Z (2 ^ Z.of_nat attempt)) then 8%Q else ((1 # 2) * inject_Z (2 ^ Z.of_nat attempt))%Q.
(* sbdb.py:311-339: the outcome, the number of requests and the times slept *)
Fixpoint attempts_loop (left attempt : nat) (server : nat -> reply) : result dict * nat * list Q :=
  match left with
  | O => (Err RuntimeError, 0, [])
  | Datatypes.S k =>
      let again := let '(r, n, w) := attempts_loop k (Datatypes.S attempt) server in (r, Datatypes.S n, wait attempt :: w) in
      match server attempt with
      | RJson j => (Ok j, 1, [])
      | RTimeout | RConnection => again
      | RHttp (Some s) e => if (Z.leb 500 s || Z.eqb s 429)%bool then again else (Err e, 1, [])
      | RHttp None e => (Err e, 1, [])
      | ROther e => (Err e, 1, [])
      end
  end.
(* sbdb.py:296: characters that strip removes *)
Definition is_space (c : Ascii.ascii) : bool :=
  let n := Ascii.nat_of_ascii c in (Nat.leb 9 n && Nat.leb n 13) || (Nat.leb 28 n && Nat.leb n 32).
(* sbdb.py:280-339 *)
Definition sbdb_get_json (id : string) (timeout : Q) (max_attempts : Z) (server : nat -> reply) : result dict * nat * list Q :=
  if forallb is_space (list_ascii_of_string id) then (Err ValueError, 0, [])
  else if Qle_bool timeout 0 then (Err ValueError, 0, [])
  else if Z.leb max_attempts 0 then (Err ValueError, 0, [])
  else attempts_loop (Z.to_nat max_attempts) 0 server.
