(* Model of src/adam_core/orbits/query/scout.py: query_scout, query_scout_observations and what they call (definitions only).
   Simplifications: exact arithmetic, NaN is None; the server is a function from object and number of the request to a reply;
   str of values, casefold, float and int of a string, sha256 and the reader of obs80 files are parameters;
   a response whose body is no JSON raises requests' JSONDecodeError, a RequestException without response;
   the wait before a retry is not negative; a null in a column that is not nullable gives some error [SOther];
   a whole number is an int64 cell whether JSON writes it 1 or 1.0; infinities are outside the model;
   the model ends at the cometary coordinates, their conversion is that of KepModel. *)
From Coq Require Import QArith ZArith String List Bool.
From Verif Require Import Base ResModel TimeModel SbdbModel.
Import ListNotations.
Open Scope string_scope.
Open Scope list_scope.
Open Scope nat_scope.

(* scout.py:79-81: a call that gives no response, or a response with a status and a body, None if it is no JSON *)
Inductive sreply := SNone | SResponse (status : Z) (body : option json).
(* scout.py:27-64, and other exceptions *)
Inductive serr :=
| SNotFound (object : string) (status : option Z)
| SUnavailable (object : string) (status : option Z)
| SQuery (object : string) (status : option Z)
| SMalformed (object : string)
| SOther (e : err).
(* exceptions as values *)
Inductive sres (A : Type) := SOk (a : A) | SErr (e : serr).
Arguments SOk {A}. Arguments SErr {A}.
(* exceptions as values *)
Definition sbind {A B} (x : sres A) (f : A -> sres B) : sres B := match x with SOk a => f a | SErr e => SErr e end.
(* exceptions as values *)
Fixpoint smapM {A B} (f : A -> sres B) (l : list A) : sres (list B) :=
  match l with [] => SOk [] | x :: l' => sbind (f x) (fun y => sbind (smapM f l') (fun r => SOk (y :: r))) end.

(* scout.py:81-83: the value, or the status of the exception *)
Inductive outcome := Value (j : json) | Failure (status : option Z).
(* scout.py:79-83; raise_for_status raises for 400 to 599 *)
Definition ask (r : sreply) : outcome :=
  match r with
  | SNone => Failure None
  | SResponse s body => if (400 <=? s)%Z && (s <? 600)%Z then Failure (Some s)
                        else match body with Some j => Value j | None => Failure None end
  end.
(* scout.py:84 *)
Definition retryable (status : option Z) : bool := match status with None => true | Some s => (s =? 429)%Z || (500 <=? s)%Z end.
(* scout.py:77-87: the outcome, the number of requests and the times slept *)
Fixpoint request_loop (delay : Q) (server : nat -> sreply) (left attempt : nat) : outcome * nat * list Q :=
  match ask (server attempt) with
  | Value j => (Value j, attempt + 1, [])
  | Failure st =>
      if negb (retryable st) then (Failure st, attempt + 1, [])
      else match left with
           | O => (Failure st, attempt + 1, [])
           | Datatypes.S m => let '(o, n, w) := request_loop delay server m (attempt + 1) in
                    (o, n, (delay * inject_Z (2 ^ Z.of_nat attempt))%Q :: w)
           end
  end.
(* scout.py:67-88 *)
Definition request_scout_json (max_attempts : Z) (delay : Q) (server : nat -> sreply) : outcome * nat * list Q :=
  request_loop delay server (Z.to_nat (Z.max 1 max_attempts) - 1) 0.

(* scout.py:138, 152: token in text *)
Fixpoint token_in (token s : string) : bool :=
  String.prefix token s || match s with EmptyString => false | String _ r => token_in token r end.
(* scout.py:139-145 *)
Definition gone_tokens : list string := ["not found"; "no object"; "does not exist"; "unknown object"; "invalid designation"].
(* scout.py:153-160 *)
Definition busy_tokens : list string := ["temporar"; "service unavailable"; "timeout"; "try again"; "rate limit"; "internal server"].

(* scout.py:260-300: the cells of a table of orbits *)
Inductive cell := CNull | CInt (z : Z) | CText (s : string).
(* scout.py:286-300: the columns: whether of integers, whether nullable *)
Definition schema : list (bool * bool) :=
  [(true, false); (false, false); (false, false); (false, false); (false, false); (false, false); (false, false); (false, false); (false, false);
   (false, true); (false, true); (false, false); (false, true); (false, false); (true, false)].
(* scout.py:496: one value to an int64 cell; None where the conversion raises *)
Definition int_cell (j : json) : option cell :=
  match j with
  | JNull => Some CNull
  | JNum (Some q) => let r := Qred q in
      if (Zpos (Qden r) =? 1)%Z && (- 2 ^ 63 <=? Qnum r)%Z && (Qnum r <? 2 ^ 63)%Z then Some (CInt (Qnum r)) else None
  | _ => None
  end.
(* scout.py:496: one value to a large_string cell *)
Definition text_cell (j : json) : option cell :=
  match j with JNull => Some CNull | JStr s => Some (CText s) | _ => None end.
(* scout.py:495: what a row gives when iterated over; None if it cannot be *)
Fixpoint letters (s : string) : list json := match s with EmptyString => [] | String c r => JStr (String c EmptyString) :: letters r end.
(* scout.py:495 *)
Definition cells_of (j : json) : option (list json) :=
  match j with
  | JList l => Some l
  | JStr s => Some (letters s)
  | JObj o => Some (map (fun p => JStr (fst p)) o)
  | _ => None
  end.
(* exceptions as values: all of a list or none *)
Fixpoint all_some {A B} (f : A -> option B) (l : list A) : option (list B) :=
  match l with [] => Some [] | x :: l' => match f x, all_some f l' with Some y, Some r => Some (y :: r) | _, _ => None end end.
(* scout.py:495: zip stops at the shortest row *)
Definition shortest {A} (rows : list (list A)) : nat :=
  match rows with [] => 0 | r :: rest => fold_left (fun m x => Nat.min m (List.length x)) rest (List.length r) end.
(* scout.py:495 *)
Definition columns (rows : list (list json)) : list (list json) :=
  map (fun c => map (fun r => nth c r JNull) rows) (seq 0 (shortest rows)).
(* scout.py:496-497: the table, column by column *)
Definition table_of (cols : list (list json)) : option (list (list cell)) :=
  if Nat.eqb (List.length cols) (List.length schema)
  then all_some (fun p => all_some (if fst (snd p : bool * bool) then int_cell else text_cell) (fst p)) (combine cols schema)
  else None.
(* scout.py:497: nulls where there must be none *)
Definition has_null (t : list (list cell)) : bool :=
  existsb (fun p : list cell * (bool * bool) => negb (snd (snd p)) && existsb (fun c => match c with CNull => true | _ => false end) (fst p)) (combine t schema).

(* scout.py:333: an int64 as text *)
Definition zdec (z : Z) : string := if (z <? 0)%Z then ("-" ++ dec (Z.to_N (- z)))%string else dec (Z.to_N z).
(* scout.py:319-340: a row of the result, before its conversion to Cartesian *)
Record svar := mksvar { sv_object : string; sv_orbit : string; sv_variant : string; sv_time : row; sv_scale : string;
                        sv_coords : list num; sv_origin : string; sv_frame : string }.
(* observations/obs80.py:55-63 *)
Record sobs (Ob : Type) := mksobs { so_object : string; so_date : option string; so_declared : option Z; so_sha : string; so_count : Z;
                        so_version : option string; so_source : option string; so_index : Z; so_obs : Ob }.
Arguments mksobs {Ob}. Arguments so_object {Ob}. Arguments so_date {Ob}. Arguments so_declared {Ob}. Arguments so_sha {Ob}. Arguments so_count {Ob}.
Arguments so_version {Ob}. Arguments so_source {Ob}. Arguments so_index {Ob}. Arguments so_obs {Ob}.

Section Scout.
  (* scout.py:320-326: pc.cast of text to float64, None where it raises *)
  Variable parse : string -> option num.
  (* scout.py:135, 177: str of a value other than a string or None *)
  Variable text : json -> string.
  (* scout.py:136: str.casefold *)
  Variable fold : string -> string.
  (* scout.py:78-81: the replies for an object, by number of the request *)
  Variable server : string -> nat -> sreply.
  Variable max_attempts : Z.
  Variable delay : Q.

  (* scout.py:91-170 *)
  Definition object_json (object : string) : sres dict :=
    match fst (fst (request_scout_json max_attempts delay (server object))) with
    | Failure st =>
        match st with
        | Some s => if (s =? 404)%Z then SErr (SNotFound object st)
                    else if retryable st then SErr (SUnavailable object st)
                    else SErr (SQuery object st)
        | None => SErr (SUnavailable object st)
        end
    | Value (JObj payload) =>
        if truthy (get "error" payload) then
          let detail := fold (str_of_json text (get "error" payload)) in
          if existsb (fun t => token_in t detail) gone_tokens then SErr (SNotFound object None)
          else if existsb (fun t => token_in t detail) busy_tokens then SErr (SUnavailable object None)
          else SErr (SMalformed object)
        else SOk payload
    | Value _ => SErr (SMalformed object)
    end.
  (* scout.py:173-183 *)
  Definition signature (object : string) (payload : dict) : sres dict :=
    match get "signature" payload with
    | JObj s => if String.eqb (str_of_json text (get "version" s)) "1.3" then SOk s else SErr (SMalformed object)
    | _ => SErr (SMalformed object)
    end.

  (* scout.py:320-326: the cast of one cell *)
  Definition float_of (c : cell) : result num :=
    match c with
    | CText s => match parse s with Some x => Ok x | None => Err ArrowInvalid end
    | CNull => Ok None
    | CInt z => Ok (Some (inject_Z z))
    end.
  (* scout.py:333 *)
  Definition id_of (c : cell) : string := match c with CInt z => zdec z | CText s => s | CNull => "" end.
  (* scout.py:325 *)
  Definition perihelion (x : num) : num := match x with Some q => Some (q - (24000005 # 10))%Q | None => None end.
  (* scout.py:319-342: one row, given by its cells *)
  Definition variant_of (object : string) (r : list cell) : result svar :=
    bind (mapM (fun c => float_of (nth c r CNull)) [3; 2; 7; 5; 6; 4; 1]) (fun v =>
    bind (jd_row (nth 6 v None)) (fun t =>
    Ok (mksvar object (id_of (nth 0 r CNull)) (id_of (nth 0 r CNull)) t "tai"
               (firstn 5 v ++ [perihelion (nth 5 v None)]) "SUN" "ecliptic"))).
  (* scout.py:303-342: the rows of a table; the first error in the order of rows stands for that of the casts, all being ArrowInvalid *)
  Definition to_variants (object : string) (t : list (list cell)) : result (list svar) :=
    mapM (fun i => variant_of object (map (fun col => nth i col CNull) t)) (seq 0 (List.length (nth 0 t []))).
  (* scout.py:469-504: one object *)
  Definition scout_object (object : string) : sres (list svar) :=
    sbind (object_json object) (fun payload =>
    sbind (signature object payload) (fun _ =>
    match (match get "orbits" payload with JObj o => get "data" o | _ => JNull end) with
    | JList [] => SErr (SNotFound object None)
    | JList rows =>
        match all_some cells_of rows with
        | None => SErr (SMalformed object)
        | Some rs => match table_of (columns rs) with
                     | None => SErr (SMalformed object)
                     | Some t => if has_null t then SErr (SOther ValueError)
                                 else match to_variants object t with Ok l => SOk l | Err e => SErr (SOther e) end
                     end
        end
    | _ => SErr (SMalformed object)
    end)).
  (* scout.py:440-506 *)
  Definition query_scout (ids : list string) : sres (list svar) :=
    sbind (smapM scout_object ids) (fun l => SOk (concat l)).

  (* scout.py:380: the observations in a file, None for Obs80ParseError *)
  Variable Ob : Type.
  Variable read80 : string -> option (list Ob).
  (* scout.py:391 *)
  Variable designation : Ob -> string.
  (* scout.py:422 *)
  Variable sha : string -> string.
  (* scout.py:400: int of a string, None for ValueError *)
  Variable int_of : string -> option Z.

  (* scout.py:397-403 *)
  Definition declared (j : json) : option Z :=
    match j with
    | JNum (Some q) => Some (Z.quot (Qnum q) (Zpos (Qden q)))
    | JBool b => Some (if b then 1 else 0)%Z
    | JStr s => int_of s
    | _ => None
    end.
  (* scout.py:417-419, 425-430: a value as text or null *)
  Definition text_of (j : json) : sres (option string) :=
    match j with JNull => SOk None | JStr s => SOk (Some s) | _ => SErr (SOther TypeError) end.
  (* scout.py:420 *)
  Definition int64_of (z : option Z) : sres (option Z) :=
    match z with
    | Some z => if (- 2 ^ 63 <=? z)%Z && (z <? 2 ^ 63)%Z then SOk (Some z) else SErr (SOther OverflowError)
    | None => SOk None
    end.
  (* scout.py:374: not raw_file.strip() *)
  Definition blank (s : string) : bool := forallb is_space (list_ascii_of_string s).
  (* scout.py:361-434: one object *)
  Definition scout_snapshot (object : string) : sres (list (sobs Ob)) :=
    sbind (object_json object) (fun payload =>
    sbind (signature object payload) (fun sg =>
    match get "fileMPC" payload with
    | JStr raw =>
        if blank raw then SErr (SMalformed object)
        else match read80 raw with
             | None => SErr (SMalformed object)
             | Some [] => SErr (SMalformed object)
             | Some obs =>
                 if existsb (fun o => negb (String.eqb (designation o) object)) obs then SErr (SMalformed object)
                 else
                   sbind (text_of (get "lastRun" payload)) (fun date =>
                   sbind (int64_of (declared (get "nObs" payload))) (fun nobs =>
                   sbind (text_of (get "version" sg)) (fun version =>
                   sbind (text_of (get "source" sg)) (fun source =>
                   SOk (map (fun p => mksobs object date nobs (sha raw) (Z.of_nat (List.length obs)) version source (Z.of_nat (fst p)) (snd p))
                            (combine (seq 0 (List.length obs)) obs))))))
             end
    | _ => SErr (SMalformed object)
    end)).
  (* scout.py:345-437 *)
  Definition query_scout_observations (ids : list string) : sres (list (sobs Ob)) :=
    sbind (smapM scout_snapshot ids) (fun l => SOk (concat l)).
End Scout.
