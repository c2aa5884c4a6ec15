(* Model of src/adam_core/time/time.py (definitions only).
   A row is (days, nanos) of int64; a Timestamp is a scale plus rows.
   Columns are assumed null-free.  Arrow's unchecked kernels (pc.add,
   pc.subtract, pc.multiply) wrap modulo 2^64 and are modelled with [wrap64];
   pc.add_checked raises ArrowInvalid on overflow. *)
From Verif Require Import Base.
From Coq Require Import String QArith Qround.
Open Scope Z_scope.

(* time.py:58 _NANOS_IN_DAY *)
Definition DAY : Z := 86400000000000.
(* time.py:60 _TAI_TT_NS_CORRECTION *)
Definition TAI_TT : Z := 32184000000.

(* time.py:74-77 columns days, nanos *)
Record row : Type := mkrow { days : Z; nanos : Z }.
(* time.py:69-77 class Timestamp *)
Record timestamp : Type := mkts { scale : string; rows : list row }.

(* helper of [link], time.py:775-776 *)
Definition row_eqb (a b : row) : bool := (days a =? days b) && (nanos a =? nanos b).

(* "scalar or array of the same length": argument of add_nanos & co. *)
(* helper of [add_nanos], time.py:373-424 *)
Inductive arg : Type := Scalar (n : Z) | Array (l : list Z).

(* Broadcast an argument against [k] rows; Arrow raises ArrowInvalid when the
   array length differs from the column length. *)
(* helper of [add_nanos], time.py:373-424 *)
Definition broadcast (a : arg) (k : nat) : result (list Z) :=
  match a with
  | Scalar n => Ok (repeat n k)
  | Array l => if (List.length l =? k)%nat then Ok l else Err ArrowInvalid
  end.

(* helper of [add_nanos], time.py:373-424 *)
Definition arg_values (a : arg) : list Z :=
  match a with Scalar n => [n] | Array l => l end.

(* time.py:390-400 the range test of add_nanos (python int and pc.all branches
   apply the same bounds; pc.all of an empty array is true) *)
Definition nanos_in_range (n : Z) : bool := (- DAY <=? n) && (n <? DAY).

(* The StructArray/case_when carry used by add_nanos (403-421) and the two
   difference functions (553-569, 583-599): first matching case wins. *)
(* helper of [add_nanos_row], time.py:402-424 *)
Definition carry (d n : Z) : row :=
  if DAY <=? n then mkrow (wrap64 (d + 1)) (wrap64 (n - DAY))
  else if n <? 0 then mkrow (wrap64 (d - 1)) (wrap64 (n + DAY))
  else mkrow d n.

(* time.py:402-424, one row *)
Definition add_nanos_row (r : row) (n : Z) : result row :=
  let s := nanos r + n in
  if in_int64b s then Ok (carry (days r) s) else Err ArrowInvalid.

(* time.py:373-424 Timestamp.add_nanos *)
Definition add_nanos (t : timestamp) (a : arg) (check_range : bool) : result timestamp :=
  if check_range && negb (forallb nanos_in_range (arg_values a)) then Err ValueError
  else
    bind (broadcast a (List.length (rows t))) (fun l =>
    match zip_opt (rows t) l with
    | None => Err ArrowInvalid
    | Some rl =>
        bind (mapM (fun p => add_nanos_row (fst p) (snd p)) rl) (fun rs =>
        Ok (mkts (scale t) rs))
    end).

(* time.py:443, 462, 481: pc.multiply(x, unit) on int64 wraps; pc.round of an
   integer is the identity for every value that can pass the range check. *)
Definition scale_arg (unit : Z) (a : arg) : arg :=
  match a with
  | Scalar n => Scalar (wrap64 (n * unit))
  | Array l => Array (map (fun n => wrap64 (n * unit)) l)
  end.

(* time.py:426-444, 446-463, 465-482 (integer arguments) *)
Definition add_seconds (t : timestamp) (a : arg) := add_nanos t (scale_arg 1000000000 a) true.
(* time.py:446-463 *)
Definition add_millis (t : timestamp) (a : arg) := add_nanos t (scale_arg 1000000 a) true.
(* time.py:465-482 *)
Definition add_micros (t : timestamp) (a : arg) := add_nanos t (scale_arg 1000 a) true.

(* time.py:484-494 Timestamp.add_days *)
Definition add_days (t : timestamp) (a : arg) : result timestamp :=
  bind (broadcast a (List.length (rows t))) (fun l =>
  match zip_opt (rows t) l with
  | None => Err ArrowInvalid
  | Some rl => Ok (mkts (scale t)
                 (map (fun p => mkrow (wrap64 (days (fst p) + snd p)) (nanos (fst p))) rl))
  end).

(* time.py:551-570 / 580-600, one row of difference_scalar / difference *)
Definition diff_row (a b : row) : row :=
  carry (wrap64 (days a - days b)) (wrap64 (nanos a - nanos b)).

(* time.py:518-570 Timestamp.difference_scalar *)
Definition difference_scalar (t : timestamp) (d n : Z) : list row :=
  map (fun r => diff_row r (mkrow d n)) (rows t).

(* time.py:572-600 Timestamp.difference *)
Definition difference (t o : timestamp) : result (list row) :=
  if negb (String.eqb (scale t) (scale o)) then Err ValueError
  else match zip_opt (rows t) (rows o) with
       | None => Err ArrowInvalid
       | Some l => Ok (map (fun p => diff_row (fst p) (snd p)) l)
       end.

(* time.py:79-86: Arrow integer division truncates toward zero *)
Definition micros (r : row) : Z := Z.quot (nanos r) 1000.
(* time.py:82-83 *)
Definition millis (r : row) : Z := Z.quot (nanos r) 1000000.
(* time.py:85-86 *)
Definition seconds (r : row) : Z := Z.quot (nanos r) 1000000000.

(* helper of [rounded_row], time.py:192-203 *)
Inductive precision := NS | US | MS | S | OtherPrecision.

(* time.py:192-203 Timestamp.rounded, one row; any other string raises *)
Definition rounded_row (p : precision) (r : row) : result row :=
  match p with
  | NS => Ok r
  | US => Ok (mkrow (days r) (wrap64 (micros r * 1000)))
  | MS => Ok (mkrow (days r) (wrap64 (millis r * 1000000)))
  | S => Ok (mkrow (days r) (wrap64 (seconds r * 1000000000)))
  | OtherPrecision => Err ValueError
  end.

(* time.py:192-203 *)
Definition rounded (p : precision) (t : timestamp) : result timestamp :=
  match p with
  | OtherPrecision => Err ValueError
  | _ => bind (mapM (rounded_row p) (rows t)) (fun rs => Ok (mkts (scale t) rs))
  end.

(* time.py:217-226 / 242-251 *)
Definition max_deviation (p : precision) : result Z :=
  match p with
  | NS => Ok 0 | US => Ok 999 | MS => Ok 999999 | S => Ok 999999999
  | OtherPrecision => Err ValueError
  end.

(* time.py:786-806; pc.abs wraps on the minimum int64 *)
Definition within_tolerance (m : Z) (r : row) : bool :=
  if m =? 0 then (days r =? 0) && (nanos r =? 0)
  else ((days r =? 0) && (wrap64 (Z.abs (nanos r)) <? m))
       || ((days r =? -1) && (DAY - m <=? wrap64 (Z.abs (nanos r)))).

(* time.py:205-252 equals / equals_scalar / equals_array *)
Definition equals (t o : timestamp) (p : precision) : result (list bool) :=
  if negb (String.eqb (scale t) (scale o)) then Err ValueError
  else match rows o with
  | [b] => bind (max_deviation p) (fun m =>
           Ok (map (within_tolerance m) (difference_scalar t (days b) (nanos b))))
  | _ =>
      if negb (List.length (rows t) =? List.length (rows o))%nat then Err ValueError
      else bind (difference t o) (fun ds =>
           bind (max_deviation p) (fun m => Ok (map (within_tolerance m) ds)))
  end.

(* pc.max / pc.min over a column; null (None) when empty *)
(* helper of [ts_max], time.py:254-272 *)
Fixpoint max_list (l : list Z) : option Z :=
  match l with
  | [] => None
  | x :: xs => match max_list xs with None => Some x | Some m => Some (Z.max x m) end
  end.
(* helper of [ts_min], time.py:274-292 *)
Fixpoint min_list (l : list Z) : option Z :=
  match l with
  | [] => None
  | x :: xs => match min_list xs with None => Some x | Some m => Some (Z.min x m) end
  end.

(* time.py:254-272 Timestamp.max; an empty table has no row 0 *)
Definition ts_max (t : timestamp) : result row :=
  match max_list (map days (rows t)) with
  | None => Err IndexError
  | Some md =>
      match max_list (map nanos (filter (fun r => days r =? md) (rows t))) with
      | None => Err IndexError
      | Some mn =>
          match filter (fun r => (days r =? md) && (nanos r =? mn)) (rows t) with
          | [] => Err IndexError
          | r :: _ => Ok r
          end
      end
  end.

(* time.py:274-292 Timestamp.min *)
Definition ts_min (t : timestamp) : result row :=
  match min_list (map days (rows t)) with
  | None => Err IndexError
  | Some md =>
      match min_list (map nanos (filter (fun r => days r =? md) (rows t))) with
      | None => Err IndexError
      | Some mn =>
          match filter (fun r => (days r =? md) && (nanos r =? mn)) (rows t) with
          | [] => Err IndexError
          | r :: _ => Ok r
          end
      end
  end.

(* time.py:101, one row of Timestamp.key(scale=None): numpy int64 wraps twice *)
Definition key_row (r : row) : Z := wrap64 (wrap64 (days r * DAY) + nanos r).

(* time.py:103-117 Timestamp.signature(scale=None): (n, first, last, sum_mod);
   np.sum wraps; x & 0x7FFF... clears the sign bit, i.e. x mod 2^63 *)
Definition signature (t : timestamp) : Z * Z * Z * Z :=
  match map key_row (rows t) with
  | [] => (0, 0, 0, 0)
  | k :: ks =>
      (Z.of_nat (List.length (k :: ks)), k, last (k :: ks) k,
       wrap64 (fold_left Z.add (k :: ks) 0) mod 2 ^ 63)
  end.

(* ---- exact-arithmetic floats ------------------------------------------- *)
(* round half to even: Arrow pc.round (default mode) and numpy round *)
(* helper of [from_mjd], time.py:170-178 *)
Definition round_he (q : Q) : Z :=
  let f := Qfloor q in
  let d := (q - inject_Z f)%Q in
  if Qeq_bool d (1 # 2) then (if Z.even f then f else f + 1)
  else if Qle_bool d (1 # 2) then f else f + 1.

(* time.py:133-134, 188-190 mjd, in exact arithmetic (the code uses binary64) *)
Definition mjd (r : row) : Q := (inject_Z (days r) + ((nanos r) # 86400000000000))%Q.
(* time.py:136-137 *)
Definition jd (r : row) : Q := (mjd r + (24000005 # 10))%Q.
(* time.py:139-145 et, for a row already in TDB *)
Definition et (r : row) : Q := ((mjd r - (515445 # 10)) * inject_Z 86400)%Q.
(* time.py:170-178 from_mjd *)
Definition from_mjd (q : Q) : row :=
  let d := Qfloor q in
  mkrow d (round_he ((q - inject_Z d) * inject_Z DAY)%Q).
(* time.py:180-182 *)
Definition from_jd (q : Q) : row := from_mjd (q - (24000005 # 10))%Q.
(* time.py:184-186 *)
Definition from_et (q : Q) : row := from_mjd (q / inject_Z 86400)%Q.

(* ---- rescale ------------------------------------------------------------ *)
(* ERFA (not part of /repo) is modelled from its published algorithm, in exact
   arithmetic on nanoseconds since MJD 0.  [dat d] is TAI-UTC in seconds at 0h of
   UTC day [d] (integer, i.e. after 1972).
   eraUtctai: on a day at whose end TAI-UTC jumps by [dleap] the day fraction is
   scaled by (86400+dleap)/86400. *)
(* helper of [correction], time.py:704-744 *)
Definition erfa_utctai (dat : Z -> Z) (u : Q) : Q :=
  let d := Qfloor (u / inject_Z DAY)%Q in
  let dleap := dat (d + 1) - dat d in
  (u + inject_Z (dat d * 1000000000)
     + (u - inject_Z (d * DAY)) * (dleap # 86400))%Q.
(* eraTaiutc: three fixed-point iterations u := u + (tai - utctai(u)) from u = tai *)
(* helper of [correction], time.py:704-744 *)
Definition erfa_taiutc (dat : Z -> Z) (tai : Q) : Q :=
  let step u := Qred (u + (tai - erfa_utctai dat u))%Q in
  step (step (step tai)).

(* time.py:657-675 _leap_seconds_correction: converter applied at
   days, nanos+correction; the difference rounded to whole seconds *)
Definition leap_correction (conv : Q -> Q) (d n : Z) : Z :=
  let u := inject_Z (d * DAY + n) in
  round_he ((conv u - u) / inject_Z 1000000000)%Q * 1000000000.

(* The environment of rescale: leap-second table, the truncated TT->TDB
   correction as a function of (days, nanos + correction) (628-655; truncation
   toward zero makes the negative version its opposite), and astropy for UT1. *)
(* helper of [correction], time.py:704-744 *)
Record time_env : Type := mkenv {
  env_dat : Z -> Z;
  env_tdb : Z -> Z -> Z;
  env_astropy : string -> string -> row -> row
}.

(* helper of [rescale], time.py:677-753 *)
Definition known_scale (s : string) : bool :=
  existsb (String.eqb s) ["tai"; "tt"; "ut1"; "utc"; "tdb"]%string.

(* time.py:704-744: the correction in nanoseconds for one row, None = not supported *)
Definition correction (E : time_env) (src dst : string) (r : row) : option Z :=
  let d := days r in let n := nanos r in
  let tdb := env_tdb E in
  let utctai := leap_correction (erfa_utctai (env_dat E)) in
  let taiutc := leap_correction (erfa_taiutc (env_dat E)) in
  if String.eqb src "tt" then
    if String.eqb dst "tai" then Some (- TAI_TT)
    else if String.eqb dst "utc" then Some (taiutc d n - TAI_TT)
    else if String.eqb dst "tdb" then Some (tdb d n)
    else None
  else if String.eqb src "utc" then
    let c := utctai d n in
    if String.eqb dst "tt" then Some (c + TAI_TT)
    else if String.eqb dst "tdb" then Some (c + (tdb d (n + (c + TAI_TT)) + TAI_TT))
    else Some c
  else if String.eqb src "tai" then
    if String.eqb dst "tt" then Some TAI_TT
    else if String.eqb dst "tdb" then Some (tdb d (n + TAI_TT) + TAI_TT)
    else if String.eqb dst "tai" then Some 0
    else if String.eqb dst "utc" then Some (taiutc d n)
    else None
  else if String.eqb src "tdb" then
    if String.eqb dst "tt" then Some (- tdb d n)
    else if String.eqb dst "tai" then Some (- tdb d n - TAI_TT)
    else if String.eqb dst "utc" then
      let c := - tdb d n - TAI_TT in Some (c + taiutc d (n + c))
    else None
  else None.

(* one row through add_nanos(correction, check_range=False), time.py:745-753 *)
Definition rescale_row (E : time_env) (src dst : string) (r : row) : result row :=
  match correction E src dst r with
  | Some c => add_nanos_row r c
  | None => Err ValueError
  end.

(* whether the pair of scales is handled (independent of the data) *)
(* helper of [rescale], time.py:677-753 *)
Definition supported (src dst : string) : bool :=
  match correction (mkenv (fun _ => 0) (fun _ _ => 0) (fun _ _ r => r)) src dst (mkrow 0 0) with
  | Some _ => true | None => false
  end.

(* time.py:677-753 Timestamp.rescale; 611-626 rescale_astropy for UT1 *)
Definition rescale (E : time_env) (t : timestamp) (dst : string) : result timestamp :=
  if String.eqb (scale t) dst then Ok t
  else if String.eqb (scale t) "ut1" || String.eqb dst "ut1" then
    if known_scale dst then Ok (mkts dst (map (env_astropy E (scale t) dst) (rows t)))
    else Err ValueError
  else if supported (scale t) dst then
    bind (mapM (rescale_row E (scale t) dst) (rows t)) (fun rs => Ok (mkts dst rs))
  else Err ValueError.

(* ---- link --------------------------------------------------------------- *)
(* time.py:755-783 Timestamp.link for two timestamps of one scale (a different
   scale is first rescaled).  quivr's MultiKeyLinkage (not in /repo) iterates over
   the distinct keys of both sides and selects the rows of each side whose key
   matches; rows are given with their index. *)
Definition keyed (p : precision) (t : timestamp) : result (list (row * (nat * row))) :=
  bind (rounded p t) (fun rt =>
  Ok (combine (rows rt) (combine (seq 0 (List.length (rows t))) (rows t)))).

(* helper of [link], time.py:775-776 *)
Definition link_same (p : precision) (t o : timestamp)
  : result (list (row * list (nat * row) * list (nat * row))) :=
  bind (keyed p t) (fun lt =>
  bind (keyed p o) (fun lo =>
  Ok (map (fun k => (k,
        map snd (filter (fun x => row_eqb (fst x) k) lt),
        map snd (filter (fun x => row_eqb (fst x) k) lo)))
      (uniq row_eqb (map fst lt ++ map fst lo))))).

(* time.py:775-776: the other side is first brought to self's scale *)
Definition link (E : time_env) (p : precision) (t o : timestamp)
  : result (list (row * list (nat * row) * list (nat * row))) :=
  if String.eqb (scale t) (scale o) then link_same p t o
  else bind (rescale E o (scale t)) (fun o' => link_same p t o').
