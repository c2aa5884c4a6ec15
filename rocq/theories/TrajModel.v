(* Model of orbits/trajectory.py and orbits/classification.py (definitions only). *)
From Coq Require Import String QArith.
From Verif Require Import Base.
Open Scope list_scope.

(* ---- orbits/trajectory.py:32-151 Trajectory ----
   One row: object id, segment id, coverage window and orbit epoch.  Times are the TDB MJD floats
   of lines 55-76 (finite doubles, so exact rationals). *)
Record segment := mkseg { g_obj : string; g_id : string; g_start : Q; g_end : Q; g_epoch : Q }.
(* helper of [validate_coverage], trajectory.py:85-116 *)
Definition qlt (a b : Q) : bool := negb (Qle_bool b a).
(* trajectory.py:77-83 object_ids: first-seen order; the column is not nullable *)
Definition object_ids (l : list segment) : list string := uniq String.eqb (map g_obj l).
(* s[1:] < e[:-1] *)
(* helper of [validate_coverage], trajectory.py:85-116 *)
Fixpoint overlaps (l : list segment) : bool :=
  match l with
  | a :: ((b :: _) as r) => qlt (g_start b) (g_end a) || overlaps r
  | _ => false
  end.
(* trajectory.py:85-116 validate_coverage *)
Definition validate_coverage (l : list segment) : result (list segment) :=
  if existsb (fun r => Qle_bool (g_end r) (g_start r)) l then Err ValueError
  else if existsb (fun r => qlt (g_epoch r) (g_start r) || qlt (g_end r) (g_epoch r)) l then Err ValueError
  else if existsb (fun o => overlaps (sort (fun a b => Qle_bool (g_start a) (g_start b)) (filter (fun r => String.eqb (g_obj r) o) l))) (object_ids l)
  then Err ValueError
  else Ok l.
(* trajectory.py:118-151 segment_for *)
Definition segment_for (l : list segment) (t : Q) (object_id : option string) : result (option segment) :=
  let find l' :=
    match filter (fun r => Qle_bool (g_start r) t && qlt t (g_end r)) l' with
    | [] => Ok None
    | [r] => Ok (Some r)
    | _ => Err ValueError
    end in
  match object_id with
  | Some o => find (filter (fun r => String.eqb (g_obj r) o) l)
  | None => if (1 <? List.length (object_ids l))%nat then Err ValueError else find l
  end.

(* ---- orbits/classification.py:9-63 calc_orbit_class ----
   Elements as IEEE values: NaN, infinities, finite (exact rational).  Comparisons with NaN are
   false. *)
Inductive xq := NaN | NInf | PInf | Fin (q : Q).
(* float comparison for classification.py:9-63 *)
Definition xlt (a b : xq) : bool :=
  match a, b with
  | NaN, _ | _, NaN => false
  | NInf, NInf => false | NInf, _ => true
  | PInf, _ => false
  | Fin _, NInf => false | Fin _, PInf => true
  | Fin x, Fin y => qlt x y
  end.
(* float comparison for classification.py:9-63 *)
Definition xeq (a b : xq) : bool :=
  match a, b with Fin x, Fin y => Qeq_bool x y | NInf, NInf => true | PInf, PInf => true | _, _ => false end.
(* columns read by classification.py:9-63 *)
Record elements := mkel { el_a : xq; el_e : xq; el_q : xq; el_Q : xq }.
(* classification.py:45-59, in the order of the dictionary *)
(* classification.py:47-61 *)
Definition class_rules (v : elements) : list (string * bool) :=
  let a := el_a v in let e := el_e v in let q := el_q v in let Q := el_Q v in
  let c := fun x => Fin x in
  [ ("AMO", xlt (c 1) a && xlt (c (1017#1000)) q && xlt q (c (13#10)));
    ("APO", xlt (c 1) a && xlt q (c (1017#1000)));
    ("ATE", xlt a (c 1) && xlt (c (983#1000)) Q);
    ("CEN", xlt (c (55#10)) a && xlt a (c (301#10)));
    ("IEO", xlt Q (c (983#1000)));
    ("IMB", xlt a (c 2) && xlt (c (1666#1000)) q);
    ("MBA", xlt (c 2) a && xlt a (c (32#10)) && xlt (c (1666#1000)) q);
    ("MCA", xlt a (c (32#10)) && xlt (c (13#10)) q && xlt q (c (1666#1000)));
    ("OMB", xlt (c (32#10)) a && xlt a (c (46#10)));
    ("TJN", xlt (c (46#10)) a && xlt a (c (55#10)) && xlt e (c (3#10)));
    ("TNO", xlt (c (301#10)) a);
    ("PAA", xeq e (c 1));
    ("HYA", xlt (c 1) e) ]%string.
(* classification.py:60-61: later classes overwrite earlier ones *)
(* classification.py:9-63 *)
Definition calc_orbit_class (v : elements) : string :=
  fold_left (fun cur r => if snd r : bool then fst r else cur) (class_rules v) "AST"%string.

(* dynamics/kepler.py:33-93 calc_periapsis_distance, calc_apoapsis_distance and
   calc_semi_major_axis in exact arithmetic (0/0 is NaN) *)
Definition apoapsis (a e : Q) : xq := if Qle_bool 1 e then PInf else Fin (a * (1 + e)).
(* dynamics/kepler.py:33-93 *)
Definition keplerian_elements (a e : Q) : elements := mkel (Fin a) (Fin e) (Fin (a * (1 - e))) (apoapsis a e).
(* dynamics/kepler.py:33-93 *)
Definition cometary_elements (q e : Q) : elements :=
  if Qeq_bool e 1 then mkel (if Qeq_bool q 0 then NaN else if qlt 0 q then PInf else NInf) (Fin e) (Fin q) PInf
  else let a := q / (1 - e) in mkel (Fin a) (Fin e) (Fin q) (apoapsis a e).
