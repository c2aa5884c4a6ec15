(* Model of orbit_determination/{fitted_orbits,outliers,evaluate}.py (definitions only). *)
From Coq Require Import String QArith Qround.
From Verif Require Import Base StrOrder.
Open Scope list_scope.

(* one row of FittedOrbits: id and ranking columns (finite floats as exact rationals) *)
(* helper of [fleb], fitted_orbits.py:33-39 *)
Record fitted := mkfit { fo_id : string; fo_nobs : Z; fo_arc : Q; fo_rchi2 : Q }.
(* one row of FittedOrbitMembers: probability of the residual (nullable), squared residual norm *)
(* helper of [best_orbit], fitted_orbits.py:48-60 *)
Record member := mkmem { m_orbit : string; m_obs : string; m_prob : option Q; m_sq : Q }.
(* helper of [fleb], fitted_orbits.py:33-39 *)
Definition qltb (a b : Q) : bool := negb (Qle_bool b a).

(* fitted_orbits.py:33-39 sort_by num_obs descending, arc_length descending, reduced_chi2 ascending *)
Definition fleb (a b : fitted) : bool :=
  if (fo_nobs b <? fo_nobs a)%Z then true
  else if (fo_nobs a <? fo_nobs b)%Z then false
  else if qltb (fo_arc b) (fo_arc a) then true
  else if qltb (fo_arc a) (fo_arc b) then false
  else Qle_bool (fo_rchi2 a) (fo_rchi2 b).
(* fitted_orbits.py:48-60: the first orbit in priority order that contains the observation *)
Definition best_orbit (sorted : list fitted) (ms : list member) (obs : string) : option string :=
  option_map fo_id (find (fun o => existsb (fun m => String.eqb (m_obs m) obs && String.eqb (m_orbit m) (fo_id o)) ms) sorted).
(* fitted_orbits.py:13-77 assign_duplicate_observations *)
Definition assign_duplicate_observations (os : list fitted) (ms : list member) : list fitted * list member :=
  let sorted := sort fleb os in
  let best := flat_map (fun obs => match best_orbit sorted ms obs with Some o => [(obs, o)] | None => [] end)
                       (uniq String.eqb (map m_obs ms)) in
  let ms' := fold_left (fun cur p => filter (fun m => negb (String.eqb (m_obs m) (fst p) && negb (String.eqb (m_orbit m) (snd p)))) cur) best ms in
  (filter (fun o => existsb (fun m => String.eqb (m_orbit m) (fo_id o)) ms') sorted, ms').

(* fitted_orbits.py:80-125 drop_duplicate_orbits; quivr drop_duplicates keeps the first or last row
   of every distinct subset value; [same] compares the subset columns *)
Definition drop_duplicates {A} (same : A -> A -> bool) (keep_first : bool) (l : list A) : list A :=
  if keep_first then uniq same l else rev (uniq same (rev l)).
(* fitted_orbits.py:80-125 *)
Definition drop_duplicate_orbits {A} (id : A -> string) (same : A -> A -> bool) (keep_first : bool) (os : list A) (ms : list member) : list A * list member :=
  let os' := drop_duplicates same keep_first os in
  (os', filter (fun m => existsb (fun o => String.eqb (m_orbit m) (id o)) os') ms).

(* outliers.py:46-98 remove_lowest_probability_observation; observations are their ids *)
Definition qmin_opt (l : list (option Q)) : option Q :=
  fold_left (fun acc p => match acc, p with Some a, Some b => Some (if Qle_bool a b then a else b) | None, q => q | a, None => a end) l None.
(* np.argmax: the first maximum *)
(* outliers.py:46-98: np.argmax *)
Fixpoint argmax_from (best : nat) (bv : Q) (i : nat) (l : list Q) : nat :=
  match l with [] => best | x :: r => if qltb bv x then argmax_from i x (S i) r else argmax_from best bv (S i) r end.
(* outliers.py:46-98: np.argmax *)
Definition argmax (l : list Q) : nat := match l with [] => 0%nat | x :: r => argmax_from 0 x 1 r end.
(* outliers.py:46-98 *)
Definition remove_lowest_probability_observation (ms : list member) (obs : list string) : result (string * list string) :=
  if negb (Nat.eqb (List.length (uniq String.eqb (map m_orbit ms))) 1) then Err AssertionError
  else if negb (forallb (fun m => existsb (String.eqb (m_obs m)) obs) ms) then Err AssertionError
  else
    let low := qmin_opt (map m_prob ms) in
    let worst := filter (fun m => match m_prob m, low with Some a, Some b => Qeq_bool a b | _, _ => false end) ms in
    match nth_error worst (argmax (map m_sq worst)) with
    | None => Err IndexError
    | Some w =>
        let kept := map m_obs (filter (fun m => negb (String.eqb (m_obs m) (m_obs w))) ms) in
        Ok (m_obs w, filter (fun o => existsb (String.eqb o) kept) obs)
    end.

(* evaluate.py:30-137 evaluate_orbits.  An observation: id, epoch (days, nanos), observatory
   code (with its coordinates in [V]); [predict o t c] the ephemeris of an orbit, [resid]
   Residuals.calculate of one row, [chi2] and [dof] its columns.  generate_ephemeris returns rows
   by orbit id, then epoch, then code (C22/C90; evaluate.py:81-82).  Observation ids are not null.
   The arc length is kept in nanoseconds; the reduced chi2 is None where the code divides by 0. *)
Section Evaluate.
  Context {O V P R : Type}.
  Record observation := mkobs { ob_id : string; ob_time : Z * Z; ob_code : string; ob_value : V }.
  Variable oid : O -> string.
  Variable predict : O -> Z * Z -> string -> P.
  Variable resid : V -> P -> R.
  Variable chi2 : R -> Q.
  Variable dof : R -> Z.
  (* evaluate.py:30-137: observation time in nanoseconds *)
  Definition ons (b : observation) : Z := (fst (ob_time b) * 86400000000000 + snd (ob_time b))%Z.
  (* evaluate.py:30-137: sort order of the observations *)
  Definition oleb_obs (a b : observation) : bool :=
    let '(d, n) := ob_time a in let '(d', n') := ob_time b in
    if (d <? d')%Z then true else if (d' <? d)%Z then false
    else if (n <? n')%Z then true else if (n' <? n)%Z then false
    else str_leb (ob_code a) (ob_code b).
  (* evaluate.py:30-137: predicted rows, orbit by orbit *)
  Definition ephemeris_rows (orbits : list O) (obs : list observation) : list (string * P) :=
    flat_map (fun o => map (fun b => (oid o, predict o (ob_time b) (ob_code b))) (sort oleb_obs obs))
             (sort (fun a b => str_leb (oid a) (oid b)) orbits).
  (* evaluate.py:30-137: FittedOrbitMembers row *)
  Record fit_member := mkfm { fm_orbit : string; fm_obs : string; fm_resid : R; fm_outlier : bool }.
  (* evaluate.py:30-137: FittedOrbits row *)
  Record fit_orbit := mkfo { fto_id : string; fto_nobs : nat; fto_arc : Z; fto_chi2 : Q; fto_rchi2 : option Q }.
  (* helper of evaluate.py:30-137 *)
  Definition qsum (l : list Q) : Q := fold_right Qplus (0 # 1) l.
  (* helper of evaluate.py:30-137 *)
  Definition zsum (l : list Z) : Z := fold_right Z.add 0%Z l.
  (* evaluate.py:30-137 *)
  Definition evaluate_orbits (orbits : list O) (obs : list observation) (parameters : Z) (ignore : list string)
    : result (list fit_orbit * list fit_member) :=
    if negb (Nat.eqb (List.length orbits) (List.length (uniq String.eqb (map oid orbits)))) then Err AssertionError
    else match orbits with [] => Err ValueError | _ :: _ =>
      let eph := ephemeris_rows orbits obs in
      let stacked := concat (map (fun _ => obs) orbits) in
      match zip_opt stacked eph with
      | None => Err ValueError
      | Some rows =>
          let out b := existsb (String.eqb (ob_id b)) ignore in
          let residuals := map (fun r => (fst (snd r), resid (ob_value (fst r)) (snd (snd r)))) rows in
          let used := filter (fun b => negb (out b)) obs in
          let included id := map snd (filter (fun p => negb (out (fst p)))
             (combine obs (map snd (filter (fun r => String.eqb (fst r) id) residuals)))) in
          match used with
          | [] => Err IndexError
          | u :: us =>
              let arc := (fold_left Z.max (map ons us) (ons u) - fold_left Z.min (map ons us) (ons u))%Z in
              Ok (map (fun o =>
                    let rs := included (oid o) in
                    let c := qsum (map chi2 rs) in
                    let d := (zsum (map dof rs) - parameters)%Z in
                    mkfo (oid o) (List.length used) arc c
                      (if (d =? 0)%Z then None else Some (c / inject_Z d)%Q))
                    (sort (fun a b => str_leb (oid a) (oid b)) orbits),
                  map (fun r => mkfm (fst (snd (fst r))) (ob_id (fst (fst r))) (snd (snd r)) (out (fst (fst r))))
                      (combine rows residuals))
          end
      end
    end.
End Evaluate.
Arguments mkobs {V}. Arguments ob_id {V}. Arguments ob_time {V}. Arguments ob_code {V}. Arguments ob_value {V}.
Arguments mkfm {R}. Arguments fm_orbit {R}. Arguments fm_obs {R}. Arguments fm_resid {R}. Arguments fm_outlier {R}.
