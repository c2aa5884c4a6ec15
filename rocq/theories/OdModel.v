(* Model of orbit_determination/{od,iod,least_squares}.py (definitions only). *)
From Coq Require Import String QArith Qminmax.
From Verif Require Import Base FitModel.
Open Scope list_scope.

(* numpy float64 result of chi2_total / dof: finite, infinite or NaN (division by zero) *)
(* helper of [isol], iod.py:304-572 *)
Inductive rc := Fin (q : Q) | PInf | NaN.
(* helper of [iterate], od.py:225-527 *)
Definition rdiv (total : Q) (d : Z) : rc :=
  if (d =? 0)%Z then (if qltb 0 total then PInf else NaN) else Fin (total / inject_Z d).
(* helper of [iterate], od.py:225-527 *)
Definition rlt (a b : rc) : bool :=
  match a, b with Fin x, Fin y => qltb x y | Fin _, PInf => true | _, _ => false end.
(* helper of [iterate], od.py:225-527 *)
Definition rle (a : rc) (t : Q) : bool := match a with Fin x => Qle_bool x t | _ => false end.
(* helper of [try_orbits], iod.py:463-544 *)
Definition rgt (a : rc) (t : Q) : bool := match a with Fin x => qltb t x | PInf => true | NaN => false end.

(* helper of [try_outliers], iod.py:505-541 *)
Definition mem (x : string) (l : list string) : bool := existsb (String.eqb x) l.
(* np array indexing by a boolean mask *)
(* helper of [normal_rows], od.py:339-350 *)
Definition masked {A} (mask : list bool) (l : list A) : list A := map snd (filter fst (combine mask l)).
(* np.isin(ids, out, invert=True) *)
(* helper of [normal_rows], od.py:339-350 *)
Definition keep_mask (ids out : list string) : list bool := map (fun i => negb (mem i out)) ids.
(* helper of [iterate], od.py:225-527 *)
Definition sum (l : list Q) : Q := fold_right Qplus (0 # 1) l.
(* times[mask].max() - times[mask].min(); numpy raises ValueError for an empty array *)
(* helper of [iterate], od.py:225-527 *)
Definition qmaxl (x : Q) (l : list Q) : Q := fold_left Qmax l x.
(* helper of [iterate], od.py:225-527 *)
Definition qminl (x : Q) (l : list Q) : Q := fold_left Qmin l x.
(* helper of [iterate], od.py:225-527 *)
Definition arc (times : list Q) (mask : list bool) : result Q :=
  match masked mask times with
  | [] => Err ValueError
  | x :: xs => Ok (qmaxl x xs - qminl x xs)
  end.
(* chi2.argsort()[-k:]: the indices of the k highest values, [order] being the argsort *)
(* helper of [iterate], od.py:225-527 *)
Definition top (order : list nat) (k : nat) : list nat := skipn (List.length order - k) order.
(* helper of [iterate], od.py:225-527 *)
Definition pick {A} (l : list A) (is : list nat) : list A := flat_map (fun i => match nth_error l i with Some x => [x] | None => [] end) is.

(* ------------------------------------------------------------------ od.py:130-566 od() *)
Section Od.
  Context {Orb D P W B : Type}.
  Variable ids : list string.          (* observations.id *)
  Variable et ot : list Q.             (* ephemeris times (line 214), observation times (537) *)
  Variable chi2_of : Orb -> list Q.    (* chi2 of the residuals of an orbit, one per observation *)
  Variable order : list nat.           (* argsort of the initial orbit's chi2 (line 499) *)
  Variable partials : Orb -> D -> list P.   (* finite-difference derivatives, one row per observation *)
  Variable sigmas : list W.            (* weights, one per observation *)
  Variable resid : Orb -> list B.      (* residuals, one per observation *)
  (* lines 352-438: condition numbers, solve, sanity checks; None = "discard" (continue); D carries
     the step size delta_prev *)
  Variable correct : Orb -> D -> list (P * W * B) -> option Orb * D.
  Variable bound : D -> D.             (* 243-250: keep delta in range *)
  Variable d0 : D.
  Variable o0 : Orb.                   (* the input orbit *)
  Variable threshold min_arc : Q.
  Variable max_iter max_outliers : Z.

  (* od.py:339-350: the n-th row combines the n-th *used* derivative with the n-th weight and the
     n-th residual of the input orbit (residuals_prev_array is never updated).  Observation ids are
     distinct, so num_obs is the number of used rows. *)
  Definition normal_rows (orb : Orb) (out : list string) (d : D) : list (P * W * B) :=
    combine (combine (masked (keep_mask ids out) (partials orb d)) sigmas) (resid o0).

(* helper of [iterate], od.py:225-527 *)
  Record ostate := mkost {
    s_it : Z; s_limit : Z; s_tried : Z; s_orb : Orb; s_delta : D; s_rprev : rc;
    s_first : bool; s_out : list string; s_nobs : Z; s_improved : bool }.
(* helper of [iterate], od.py:225-527 *)
  Record ores := mkores {
    r_orb : Orb; r_arc : Q; r_nobs : Z; r_chi2 : Q; r_rchi2 : rc; r_iter : Z; r_improved : bool; r_outliers : list string }.
(* helper of [iterate], od.py:225-527 *)
  Inductive outcome := Go (s : ostate) | Stop | Found (r : ores).

(* helper of [iterate], od.py:225-527 *)
  Definition n : Z := Z.of_nat (List.length ids).
(* helper of [iterate], od.py:225-527 *)
  Definition rinit : rc := rdiv (sum (chi2_of o0)) (2 * n - 6).
  (* od.py:130-566, state before the loop *)
  Definition init : ostate := mkost 0 max_iter 0 o0 d0 rinit true [] n false.

  (* one pass of the while loop, od.py:225-527; [rows] the normal equations *)
  Definition iterate (rows : Orb -> list string -> D -> list (P * W * B)) (s : ostate) : result outcome :=
    let it := (s_it s + 1)%Z in
    if (it =? max_iter * (max_outliers + 1) + 1)%Z then Ok Stop
    else if (it =? s_limit s + 1)%Z && (max_outliers =? s_tried s)%Z then Ok Stop   (* solution_found ends the loop earlier *)
    else
      let d := bound (s_delta s) in
      match correct (s_orb s) d (rows (s_orb s) (s_out s) d) with
      | (None, d') => Ok (Go (mkost it (s_limit s) (s_tried s) (s_orb s) d' (s_rprev s) (s_first s) (s_out s) (s_nobs s) (s_improved s)))
      | (Some orb, d') =>
          let total := sum (masked (keep_mask ids (s_out s)) (chi2_of orb)) in
          let r := rdiv total (2 * s_nobs s - 6) in
          bind (arc et (keep_mask ids (s_out s))) (fun a =>
          if (rlt r (s_rprev s) || s_first s) && Qle_bool min_arc a then
            let improved := s_improved s || (match rinit with Fin x => rle r x | PInf => match r with NaN => false | _ => true end | NaN => false end) in
            if rle r threshold then
              (* converged: lines 536-564 *)
              bind (arc ot (keep_mask ids (s_out s))) (fun a' =>
              if Qeq_bool a a' then Ok (Found (mkores orb a' (s_nobs s) total r it improved (s_out s)))
              else Err AssertionError)
            else Ok (Go (mkost it (s_limit s) (s_tried s) orb d' r false (s_out s) (s_nobs s) improved))
          else if (0 <? max_outliers)%Z && (s_tried s <=? max_outliers)%Z && (s_limit s <? it)%Z then
            let rem := top order (Z.to_nat (s_tried s + 1)) in
            let out := pick ids rem in
            bind (arc et (keep_mask ids out)) (fun a2 =>
            let tried := (s_tried s + 1)%Z in
            Ok (Go (mkost it (if Qle_bool min_arc a2 then max_iter * (tried + 1) else s_limit s) tried o0 d0 rinit (s_first s)
                          out (n - Z.of_nat (List.length rem)) (s_improved s))))
          else Ok (Go (mkost it (s_limit s) (s_tried s) (s_orb s) d' (s_rprev s) (s_first s) (s_out s) (s_nobs s) (s_improved s))))
      end.
  (* od.py:130-566, the while loop *)
  Fixpoint loop rows (fuel : nat) (s : ostate) : result (option ores) :=
    match fuel with
    | O => Err StopFuel
    | S f => bind (iterate rows s) (fun o => match o with Stop => Ok None | Found r => Ok (Some r) | Go s' => loop rows f s' end)
    end.
  (* od(): None is the pair of empty tables.  [max_outliers] is calculate_max_outliers (C39) *)
  (* od.py:130-566, with the pairing of rows as a parameter *)
  Definition od_with rows (min_obs : Z) (fuel : nat) : result (option ores) :=
    if (n <? min_obs)%Z then Ok None else loop rows fuel init.
  (* od.py:130-566 *)
  Definition od := od_with normal_rows.
End Od.
Arguments mkores {Orb}. Arguments r_orb {Orb}. Arguments r_arc {Orb}. Arguments r_nobs {Orb}. Arguments r_chi2 {Orb}.
Arguments r_rchi2 {Orb}. Arguments r_iter {Orb}. Arguments r_improved {Orb}. Arguments r_outliers {Orb}.

(* ------------------------------------------------------------------ iod.py:304-572 iod() *)
Section Iod.
  Context {Orb : Type}.
  Variable ids : list string.
  Variable times : list Q.
  Variable chi2_of : Orb -> list Q.
  Variable argsort : list Q -> list nat.
  Variable gauss : list string -> list Orb.    (* gaussIOD for the three observations *)
  Variable threshold min_arc : Q.
  Variable max_outliers : nat.

  Record isol := mkisol { i_orb : Orb; i_ids : list string; i_chi2 : Q; i_rchi2 : rc; i_out : list string }.
(* helper of [try_outliers], iod.py:505-541 *)
  Record istate := mkist { i_num : Z; i_arc : option Q; i_sol : option isol; i_proc : bool }.
(* helper of [try_outliers], iod.py:505-541 *)
  Definition in_num : Z := Z.of_nat (List.length ids).

  (* iod.py:505-541, [os] the remaining values of o *)
  Fixpoint try_outliers (triple : list string) (orb : Orb) (os : list nat) (s : istate) : result istate :=
    match os with
    | [] => Ok s
    | o :: os' =>
        let rest := map negb (map (fun i => mem i triple) ids) in    (* ~mask *)
        let c := masked rest (chi2_of orb) in
        let rem := top (argsort c) (o + 1) in
        let out := pick (masked rest ids) rem in
        let total := sum (chi2_of orb) - sum (pick c rem) in
        let num := (in_num - Z.of_nat (List.length rem))%Z in
        let r := rdiv total (2 * num - 6) in
        bind (arc times (keep_mask ids out)) (fun a =>
        if rle r threshold && Qle_bool min_arc a
        then Ok (mkist num (Some a) (Some (mkisol orb triple total r out)) (i_proc s))
        else try_outliers triple orb os' (mkist (i_num s) (Some a) (i_sol s) (i_proc s)))
    end.
  (* iod.py:463-544: the candidate orbits of one triple *)
  Fixpoint try_orbits (triple : list string) (orbs : list Orb) (s : istate) : result istate :=
    match orbs with
    | [] => Ok s
    | orb :: rest =>
        let total := sum (chi2_of orb) in
        let r := rdiv total (2 * i_num s - 6) in
        if rgt r threshold && Nat.eqb max_outliers 0 then
          match rest with [] => Ok (mkist (i_num s) (i_arc s) (i_sol s) false) | _ => try_orbits triple rest s end
        else if rle r threshold then
          bind (arc times (map (fun _ => true) ids)) (fun a =>
          Ok (mkist (i_num s) (Some a) (Some (mkisol orb triple total r [])) (i_proc s)))
        else if Nat.ltb 0 max_outliers then
          bind (try_outliers triple orb (seq 0 max_outliers) s) (try_orbits triple rest)
        else try_orbits triple rest s
    end.
  (* iod.py:428-546 *)
  Fixpoint try_triples (triples : list (list string)) (s : istate) : result istate :=
    match triples with
    | [] => Ok s
    | t :: ts =>
        match i_sol s with
        | Some _ => Ok s
        | None => if i_proc s then bind (try_orbits t (gauss t) s) (try_triples ts) else Ok s
        end
    end.
  (* iod.py:304-572, the returned row *)
  Record ires := mkires { ir_orb : Orb; ir_arc : option Q; ir_num : Z; ir_chi2 : Q; ir_rchi2 : rc; ir_triple : list string; ir_out : list string }.
  (* iod(): [budget] is calculate_max_outliers (line 416, called whatever the size), which gives
     [max_outliers]; [select] is select_observations *)
  (* iod.py:304-572 *)
  Definition iod (budget : result Z) (select : result (list (list string))) (min_obs : Z) : result (option ires) :=
    bind budget (fun _ =>
    bind select (fun triples =>
    let triples := firstn (3 * (max_outliers + 1)) triples in
    let proc := negb (in_num =? 0)%Z && negb (in_num <? min_obs)%Z && negb (Nat.eqb (List.length triples) 0) in
    if proc then
      bind (try_triples triples (mkist in_num None None true)) (fun s =>
      match i_sol s with
      | Some x => if i_proc s then Ok (Some (mkires (i_orb x) (i_arc s) (i_num s) (i_chi2 x) (i_rchi2 x) (i_ids x) (i_out x))) else Ok None
      | None => Ok None
      end)
    else Ok None)).
End Iod.
Arguments mkires {Orb}. Arguments ir_orb {Orb}. Arguments ir_arc {Orb}. Arguments ir_num {Orb}. Arguments ir_chi2 {Orb}.
Arguments ir_rchi2 {Orb}. Arguments ir_triple {Orb}. Arguments ir_out {Orb}.

(* ------------------------------------------------------------------ iod.py:101-184 select_observations *)
Inductive method := FirstMiddleLast | Thirds | Combinations | OtherMethod.
Section Select.
  (* np.percentile(times, q, interpolation="nearest") is an element of the sorted times; [near n q] its
     position for q in {1/6, 1/2, 5/6} (0 and 100 are the first and last) *)
  (* iod.py:101-184: percentiles *)
  Inductive pctl := P16 | P50 | P56.
  Variable near : nat -> pctl -> nat.
  (* iod.py:101-184: np.sort *)
  Definition sortedQ (l : list Q) : list Q := sort Qle_bool l.
  (* iod.py:101-184: element by index *)
  Definition at_ (l : list Q) (i : nat) : list Q := match nth_error l i with Some x => [x] | None => [] end.
  (* np.intersect1d(times, selected, return_indices=True)[1]: for each distinct common value, in
     ascending order, its first position in times *)
  (* iod.py:101-184: np.intersect1d *)
  Fixpoint first_pos (x : Q) (i : nat) (l : list Q) : list nat :=
    match l with [] => [] | y :: r => if Qeq_bool x y then [i] else first_pos x (S i) r end.
  (* iod.py:101-184: np.intersect1d *)
  Definition intersect_pos (times sel : list Q) : list nat :=
    flat_map (fun x => first_pos x 0 times) (sortedQ (uniq Qeq_bool sel)).
  (* iod.py:101-184: itertools.combinations *)
  Fixpoint combos (k : nat) (l : list nat) : list (list nat) :=
    match k, l with
    | O, _ => [[]]
    | S _, [] => []
    | S k', x :: r => map (cons x) (combos k' r) ++ combos (S k') r
    end.
  (* iod.py:101-184: times of a triple *)
  Definition tri (times : list Q) (c : list nat) : Q * Q * Q :=
    match pick times c with [a; b; d] => (a, b, d) | _ => (0, 0, 0)%Q end.
(* helper of [ls_loop], least_squares.py:187-372 *)
  Definition Qabs_ (x : Q) : Q := if Qle_bool 0 x then x else - x.
  (* np.lexsort((time_from_mid, -arc_length)): by arc length descending, then distance from the middle *)
  (* iod.py:101-184: argsort of the arc lengths *)
  Definition cleb (times : list Q) (c c' : list nat) : bool :=
    let '(a, b, d) := tri times c in let '(a', b', d') := tri times c' in
    if qltb (d' - a') (d - a) then true else if qltb (d - a) (d' - a') then false
    else Qle_bool (Qabs_ ((d + a) / 2 - b)) (Qabs_ ((d' + a') / 2 - b')).
  (* iod.py:101-184 *)
  Definition candidates (m : method) (times : list Q) : result (list (list nat)) :=
    let st := sortedQ times in let k := List.length times in
    match m with
    | FirstMiddleLast => Ok [intersect_pos times (at_ st 0 ++ at_ st (near k P50) ++ at_ st (k - 1))]
    | Thirds => Ok [intersect_pos times (at_ st (near k P16) ++ at_ st (near k P50) ++ at_ st (near k P56))]
    | Combinations => Ok (sort (cleb times) (combos 3 (seq 0 k)))
    | OtherMethod => Err ValueError
    end.
  (* iod.py:101-184 *)
  Definition select_observations (ids : list string) (times : list Q) (m : method) : result (list (list string)) :=
    if Nat.ltb (List.length ids) 3 then Ok []
    else bind (candidates m times) (fun cs =>
      Ok (map (pick ids) (filter (fun c => Nat.eqb (List.length (uniq Qeq_bool (pick times c))) 3) cs))).
End Select.

(* ------------------------------------------------------------------ least_squares.py:187-372 *)
Section LeastSquares.
  Context {Orb : Type}.
  Variable rms : Orb -> Q.                          (* weighted RMS of an orbit's residuals *)
  Variable update : Orb -> Q -> result Orb.         (* one Gauss-Newton update; the inverse may raise *)
  Variable mult eps max_iterations : Q.
  (* state: orbit_prev, perturbation fraction, number of iterations done *)
  Fixpoint ls_loop (fuel : nat) (orb : Orb) (pert : Q) (it : Z) : result (option Orb * Z) :=
    if qltb (inject_Z it) max_iterations then
      if qltb (rms orb) (1 # 10 ^ 20) then Ok (Some orb, it)
      else match fuel with
      | O => Err StopFuel
      | S f =>
          bind (update orb pert) (fun u =>
          let it := (it + 1)%Z in
          let conv := qltb (Qabs_ ((rms orb - rms u) / rms orb)) eps in
          if qltb (rms u) (rms orb) then
            if conv then Ok (Some u, it) else ls_loop f u pert it
          else if conv then Ok (Some orb, it)
          else if qltb (1 # 10 ^ 12) pert then ls_loop f orb (pert * mult) it
          else Ok (if (1 <? it)%Z then Some orb else None, it))
      end
    else Ok (Some orb, it).     (* iteration >= max_iterations: line 368 *)
  (* least_squares.py:187-372 *)
  Definition least_squares (fuel : nat) (o : Orb) (pert0 : Q) : result (option Orb * Z) := ls_loop fuel o pert0 0.
End LeastSquares.
