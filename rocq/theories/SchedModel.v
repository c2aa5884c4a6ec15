(* Model of chunking (utils/chunking.py, utils/iter.py), of the Ray submit/wait loops and of
   the parallel drivers built on them (definitions only). *)
From Verif Require Import Base.
Open Scope Z_scope.
Open Scope list_scope.

(* ---- chunking ---- *)
(* l[i:j] for 0 <= i *)
(* helper of [iterate_chunks], utils/iter.py:4-23 *)
Definition slice {A} (l : list A) (i j : Z) : list A := firstn (Z.to_nat (j - i)) (skipn (Z.to_nat i) l).
(* helper of [iterate_chunks], utils/iter.py:4-23 *)
Definition zlen {A} (l : list A) : Z := Z.of_nat (length l).

(* range(0, n, step), n >= 0: ValueError for step 0, empty for a negative step *)
(* helper of [iterate_chunks], utils/iter.py:4-23 *)
Definition range0 (n step : Z) : result (list Z) :=
  if step =? 0 then Err ValueError
  else if step <? 0 then Ok []
  else Ok (map (fun k => Z.of_nat k * step) (seq 0 (Z.to_nat ((n + step - 1) / step)))).

(* utils/iter.py:4-23 _iterate_chunks *)
Definition iterate_chunks {A} (l : list A) (cs : Z) : result (list (list A)) :=
  bind (range0 (zlen l) cs) (fun is => Ok (map (fun i => slice l i (i + cs)) is)).

(* utils/iter.py:26-47 _iterate_chunk_indices *)
Definition iterate_chunk_indices {A} (l : list A) (cs : Z) : result (list (Z * Z)) :=
  bind (range0 (zlen l) cs) (fun is => Ok (map (fun i => (i, Z.min (i + cs) (zlen l))) is)).

(* utils/chunking.py:4-23 pad_to_fixed_size along the first axis; [pad]: the row of zeros *)
Definition pad_to_fixed_size {A} (pad : A) (l : list A) (target : Z) : list A :=
  l ++ repeat pad (Z.to_nat (Z.max 0 (target - zlen l))).

(* utils/chunking.py:26-47 process_in_chunks *)
Definition process_in_chunks {A} (pad : A) (l : list A) (cs : Z) : result (list (list A)) :=
  bind (range0 (zlen l) cs) (fun is =>
    Ok (map (fun i => let chunk := slice l i (i + cs) in
                      if zlen chunk <? cs then pad_to_fixed_size pad chunk cs else chunk) is)).

(* the callers that preallocate a padded output and cut it to n rows
   (propagator.py:388-437, photometry/magnitude.py) *)
Definition padded_eval {A B} (pad : A) (f : A -> B) (l : list A) (cs : Z) : result (list B) :=
  bind (process_in_chunks pad l cs) (fun chunks => Ok (firstn (length l) (concat (map (map f) chunks)))).

(* the callers that copy the valid rows of each chunk (dynamics/propagation.py:170-221):
   [bad_in]/[bad_out] are the non-finite checks; DynamicsNumericalError is a RuntimeError *)
Section Checked.
  Context {A B : Type} (bad_in : A -> bool) (f : A -> B) (bad_out : B -> bool) (cs : Z).
  Fixpoint checked_loop (chunks : list (list A)) (start n : Z) : result (list B) :=
    match chunks with
    | [] => if start =? n then Ok [] else Err RuntimeError
    | c :: rest =>
        let valid := Z.min cs (n - start) in
        let k := Z.to_nat valid in
        if existsb bad_in (firstn k c) then Err RuntimeError
        else
          let out := firstn k (map f c) in
          if existsb bad_out out then Err RuntimeError
          else bind (checked_loop rest (start + valid) n) (fun r => Ok (out ++ r))
    end.
(* helper of [propagate_2body], dynamics/propagation.py:285-356 *)
  Definition checked_eval (pad : A) (l : list A) : result (list B) :=
    bind (process_in_chunks pad l cs) (fun chunks => checked_loop chunks 0 (zlen l)).
End Checked.

(* np.repeat(l, m) and np.tile(l, n) *)
(* helper of [propagate_2body], dynamics/propagation.py:285-356 *)
Definition np_repeat {A} (l : list A) (m : nat) : list A := flat_map (fun x => repeat x m) l.
(* helper of [propagate_2body], dynamics/propagation.py:285-356 *)
Definition np_tile {A} (l : list A) (n : nat) : list A := concat (repeat l n).

(* ---- dynamics/propagation.py:133-263 _propagate_2body_serial ---- *)
(* one output row: the orbit it comes from (ids, parameters, origin are copied from it), the
   requested epoch, the state and the covariance read back as a matrix *)
Record trow (O T S C : Type) := mktrow { w_orbit : O; w_time : T; w_state : S; w_cov : C }.
Arguments mktrow {O T S C}. Arguments w_orbit {O T S C}. Arguments w_time {O T S C}.
Arguments w_state {O T S C}. Arguments w_cov {O T S C}.

Section TwoBody.
  Context {O T S C : Type}.
  Variable bad_orbit : O -> bool.           (* non-finite input state *)
  Variable prop2 : O -> T -> S.             (* _propagate_2body of one row *)
  Variable bad_state : S -> bool.           (* non-finite output state *)
  Variable cov : O -> C.
  Variable is_nan : C -> bool.
  Variable nan : C.
  Variable jac : O -> T -> C -> C.          (* J C J^T at one row *)
  Variable pad : O * T.                     (* the row of zeros *)
  (* null covariances (all NaN input) read back as NaN matrices *)
(* helper of [propagate_2body], dynamics/propagation.py:285-356 *)
  Definition propagate_serial (orbits : list O) (times : list T) : result (list (trow O T S C)) :=
    let os := np_repeat orbits (length times) in
    let ts := np_tile times (length orbits) in
    let rows := combine os ts in
    bind (checked_eval (fun p => bad_orbit (fst p)) (fun p => prop2 (fst p) (snd p)) bad_state 200 pad rows)
      (fun states =>
        let covs := if forallb (fun o => is_nan (cov o)) orbits then map (fun _ => nan) rows
                    else map (fun p => jac (fst p) (snd p) (cov (fst p))) rows in
        Ok (map (fun q => mktrow (fst (fst q)) (snd (fst q)) (fst (snd q)) (snd (snd q)))
             (combine rows (combine states covs)))).
End TwoBody.

(* ---- the submit/wait loops ---- *)
Section Window.
  Context {A : Type}.
  (* the adversary: at the k-th ray.wait the pending task at this position (modulo the number
     of pending tasks) is the one reported finished *)
  Variable pick : nat -> nat.

(* helper of [submit], propagation.py:333-353 *)
  Fixpoint take_at (i : nat) (l : list A) : option (A * list A) :=
    match l with
    | [] => None
    | x :: r => match i with
                | O => Some (x, r)
                | S j => match take_at j r with Some (y, r') => Some (y, x :: r') | None => None end
                end
    end.
  (* ray.wait(pending, num_returns=1): the finished task and the others in order *)
(* helper of [submit], propagation.py:333-353 *)
  Definition wait_one (k : nat) (pending : list A) : option (A * list A) :=
    take_at (pick k mod length pending) pending.

  (* for x in inputs: pending.append(...); if len(pending) >= max_processes * 1.5: wait
     (propagation.py:333-353, propagator.py:650-670, moid.py:272-284, iod.py:640-687,
     od.py:688-731); [fl] records the number of tasks in flight after each submission *)
  Fixpoint submit (P : Z) (k : nat) (pending done : list A) (fl : list nat) (tasks : list A)
    : nat * list A * list A * list nat :=
    match tasks with
    | [] => (k, pending, done, fl)
    | t :: ts =>
        let p := pending ++ [t] in
        let fl' := fl ++ [length p] in
        if 3 * P <=? 2 * zlen p then
          match wait_one k p with
          | Some (x, p') => submit P (S k) p' (done ++ [x]) fl' ts
          | None => submit P k p done fl' ts
          end
        else submit P k p done fl' ts
    end.
  (* while pending: wait *)
(* helper of [submit_all], impacts.py:203-220 *)
  Fixpoint drain (fuel k : nat) (pending : list A) : list A :=
    match fuel with
    | O => []
    | S n => match wait_one k pending with
             | Some (x, p') => x :: drain n (S k) p'
             | None => []
             end
    end.
  (* completion order of the results and the in-flight counts *)
(* helper of [par_keyed], dynamics/propagation.py:333-356 *)
  Definition window (P : Z) (tasks : list A) : list A * list nat :=
    let '(k, p, d, fl) := submit P 0 [] [] [] tasks in (d ++ drain (length p) k p, fl).
  (* impacts.py:203-220: submit everything, then wait *)
  Definition submit_all (tasks : list A) : list A := drain (length tasks) 0 tasks.
End Window.

(* ---- parallel drivers ---- *)
Section Par.
  Context {A B : Type}.
  Variable worker : list A -> result (list B).
  Variable pick : nat -> nat.

  (* tasks carry the index of their first row *)
(* helper of [par_keyed], dynamics/propagation.py:333-356 *)
  Definition keyed_tasks (xs : list A) (cs : Z) : result (list (Z * list A)) :=
    bind (range0 (zlen xs) cs) (fun is => Ok (map (fun i => (i, slice xs i (i + cs))) is)).

  (* results[start] = ...; sorted(results.keys()); concatenate
     (dynamics/propagation.py:333-356 and dynamics/ephemeris.py:317-349) *)
  Definition par_keyed (P cs : Z) (xs : list A) : result (list B) :=
    bind (keyed_tasks xs cs) (fun tasks =>
    bind (mapM (fun t => bind (worker (snd t)) (fun r => Ok (fst t, r))) (fst (window pick P tasks))) (fun rs =>
    Ok (concat (map snd (sort (fun a b => fst a <=? fst b) rs))))).

  (* results concatenated as they finish (od.py:688-731) *)
  Definition par_unordered (P cs : Z) (xs : list A) : result (list B) :=
    bind (iterate_chunks xs cs) (fun tasks =>
    bind (mapM worker (fst (window pick P tasks))) (fun rs => Ok (concat rs))).
  (* the serial counterpart: one worker call per chunk (od.py:739-763) *)
  Definition serial_chunks (cs : Z) (xs : list A) : result (list B) :=
    bind (iterate_chunks xs cs) (fun tasks => bind (mapM worker tasks) (fun rs => Ok (concat rs))).
  (* impacts.py:180-223 detect_collisions with Ray; qv.concatenate([]) raises ValueError *)
  Definition par_collisions (cs : Z) (xs : list A) : result (list B) :=
    bind (iterate_chunks xs cs) (fun tasks =>
    bind (mapM worker (submit_all pick tasks)) (fun rs =>
    match rs with [] => Err ValueError | _ => Ok (concat rs) end)).
End Par.

(* dynamics/propagation.py:285-356 propagate_2body *)
Section Propagate2Body.
  Context {O T S C : Type}.
  Variable bad_orbit : O -> bool.
  Variable prop2 : O -> T -> S.
  Variable bad_state : S -> bool.
  Variable cov : O -> C.
  Variable is_nan : C -> bool.
  Variable nan : C.
  Variable jac : O -> T -> C -> C.
  Variable pad : O * T.
  Definition propagate_2body (pick : nat -> nat) (max_processes chunk_size : Z) (orbits : list O) (times : list T)
    : result (list (trow O T S C)) :=
    if max_processes <=? 1
    then propagate_serial bad_orbit prop2 bad_state cov is_nan nan jac pad orbits times
    else par_keyed (fun os => propagate_serial bad_orbit prop2 bad_state cov is_nan nan jac pad os times)
           pick max_processes chunk_size orbits.
End Propagate2Body.

(* dynamics/moid.py:215-293 calculate_perturber_moids; [worker p chunk] is moid_worker: one
   result row per orbit of the chunk, in order (moid_row: calculate_moid, which may raise) *)
Section Moids.
  Context {Orb P R : Type} (moid_row : P -> Orb -> result R).
  Definition moid_worker (t : P * list Orb) : result (list R) := mapM (moid_row (fst t)) (snd t).
  (* dynamics/moid.py:215-293: the futures inputs *)
  Definition moid_tasks (orbits : list Orb) (ps : list P) (cs : Z) : result (list (P * list Orb)) :=
    bind (mapM (fun p => bind (iterate_chunks orbits cs) (fun l => Ok (map (fun c => (p, c)) l))) ps)
      (fun ls => Ok (concat ls)).
  (* dynamics/moid.py:215-293 *)
  Definition perturber_moids (pick : nat -> nat) (max_processes cs : Z) (orbits : list Orb) (ps : list P)
    : result (list R) :=
    bind (moid_tasks orbits ps cs) (fun tasks =>
    bind (mapM moid_worker (if 1 <? max_processes then fst (window pick max_processes tasks) else tasks))
      (fun rs => Ok (concat rs))).
End Moids.

(* ---- dynamics/ephemeris.py:245-705 generate_ephemeris_2body ----
   An input row pairs a propagated orbit with an observer.  [eph]: barycentric translation (both
   branches of lines 366-424 move each row by its own origin's state), light time, topocentric
   spherical state, emission time; [cov]/[jac]: covariance columns; [has_hg]: finite H and G;
   [mag]: apparent magnitude of one row (may raise); missing values are None. *)
Record erow (E C M : Type) := mkerow { e_eph : E; e_cov : C; e_mag : option M }.
Arguments mkerow {E C M}. Arguments e_eph {E C M}. Arguments e_cov {E C M}. Arguments e_mag {E C M}.
Section Ephemeris2Body.
  Context {O B E C M : Type}.
  Variable eph : O -> B -> E.
  Variable bad_eph : E -> bool.
  Variable cov : O -> C.
  Variable is_nan : C -> bool.
  Variable nan : C.
  Variable jac : O -> B -> C -> C.
  Variable has_hg : O -> bool.
  Variable mag : O -> B -> result (option M).
  Variable pad : O * B.
  (* lines 352-705, inner batches of 2000 rows; predict_phase_angle = False *)
  (* dynamics/ephemeris.py:192-215 *)
  Definition eph_serial (predict_mags : bool) (rows : list (O * B)) : result (list (erow E C M)) :=
    bind (checked_eval (fun _ => false) (fun p => eph (fst p) (snd p)) bad_eph 2000 pad rows) (fun es =>
    let covs := if forallb (fun p => is_nan (cov (fst p))) rows then map (fun _ => nan) rows
                else map (fun p => jac (fst p) (snd p) (cov (fst p))) rows in
    bind (if predict_mags && existsb (fun p => has_hg (fst p)) rows
          then mapM (fun p => bind (mag (fst p) (snd p)) (fun m => Ok (if has_hg (fst p) then m else None))) rows
          else Ok (map (fun _ => None) rows)) (fun ms =>
    Ok (map (fun q => mkerow (fst q) (fst (snd q)) (snd (snd q))) (combine es (combine covs ms))))).
  (* dynamics/ephemeris.py:245-706 *)
  Definition generate_ephemeris_2body (pick : nat -> nat) (predict_mags : bool) (max_processes chunk_size : Z)
      (orbits : list O) (observers : list B) : result (list (erow E C M)) :=
    if Nat.eqb (length orbits) (length observers) then
      let rows := combine orbits observers in
      if max_processes <=? 1 then eph_serial predict_mags rows
      else par_keyed (eph_serial predict_mags) pick max_processes chunk_size rows
    else Err AssertionError.
End Ephemeris2Body.

(* ---- which row a numerical failure is reported for ----
   A chunk is its rows of six finite/non-finite flags. *)
(* helper of [report_row], propagation.py:83-86 *)
Inductive num_error := NumericalError (row : Z) | RowIndexError.
(* first index satisfying f *)
(* helper of [report_row], propagation.py:83-86 *)
Fixpoint find_ix {A} (f : A -> bool) (l : list A) : option Z :=
  match l with
  | [] => None
  | x :: r => if f x then Some 0 else match find_ix f r with Some i => Some (i + 1) | None => None end
  end.
(* propagation.py:83-86 _first_non_finite_row and lines 178-216: [chunk] is the valid part of a
   chunk starting at row [start]; each row carries the flags of its input and of its output *)
Definition report_row (start : Z) (chunk : list (list bool * list bool)) : option num_error :=
  match find_ix (fun r => existsb negb (fst r)) chunk with
  | Some i => Some (NumericalError (start + i))
  | None => match find_ix (fun r => existsb negb (snd r)) chunk with
            | Some i => Some (NumericalError (start + i))
            | None => None
            end
  end.
(* ephemeris.py:159-161 _first_non_finite flattens; lines 488-509: orbit_id[start + k] and then
   times_chunk[k] are evaluated before the error is raised; num_entries rows, chunks of 2000 *)
Definition report_flat (num_entries start : Z) (chunk : list (list bool)) : option num_error :=
  match find_ix negb (concat chunk) with
  | Some k => if num_entries <=? start + k then Some RowIndexError
              else if 2000 <=? k then Some RowIndexError
              else Some (NumericalError (start + k))
  | None => None
  end.
(* first failing chunk, dynamics/propagation.py:83-130 *)
Fixpoint first_report {A} (rep : Z -> list A -> option num_error) (chunks : list (list A)) (start : Z) : option num_error :=
  match chunks with
  | [] => None
  | c :: r => match rep start c with Some e => Some e | None => first_report rep r (start + zlen c) end
  end.
(* dynamics/propagation.py:83-130 *)
Definition propagation_report (rows : list (list bool * list bool)) : result (option num_error) :=
  bind (iterate_chunks rows 200) (fun cs => Ok (first_report report_row cs 0)).
(* rows whose light time is finite: the flags of the spherical states *)
(* dynamics/ephemeris.py:159-190 *)
Definition ephemeris_report (rows : list (list bool)) : result (option num_error) :=
  bind (iterate_chunks rows 2000) (fun cs => Ok (first_report (report_flat (zlen rows)) cs 0)).

(* ---- dynamics/impacts.py:118-228 detect_collisions, the events table ----
   [detect cfg orbits]: _detect_collisions of a propagator configured by [cfg]; workers run
   propagator_class() (lines 46-50), i.e. the default configuration *)
Section Collisions.
  Context {Cfg Orb Ev : Type} (detect : Cfg -> list Orb -> result (list Ev)) (default : Cfg).
  Definition detect_collisions (pick : nat -> nat) (self : Cfg) (max_processes cs : Z) (orbits : list Orb)
    : result (list Ev) :=
    if 1 <? max_processes then par_collisions (detect default) pick cs orbits else detect self orbits.
End Collisions.

(* ---- orbit_determination: differential_correction (od.py:570-770) and
   initial_orbit_determination (iod.py:575-760), the orbits table ----
   use_ray: initialize_use_ray(max_processes) is true exactly when max_processes > 1 *)
Section OdBatch.
  Context {I R : Type} (fit : I -> result (list R)).
  (* od_worker / iod_worker: one fit per id of the chunk *)
  Definition od_chunk (ids : list I) : result (list R) := bind (mapM fit ids) (fun rs => Ok (concat rs)).
(* helper of [iod_batch], iod.py:723-749 *)
  Definition od_batch (pick : nat -> nat) (max_processes cs : Z) (ids : list I) : result (list R) :=
    if 1 <? max_processes then par_unordered od_chunk pick max_processes cs ids
    else serial_chunks od_chunk cs ids.
End OdBatch.
(* fitted_orbits.py drop_duplicate_orbits(keep="first"): quivr keeps the first row of each key *)
(* helper of [iod_batch], iod.py:723-749 *)
Definition drop_dups {R} (same : R -> R -> bool) (l : list R) : list R := uniq same l.
(* iod.py:723-749: deduplicate on (epoch, state), sort by orbit id *)
Definition iod_batch {I R} (fit : I -> result (list R)) (same : R -> R -> bool) (id_leb : R -> R -> bool)
    (pick : nat -> nat) (max_processes cs : Z) (ids : list I) : result (list R) :=
  bind (od_batch fit pick max_processes cs ids) (fun rs => Ok (sort id_leb (drop_dups same rs))).
