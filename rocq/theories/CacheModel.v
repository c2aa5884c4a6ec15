(* Model of the in-process caches: utils/bounded_lru.py, the SPKEZ cache of utils/spice.py,
   the observer-state cache of observers/state.py and the translation cache of
   coordinates/transform.py (definitions only). *)
From Verif Require Import Base TimeModel.
From Coq Require Import String.
Open Scope Z_scope.
Open Scope list_scope.

(* ---- utils/bounded_lru.py ---- *)
Section Lru.
  Context {K V : Type} (keqb : K -> K -> bool).

  (* an OrderedDict: association list, oldest entry first, distinct keys *)
(* helper of [lru_get], bounded_lru.py:11-24 *)
  Definition od := list (K * V).
(* helper of [lru_get], bounded_lru.py:11-24 *)
  Fixpoint od_get (c : od) (k : K) : option V :=
    match c with
    | [] => None
    | (k', v) :: r => if keqb k k' then Some v else od_get r k
    end.
  (* d[k] = v: an existing key keeps its place, a new key goes to the end *)
(* helper of [lru_put], bounded_lru.py:27-40 *)
  Fixpoint od_set (c : od) (k : K) (v : V) : od :=
    match c with
    | [] => [(k, v)]
    | (k', v') :: r => if keqb k k' then (k', v) :: r else (k', v') :: od_set r k v
    end.
(* helper of [lru_get], bounded_lru.py:11-24 *)
  Definition od_remove (c : od) (k : K) : od := filter (fun p => negb (keqb k (fst p))) c.
  (* d.move_to_end(k) for a present key *)
(* helper of [lru_get], bounded_lru.py:11-24 *)
  Definition move_to_end (c : od) (k : K) : od :=
    match od_get c k with None => c | Some v => od_remove c k ++ [(k, v)] end.

  (* bounded_lru.py:11-24 (a stored None would read as a miss; the caches store arrays) *)
  Definition lru_get (maxsize : Z) (c : od) (k : K) : option V * od :=
    if maxsize <=? 0 then (None, c)
    else match od_get c k with
         | None => (None, c)
         | Some v => (Some v, move_to_end c k)
         end.

  (* bounded_lru.py:39-40 while len(cache) > maxsize: popitem(last=False) *)
  Fixpoint evict (maxsize : Z) (c : od) : od :=
    match c with
    | [] => []
    | x :: r => if maxsize <? Z.of_nat (List.length c) then evict maxsize r else c
    end.

  (* bounded_lru.py:27-40 *)
  Definition lru_put (maxsize : Z) (c : od) (k : K) (v : V) : od :=
    if maxsize <=? 0 then c
    else evict maxsize (move_to_end (od_set c k v) k).

  (* calls of bounded_lru.py:11-40, for histories in statements *)
  Inductive lru_op := Get (k : K) | Put (k : K) (v : V).
  (* one call of bounded_lru.py:11-40 *)
  Definition lru_step (maxsize : Z) (c : od) (o : lru_op) : option V * od :=
    match o with
    | Get k => lru_get maxsize c k
    | Put k v => (None, lru_put maxsize c k v)
    end.
  (* a history of calls of bounded_lru.py:11-40 *)
  Fixpoint lru_run (maxsize : Z) (c : od) (ops : list lru_op) : list (option V) * od :=
    match ops with
    | [] => ([], c)
    | o :: r => let '(x, c1) := lru_step maxsize c o in
                let '(xs, c2) := lru_run maxsize c1 r in (x :: xs, c2)
    end.
End Lru.
Arguments od : clear implicits.
Arguments lru_op : clear implicits.

(* ---- utils/spice.py ---- *)
(* spice.py:37-43 _SpkezCacheKey *)
Record spk_key := mkspk { k_target : Z; k_observer : Z; k_frame : string; k_days : Z; k_nanos : Z }.
(* helper of [spk_lookup], spice.py:187-228 *)
Definition spk_keqb (a b : spk_key) : bool :=
  (k_target a =? k_target b) && (k_observer a =? k_observer b) &&
  String.eqb (k_frame a) (k_frame b) && (k_days a =? k_days b) && (k_nanos a =? k_nanos b).

(* spice.py:157-165 frame names; ValueError otherwise *)
Definition spice_frame (f : string) : result string :=
  if String.eqb f "ecliptic" then Ok "ECLIPJ2000"%string
  else if String.eqb f "equatorial" then Ok "J2000"%string
  else if String.eqb f "itrf93" then Ok "ITRF93"%string
  else Err ValueError.

Section Spk.
  (* St: a state vector; neg: numpy's exact negation.
     spk target observer frame row: sp.spkez at row's ET with the loaded kernels, already in
     au, au/d (spice.py:216-224).  SPICE itself is external. *)
  Context {St : Type} (neg : St -> St) (spk : Z -> Z -> string -> row -> St).
  Variable maxsize : Z.

  Definition spk_cache := od spk_key St.

  (* spice.py:187-228: one unique epoch; returns the state and the new cache *)
  Definition spk_lookup (c : spk_cache) (target observer : Z) (f : string) (r : row) : St * spk_cache :=
    let key := mkspk target observer f (days r) (nanos r) in
    match lru_get spk_keqb maxsize c key with
    | (Some s, c1) => (s, c1)
    | (None, c1) =>
        let rev_key := mkspk observer target f (days r) (nanos r) in
        match lru_get spk_keqb maxsize c1 rev_key with
        | (Some s', c2) => let s := neg s' in (s, lru_put spk_keqb maxsize c2 key s)
        | (None, c2) =>
            let s := spk target observer f r in
            (s, lru_put spk_keqb maxsize (lru_put spk_keqb maxsize c2 key s) rev_key (neg s))
        end
    end.

  (* the loop over representatives of the unique time keys *)
(* helper of [get_perturber_state], spice.py:131-242 *)
  Fixpoint spk_loop (c : spk_cache) (target observer : Z) (f : string) (l : list (Z * row))
    : list (Z * St) * spk_cache :=
    match l with
    | [] => ([], c)
    | (k, r) :: rest =>
        let '(s, c1) := spk_lookup c target observer f r in
        let '(ss, c2) := spk_loop c1 target observer f rest in ((k, s) :: ss, c2)
    end.

  (* np.unique(time_key, return_index=True): sorted unique keys with their first row *)
(* helper of [get_perturber_state], spice.py:131-242 *)
  Definition first_row (rs : list row) (k : Z) : option row :=
    find (fun r => key_row r =? k) rs.
(* helper of [get_perturber_state], spice.py:131-242 *)
  Definition reps (rs : list row) : list (Z * row) :=
    flat_map (fun k => match first_row rs k with Some r => [(k, r)] | None => [] end)
      (sort Z.leb (uniq Z.eqb (map key_row rs))).
(* helper of [get_perturber_state], spice.py:131-242 *)
  Definition assoc_z {A} (k : Z) (l : list (Z * A)) : option A :=
    match find (fun p => fst p =? k) l with Some p => Some (snd p) | None => None end.

  (* spice.py:131-242 get_perturber_state; [rs] are the rows of times.rescale("tdb").
     The result is the states column; time, frame and origin labels are copied from the
     arguments. *)
  Definition get_perturber_state (c : spk_cache) (target : Z) (rs : list row) (frame : string) (origin : Z)
    : result (list St) * spk_cache :=
    match spice_frame frame with
    | Err e => (Err e, c)
    | Ok f =>
        let '(us, c1) := spk_loop c target origin f (reps rs) in
        (mapM (fun r => match assoc_z (key_row r) us with Some s => Ok s | None => Err IndexError end) rs, c1)
    end.
End Spk.

(* a session: state queries, cache clears (spice.py:58-64) and kernel changes
   (spice.py:257-282, which touch only SPICE's pool and the set of registered names) *)
Inductive spice_op :=
| Query (target : Z) (rs : list row) (frame : string) (origin : Z)
| ClearCache
| Register (k : string)
| Unregister (k : string).

Section Session.
  Context {St : Type} (neg : St -> St).
  (* the kernel pool: loaded files in load order; SPICE reads the state from the pool *)
  Variable spk : list string -> Z -> Z -> string -> row -> St.
  Variable maxsize : Z.

  (* module state of spice.py:38-64 and 90-128 *)
  Definition spice_state := (@spk_cache St * list string)%type.
  (* ktotal/kernel pool test of spice.py:257-282 *)
  Definition pool_has (k : string) (p : list string) : bool := existsb (String.eqb k) p.
  (* one call of spice.py:131-282 *)
  Definition spice_step (st : spice_state) (o : spice_op) : option (result (list St)) * spice_state :=
    let '(c, pool) := st in
    match o with
    | Query t rs f o => let '(r, c1) := get_perturber_state neg (spk pool) maxsize c t rs f o in (Some r, (c1, pool))
    | ClearCache => (None, ([], pool))
    | Register k => (None, (c, if pool_has k pool then pool else pool ++ [k]))
    | Unregister k => (None, (c, filter (fun x => negb (String.eqb k x)) pool))
    end.
  (* a history of calls of spice.py:131-282 *)
  Fixpoint spice_run (st : spice_state) (ops : list spice_op) : list (option (result (list St))) * spice_state :=
    match ops with
    | [] => ([], st)
    | o :: r => let '(x, s1) := spice_step st o in
                let '(xs, s2) := spice_run s1 r in (x :: xs, s2)
    end.
End Session.

(* ---- observers/state.py ---- *)
(* helper of [obs_cache], state.py:139-231 *)
Record coords (St : Type) := mkcoords {
  c_time : timestamp; c_states : list St; c_frame : string; c_origin : list string }.
Arguments mkcoords {St}. Arguments c_time {St}. Arguments c_states {St}.
Arguments c_frame {St}. Arguments c_origin {St}.

(* state.py:25-33 _ObserverStateCacheKey / transform.py:38-46 _TranslationCacheKey:
   three strings, n, first key, last key, digest *)
Definition tkey := (string * string * string * Z * Z * Z * Z)%type.
(* helper of [mpc_observer_state], state.py:65-232 *)
Definition tkey_eqb (a b : tkey) : bool :=
  let '(a1, a2, a3, a4, a5, a6, a7) := a in
  let '(b1, b2, b3, b4, b5, b6, b7) := b in
  String.eqb a1 b1 && String.eqb a2 b2 && String.eqb a3 b3 &&
  (a4 =? b4) && (a5 =? b5) && (a6 =? b6) && (a7 =? b7).

Section Keys.
  (* digest: blake2b-64 of the key bytes (external) *)
  Variable digest : list Z -> Z.
  (* time.py:103-132 signature and cache_digest of rows already in TDB *)
  Definition time_key (s1 s2 s3 : string) (rs : list row) : tkey :=
    let '(n, first, last, _) := signature (mkts "tdb" rs) in
    (s1, s2, s3, n, first, last,
     match rs with [] => 0 | _ => digest (map key_row rs) end).
End Keys.

Section Observer.
  Context {St : Type}.
  Variable digest : list Z -> Z.
  Variable tdb : timestamp -> list row.       (* times.rescale("tdb") *)
  (* parallax table: None = code absent, Some false = a NaN coefficient *)
  Variable table : string -> option bool.
  (* state of observatory [code] in [frame] from [origin] at a TDB row: Earth state plus
     rotated parallax offset (state.py:139-231), all functions of the TDB epoch *)
  Variable site : string -> string -> string -> row -> St.
  Variable maxsize : Z.
  Definition obs_cache := od tkey (coords St).

(* helper of [mpc_observer_state], state.py:65-232 *)
  Definition fresh_observer (code : string) (times : timestamp) (frame origin : string) : coords St :=
    mkcoords times (map (site code frame origin) (tdb times)) frame
      (repeat origin (List.length (rows times))).

  (* state.py:65-232 get_mpc_observer_state *)
  Definition mpc_observer_state (c : obs_cache) (code : string) (times : timestamp) (frame origin : string)
    : result (coords St) * obs_cache :=
    match spice_frame frame with
    | Err e => (Err e, c)
    | Ok _ =>
      match table code with
      | None => (Err ValueError, c)
      | Some false => (Err ValueError, c)
      | Some true =>
          let key := time_key digest code frame origin (tdb times) in
          match lru_get tkey_eqb maxsize c key with
          | (Some r, c1) => (Ok r, c1)
          | (None, c1) =>
              let r := fresh_observer code times frame origin in
              if String.eqb frame "itrf93" then (Ok r, lru_put tkey_eqb maxsize c1 key r)
              else if String.eqb code "500" then (Ok r, c1)
              else (Ok r, lru_put tkey_eqb maxsize c1 key r)
          end
      end
    end.

  (* calls of observers/state.py:58-297, for histories in statements *)
  Inductive obs_op := ObsQuery (code : string) (times : timestamp) (frame origin : string) | ObsClear.
  (* one call of observers/state.py:58-297 *)
  Definition obs_step (c : obs_cache) (o : obs_op) : option (result (coords St)) * obs_cache :=
    match o with
    | ObsQuery code t f og => let '(r, c1) := mpc_observer_state c code t f og in (Some r, c1)
    | ObsClear => (None, [])
    end.
  (* a history of calls of observers/state.py:58-297 *)
  Fixpoint obs_run (c : obs_cache) (ops : list obs_op) : list (option (result (coords St))) * obs_cache :=
    match ops with
    | [] => ([], c)
    | o :: r => let '(x, c1) := obs_step c o in let '(xs, c2) := obs_run c1 r in (x :: xs, c2)
    end.
End Observer.

(* ---- coordinates/transform.py:1525-1614 cartesian_to_origin ---- *)
(* one coordinate row: TDB epoch, origin code, state, covariance *)
Record crow (St Cov : Type) := mkcrow { r_time : row; r_origin : string; r_state : St; r_cov : Cov }.
Arguments mkcrow {St Cov}. Arguments r_time {St Cov}. Arguments r_origin {St Cov}.
Arguments r_state {St Cov}. Arguments r_cov {St Cov}.

Section Origin.
  Context {St Cov : Type}.
  Variable digest : list Z -> Z.
  Variable is_origin_code : string -> bool.     (* OriginCodes.__members__ *)
  Variable is_observatory : string -> bool.     (* OBSERVATORY_CODES *)
  (* get_perturber_state and get_observer_state, row by row (C17, C19) *)
  Variable perturber : string -> string -> string -> row -> St.
  Variable observer : string -> string -> string -> row -> St.
  Variable add : St -> St -> St.                (* translate: value + vector *)
  Variable enabled : bool.                      (* _TRANSLATION_CACHE_ENABLED *)
  Variable maxsize : Z.
(* helper of [origin_vectors], transform.py:1559-1612 *)
  Definition tr_cache := od tkey (list St).

  (* transform.py:59-62 *)
  Definition allowed (a b : string) : bool :=
    (String.eqb a "SUN" && String.eqb b "SOLAR_SYSTEM_BARYCENTER") ||
    (String.eqb a "SOLAR_SYSTEM_BARYCENTER" && String.eqb b "SUN").

  (* vectors[mask] = v: write v in order into the selected places *)
  (* transform.py:1525-1614: vectors[mask] = v *)
  Fixpoint scatter {A} (mask : list bool) (dst : list (option A)) (v : list A) : list (option A) :=
    match mask, dst with
    | true :: m, _ :: d => match v with [] => None :: scatter m d [] | x :: xs => Some x :: scatter m d xs end
    | false :: m, y :: d => y :: scatter m d v
    | _, _ => dst
    end.
(* helper of [origin_vectors], transform.py:1559-1612 *)
  Definition apply_mask {A} (mask : list bool) (l : list A) : list A :=
    map snd (filter fst (combine mask l)).

  (* one turn of the loop, transform.py:1559-1612 *)
  Definition origin_vectors (c : tr_cache) (frame out : string) (cs : list (crow St Cov)) (o : string)
    : result (list St) * tr_cache :=
    let mask := map (fun r => String.eqb (r_origin r) o) cs in
    let ts := apply_mask mask (map r_time cs) in
    if is_origin_code o then
      if enabled && allowed o out then
        let key := time_key digest o out frame ts in
        match lru_get tkey_eqb maxsize c key with
        | (Some v, c1) => (Ok v, c1)
        | (None, c1) => let v := map (perturber o out frame) ts in
                        (Ok v, lru_put tkey_eqb maxsize c1 key v)
        end
      else (Ok (map (perturber o out frame) ts), c)
    else if is_observatory o then (Ok (map (observer o out frame) ts), c)
    else (Err ValueError, c).

  (* transform.py:1525-1614, the loop over origins *)
  Fixpoint origin_loop (c : tr_cache) (frame out : string) (cs : list (crow St Cov)) (os : list string)
    (vs : list (option St)) : result (list (option St)) * tr_cache :=
    match os with
    | [] => (Ok vs, c)
    | o :: r =>
        match origin_vectors c frame out cs o with
        | (Err e, c1) => (Err e, c1)
        | (Ok v, c1) =>
            let mask := map (fun r => String.eqb (r_origin r) o) cs in
            origin_loop c1 frame out cs r (scatter mask vs v)
        end
    end.

  (* np.empty leaves arbitrary values: None here; a None reaching the addition would be a
     use of uninitialised memory, reported as RuntimeError *)
  (* cartesian.py:344-390 translate *)
  Definition translate (cs : list (crow St Cov)) (vs : list (option St)) (out : string) : result (list (crow St Cov)) :=
    match zip_opt cs vs with
    | None => Err ValueError
    | Some l => mapM (fun p => match snd p with
        | Some v => Ok (mkcrow (r_time (fst p)) out (add (r_state (fst p)) v) (r_cov (fst p)))
        | None => Err RuntimeError end) l
    end.

  (* transform.py:1525-1614 *)
  Definition cartesian_to_origin (c : tr_cache) (frame : string) (cs : list (crow St Cov)) (out : string)
    : result (list (crow St Cov)) * tr_cache :=
    match origin_loop c frame out cs (uniq String.eqb (map r_origin cs)) (repeat None (List.length cs)) with
    | (Err e, c1) => (Err e, c1)
    | (Ok vs, c1) => (translate cs vs out, c1)
    end.

  (* calls of transform.py:75-81 and 1525-1614, for histories in statements *)
  Inductive tr_op := TrCall (frame : string) (cs : list (crow St Cov)) (out : string) | TrClear.
  (* a history of calls of transform.py:75-81 and 1525-1614 *)
  Fixpoint tr_run (c : tr_cache) (ops : list tr_op) : list (option (result (list (crow St Cov)))) * tr_cache :=
    match ops with
    | [] => ([], c)
    | TrClear :: r => let '(xs, c2) := tr_run [] r in (None :: xs, c2)
    | TrCall f cs o :: r => let '(x, c1) := cartesian_to_origin c f cs o in
                            let '(xs, c2) := tr_run c1 r in (Some x :: xs, c2)
    end.
End Origin.
Arguments tr_op : clear implicits.
Arguments obs_op : clear implicits.
