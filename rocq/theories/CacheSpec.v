(* Specification vocabulary for the caches. *)
From Verif Require Import Base TimeModel TimeSpec CacheModel.
From Coq Require Import String.
Open Scope Z_scope.
Open Scope list_scope.

(* ---- what an LRU cache should do, read off the observable trace only ---- *)
Section LruSpec.
  Context {K V : Type} (keqb : K -> K -> bool).
  Notation event := (lru_op K V * option V)%type.
  (* keys used so far, most recent first: a put uses its key, a get uses it when it hits *)
  Definition used (e : event) : option K :=
    match e with
    | (Put k _, _) => Some k
    | (Get k, Some _) => Some k
    | (Get _, None) => None
    end.
  Definition recent_step (l : list K) (e : event) : list K :=
    match used e with Some k => k :: filter (fun x => negb (keqb k x)) l | None => l end.
  Definition recent (tr : list event) : list K := fold_left recent_step tr [].
  (* the value most recently put under a key *)
  Definition put_step (k : K) (acc : option V) (e : event) : option V :=
    match e with (Put k' v, _) => if keqb k k' then Some v else acc | _ => acc end.
  Definition last_put (tr : list event) (k : K) : option V := fold_left (put_step k) tr None.
  (* a get hits exactly when its key is among the [n] most recently used ones *)
  Definition expected_get (n : nat) (tr : list event) (k : K) : option V :=
    if existsb (keqb k) (firstn n (recent tr)) then last_put tr k else None.
End LruSpec.

(* rows for which an int64 nanosecond count exists: MJD years 1566..2151 *)
Definition epoch_ok (r : row) : Prop := normal r /\ in_int64 (instant r).

(* the states a perturber query should return, row by row *)
Definition expected_states {St} (spk : Z -> Z -> string -> row -> St)
  (target : Z) (rs : list row) (frame : string) (origin : Z) : result (list St) :=
  if String.eqb frame "ecliptic" then Ok (map (spk target origin "ECLIPJ2000"%string) rs)
  else if String.eqb frame "equatorial" then Ok (map (spk target origin "J2000"%string) rs)
  else if String.eqb frame "itrf93" then Ok (map (spk target origin "ITRF93"%string) rs)
  else Err ValueError.

Definition known_frame (f : string) : Prop := f = "ecliptic"%string \/ f = "equatorial"%string \/ f = "itrf93"%string.

(* the digest separates the epoch lists of [P] *)
Definition digest_separates (digest : list Z -> Z) (P : list row -> Prop) : Prop :=
  forall a b, P a -> P b -> digest (map key_row a) = digest (map key_row b) -> map key_row a = map key_row b.

(* ---- observer states: what each answer of a session must satisfy ---- *)
Section ObsSpec.
  Context {St : Type} (tdb : timestamp -> list row) (table : string -> option bool)
    (site : string -> string -> string -> row -> St).
  Definition obs_correct (o : obs_op) (out : option (result (coords St))) : Prop :=
    match o, out with
    | ObsClear, None => True
    | ObsQuery code t f og, Some (Err e) => e = ValueError /\ (~ known_frame f \/ table code <> Some true)
    | ObsQuery code t f og, Some (Ok r) =>
        known_frame f /\ table code = Some true /\
        c_states r = map (site code f og) (tdb t) /\ c_frame r = f /\
        c_origin r = repeat og (List.length (rows t)) /\ tdb (c_time r) = tdb t
    | _, _ => False
    end.
  (* the queries considered: epochs with an int64 nanosecond count, digests not colliding *)
  Definition obs_in (P : list row -> Prop) (o : obs_op) : Prop :=
    match o with
    | ObsQuery _ t _ _ => Forall epoch_ok (tdb t) /\ List.length (tdb t) = List.length (rows t) /\ P (tdb t)
    | ObsClear => True
    end.
End ObsSpec.

(* ---- translation to another origin, row by row ---- *)
Section OriginSpec.
  Context {St Cov : Type} (is_origin_code is_observatory : string -> bool)
    (perturber observer : string -> string -> string -> row -> St) (add : St -> St -> St).
  Definition supported (o : string) : Prop := is_origin_code o = true \/ is_observatory o = true.
  (* the state of the row's own origin as seen from the new one, at the row's own epoch *)
  Definition shift (frame out : string) (r : crow St Cov) : St :=
    if is_origin_code (r_origin r) then perturber (r_origin r) out frame (r_time r)
    else observer (r_origin r) out frame (r_time r).
  Definition moved (frame out : string) (r : crow St Cov) : crow St Cov :=
    mkcrow (r_time r) out (add (r_state r) (shift frame out r)) (r_cov r).
  Definition tr_correct (o : tr_op St Cov) (x : option (result (list (crow St Cov)))) : Prop :=
    match o, x with
    | TrClear, None => True
    | TrCall frame cs out, Some (Ok l) => Forall (fun r => supported (r_origin r)) cs /\ l = map (moved frame out) cs
    | TrCall frame cs out, Some (Err e) => e = ValueError /\ exists r, In r cs /\ ~ supported (r_origin r)
    | _, _ => False
    end.
  Definition tr_in (P : list row -> Prop) (o : tr_op St Cov) : Prop :=
    match o with
    | TrClear => True
    | TrCall frame cs out => Forall (fun r => epoch_ok (r_time r)) cs /\
        forall b, P (map r_time (filter (fun r => String.eqb (r_origin r) b) cs))
    end.
End OriginSpec.

(* ---- SPICE sessions ---- *)
Definition no_pool_change (o : spice_op) : Prop :=
  match o with Register _ | Unregister _ => False | _ => True end.
Definition op_ok (o : spice_op) : Prop :=
  match o with Query _ rs _ _ => Forall epoch_ok rs | _ => True end.
(* the answer expected of an operation while [pool] is loaded *)
Definition op_expected {St} (spk : list string -> Z -> Z -> string -> row -> St) (pool : list string) (o : spice_op)
  : option (result (list St)) :=
  match o with Query t rs f og => Some (expected_states (spk pool) t rs f og) | _ => None end.
(* the loaded kernels after an operation *)
Definition pool_step (p : list string) (o : spice_op) : list string :=
  match o with
  | Register k => if existsb (String.eqb k) p then p else p ++ [k]
  | Unregister k => filter (fun x => negb (String.eqb k x)) p
  | _ => p
  end.
