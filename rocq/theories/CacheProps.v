(* C16-C20, C27: the caches and origin translation. *)
From Coq Require Import String.
From Verif Require Import Base TimeModel TimeSpec CacheModel CacheSpec CacheProofs.
Open Scope Z_scope.
Open Scope list_scope.

(* ---------------------------------------------------------------- C16 ---- *)
Theorem C16_lru : forall (K V : Type) (keqb : K -> K -> bool),
  (forall a b, keqb a b = true <-> a = b) ->
  forall maxsize (ops : list (lru_op K V)),
  let '(outs, c) := lru_run keqb maxsize [] ops in
  List.length outs = List.length ops /\
  (forall i k, nth_error ops i = Some (Get k) ->
     nth_error outs i = Some (expected_get keqb (Z.to_nat maxsize) (firstn i (combine ops outs)) k)) /\
  rev (map fst c) = firstn (Z.to_nat maxsize) (recent keqb (combine ops outs)) /\
  NoDup (map fst c) /\ Z.of_nat (List.length c) <= Z.max 0 maxsize.
Proof. intros K V keqb keq m ops. exact (lru_trace keqb keq m ops). Qed.
Print Assumptions C16_lru.

Example C16_case :
  lru_run Z.eqb 2 [] [Put 1 10; Put 2 20; Get 1; Put 3 30; Get 2; Get 1; Put 1 11; Get 1]
  = ([None; None; Some 10; None; None; Some 10; None; Some 11], [(3, 30); (1, 11)]).
Proof. vm_compute. reflexivity. Qed.

(* ---------------------------------------------------------------- C17 ---- *)
(* every answer of every session without kernel changes, from an empty cache *)
Theorem C17_spice_cache : forall (St : Type) (neg : St -> St) (spk : list string -> Z -> Z -> string -> row -> St) maxsize pool ops,
  (forall p a b f r, spk p b a f r = neg (spk p a b f r)) ->
  Forall no_pool_change ops -> Forall op_ok ops ->
  fst (spice_run neg spk maxsize ([], pool) ops) = map (op_expected spk pool) ops.
Proof.
  intros St neg spk m pool ops anti NP OK.
  pose proof (spice_run_ok neg spk m anti pool ops [] (fun k s H => match H with end) NP OK) as H.
  unfold spk_cache, od in *. destruct (spice_run neg spk m ([], pool) ops). exact (proj1 H).
Qed.
Print Assumptions C17_spice_cache.

(* the int64 time key: two epochs of one request 2^64 ns apart share one state *)
Theorem C17_far_epochs_refuted : exists a b, normal a /\ normal b /\ a <> b /\
  forall (St : Type) (neg : St -> St) (spk : Z -> Z -> string -> row -> St) maxsize t o,
  fst (get_perturber_state neg spk maxsize [] t [a; b] "ecliptic" o)
  = Ok [spk t o "ECLIPJ2000"%string a; spk t o "ECLIPJ2000"%string a].
Proof.
  exists far_a, far_b. split; [vm_compute; intuition congruence|]. split; [vm_compute; intuition congruence|].
  split. discriminate. intros St neg spk m t o. exact (gps_collision neg spk m t o).
Qed.
Print Assumptions C17_far_epochs_refuted.

Definition toy_spk (p : list string) (t o : Z) (f : string) (r : row) : Z :=
  (t - o) * (days r + Z.of_nat (List.length p)).
Example C17_case :
  (forall p a b f r, toy_spk p b a f r = - toy_spk p a b f r) /\
  fst (spice_run Z.opp toy_spk 2 ([], ["de440"%string])
    [Query 10 [mkrow 59000 5; mkrow 59001 0; mkrow 59000 5] "ecliptic" 0;
     Query 0 [mkrow 59001 0] "ecliptic" 10; ClearCache; Query 10 [mkrow 59001 0] "galactic" 0])
  = [Some (Ok [590010; 590020; 590010]); Some (Ok [-590020]); None; Some (Err ValueError)].
Proof. split. intros. unfold toy_spk. ring. vm_compute. reflexivity. Qed.

(* ---------------------------------------------------------------- C18 ---- *)
Theorem C18_kernel_change_refuted : forall (St : Type) (neg : St -> St)
  (spk : list string -> Z -> Z -> string -> row -> St) maxsize pool k t r o,
  2 <= maxsize -> t <> o ->
  fst (spice_run neg spk maxsize ([], pool) [Query t [r] "ecliptic" o; Register k; Query t [r] "ecliptic" o])
  = [Some (Ok [spk pool t o "ECLIPJ2000"%string r]); None; Some (Ok [spk pool t o "ECLIPJ2000"%string r])].
Proof. intros St neg spk m pool k t r o. exact (gps_stale neg spk m pool k t r o). Qed.
Print Assumptions C18_kernel_change_refuted.

(* after clear_spkez_cache (and no later kernel change) the loaded kernels answer *)
Theorem C18_after_clear_partial : forall (St : Type) (neg : St -> St)
  (spk : list string -> Z -> Z -> string -> row -> St) maxsize pool before after,
  (forall p a b f r, spk p b a f r = neg (spk p a b f r)) ->
  Forall no_pool_change after -> Forall op_ok after ->
  skipn (Datatypes.S (List.length before)) (fst (spice_run neg spk maxsize ([], pool) (before ++ ClearCache :: after)))
  = map (op_expected spk (fold_left pool_step before pool)) after.
Proof. intros St neg spk m pool b a anti. exact (after_clear_ok neg spk m anti b a [] pool). Qed.
Print Assumptions C18_after_clear_partial.

Example C18_case :
  fst (spice_run Z.opp toy_spk 2 ([], ["de440"%string])
    [Query 10 [mkrow 59000 5] "ecliptic" 0; Register "mine"; Query 10 [mkrow 59000 5] "ecliptic" 0;
     ClearCache; Query 10 [mkrow 59000 5] "ecliptic" 0])
  = [Some (Ok [590010]); None; Some (Ok [590010]); None; Some (Ok [590020])].
Proof. vm_compute. reflexivity. Qed.

(* ---------------------------------------------------------------- C19 ---- *)
(* states, frame, origins, errors and the TDB epochs of every answer of every session *)
Theorem C19_observer_states_partial : forall (St : Type) digest tdb table
  (site : string -> string -> string -> row -> St) maxsize P ops,
  digest_separates digest P -> Forall (obs_in tdb P) ops ->
  Forall2 (obs_correct tdb table site) ops (fst (obs_run digest tdb table site maxsize [] ops)).
Proof.
  intros St digest tdb table site m P ops D. 
  exact (obs_run_ok digest tdb table site m P D ops [] (fun k r H => match H with end)).
Qed.
Print Assumptions C19_observer_states_partial.

(* but the time column (and its scale) is the one of the first caller *)
Theorem C19_time_scale_refuted : forall (St : Type) digest E table
  (site : string -> string -> string -> row -> St) maxsize code f og t t',
  1 <= maxsize -> known_frame f -> table code = Some true -> code <> "500"%string ->
  scale t <> "tdb"%string -> rescale E t "tdb" = Ok t' ->
  let tdb x := match rescale E x "tdb" with Ok y => rows y | Err _ => [] end in
  exists r, nth_error (fst (obs_run digest tdb table site maxsize [] [ObsQuery code t f og; ObsQuery code t' f og])) 1
            = Some (Some (Ok r)) /\ c_time r = t /\ scale (c_time r) <> scale t' /\
    nth_error (fst (obs_run digest tdb table site maxsize [] [ObsQuery code t' f og])) 0
            = Some (Some (Ok (mkcoords t' (c_states r) f (repeat og (List.length (rows t')))))).
Proof. intros St digest E table site m code f og t t'. exact (obs_time_scale digest E table site m code f og t t'). Qed.
Print Assumptions C19_time_scale_refuted.

Definition toy_tdb (t : timestamp) : list row :=
  match rescale (mkenv (fun _ => 37) (fun _ _ => 1500000) (fun _ _ r => r)) t "tdb" with Ok y => rows y | Err _ => [] end.
Definition toy_digest (l : list Z) : Z := fold_left (fun a k => a * 18446744073709551616 + (k + 9223372036854775808)) l 1.
Example C19_case :
  map (option_map (fun r => match r with Ok c => Some (c_time c, c_states c) | Err _ => None end))
    (fst (obs_run toy_digest toy_tdb (fun c => if String.eqb c "X05" then Some true else None)
       (fun _ _ _ r => days r) 4 []
       [ObsQuery "X05" (mkts "tt" [mkrow 59000 0; mkrow 59010 7]) "ecliptic" "SUN";
        ObsQuery "X05" (mkts "tdb" [mkrow 59000 1500000; mkrow 59010 1500007]) "ecliptic" "SUN";
        ObsQuery "X05" (mkts "tdb" [mkrow 59000 1500000; mkrow 59010 1500008]) "ecliptic" "SUN";
        ObsQuery "XXX" (mkts "tdb" [mkrow 59000 1500000]) "ecliptic" "SUN"]))
  = [Some (Some (mkts "tt" [mkrow 59000 0; mkrow 59010 7], [59000; 59010]));
     Some (Some (mkts "tt" [mkrow 59000 0; mkrow 59010 7], [59000; 59010]));
     Some (Some (mkts "tdb" [mkrow 59000 1500000; mkrow 59010 1500008], [59000; 59010]));
     Some None].
Proof. vm_compute. reflexivity. Qed.

(* ---------------------------------------------------------- C20, C27 ---- *)
Theorem C27_origin_rowwise : forall (St Cov : Type) digest is_origin_code is_observatory
  perturber observer (add : St -> St -> St) enabled maxsize P (ops : list (tr_op St Cov)),
  digest_separates digest P -> Forall (tr_in P) ops ->
  Forall2 (tr_correct is_origin_code is_observatory perturber observer add) ops
    (fst (tr_run digest is_origin_code is_observatory perturber observer add enabled maxsize [] ops)).
Proof.
  intros St Cov digest ic io pe ob ad en m P ops D.
  exact (tr_run_ok digest ic io pe ob ad en m P D ops [] (fun k r H => match H with end)).
Qed.
Print Assumptions C27_origin_rowwise.

(* rows already at the requested origin do not move *)
Theorem C27_same_origin : forall (St Cov : Type) digest is_origin_code is_observatory
  perturber observer (add : St -> St -> St) zero enabled maxsize P frame (cs : list (crow St Cov)) out l,
  digest_separates digest P -> tr_in P (TrCall frame cs out) ->
  is_origin_code out = true -> (forall t, perturber out out frame t = zero) -> (forall s, add s zero = s) ->
  fst (cartesian_to_origin digest is_origin_code is_observatory perturber observer add enabled maxsize [] frame cs out) = Ok l ->
  forall i r, nth_error cs i = Some r -> r_origin r = out -> nth_error l i = Some r.
Proof.
  intros St Cov digest ic io pe ob ad zero en m P frame cs out l D I Io Z A.
  pose proof (tr_call_ok digest ic io pe ob ad en m P D [] frame cs out (fun k r H => match H with end) I) as Q.
  destruct (cartesian_to_origin digest ic io pe ob ad en m [] frame cs out) as [x c]. destruct Q as [_ Q].
  cbn [fst]. intros -> i r H R. destruct Q as [_ ->].
  rewrite nth_error_map, H. cbn. unfold moved, shift. rewrite R, Io, Z, A. destruct r; cbn in *; subst; reflexivity.
Qed.
Print Assumptions C27_same_origin.

Theorem C20_translation_cache : forall (St Cov : Type) digest is_origin_code is_observatory
  perturber observer (add : St -> St -> St) enabled maxsize P (ops : list (tr_op St Cov)) i o,
  digest_separates digest P -> Forall (tr_in P) ops -> nth_error ops i = Some o ->
  nth_error (fst (tr_run digest is_origin_code is_observatory perturber observer add enabled maxsize [] ops)) i =
  nth_error (fst (tr_run digest is_origin_code is_observatory perturber observer add enabled maxsize [] [o])) 0.
Proof. intros St Cov digest ic io pe ob ad en m P ops i o. exact (tr_warm_cold digest ic io pe ob ad en m P ops i o). Qed.
Print Assumptions C20_translation_cache.

Example C27_case :
  map (option_map (fun r => match r with Ok l => Some (map (fun r => (r_origin r, r_state r, r_cov r)) l) | Err _ => None end))
    (fst (tr_run toy_digest (fun o => String.eqb o "SUN" || String.eqb o "SOLAR_SYSTEM_BARYCENTER" || String.eqb o "EARTH")
       (fun o => String.eqb o "X05")
       (fun o out _ r => if String.eqb o out then 0 else Z.of_nat (String.length o) * days r) (fun _ _ _ r => days r)
       Z.add true 2 []
       [TrCall "ecliptic" [mkcrow (mkrow 59000 0) "SUN"%string 1 7; mkcrow (mkrow 59001 0) "X05"%string 2 8;
                           mkcrow (mkrow 59002 0) "SUN"%string 3 9] "SOLAR_SYSTEM_BARYCENTER";
        TrCall "ecliptic" [mkcrow (mkrow 59000 0) "SUN"%string 100 0; mkcrow (mkrow 59002 0) "SUN"%string 200 0] "SOLAR_SYSTEM_BARYCENTER";
        TrClear;
        TrCall "ecliptic" [mkcrow (mkrow 59000 0) "SUN"%string 100 0; mkcrow (mkrow 59002 0) "ZZZ"%string 200 0] "EARTH"]))
  = [Some (Some [("SOLAR_SYSTEM_BARYCENTER"%string, 177001, 7); ("SOLAR_SYSTEM_BARYCENTER"%string, 59003, 8);
                 ("SOLAR_SYSTEM_BARYCENTER"%string, 177009, 9)]);
     Some (Some [("SOLAR_SYSTEM_BARYCENTER"%string, 177100, 0); ("SOLAR_SYSTEM_BARYCENTER"%string, 177206, 0)]);
     None; Some None].
Proof. vm_compute. reflexivity. Qed.
