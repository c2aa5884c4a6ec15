(* Claims C284-C290: SPICE set-up, body states and the Ray cluster. *)
From Coq Require Import String ZArith QArith List Bool Lia.
From Verif Require Import Base TimeModel CacheModel CacheSpec CacheProofs CacheProps SpiModel SpiSpec SpiProofs.
Import ListNotations.
Open Scope string_scope.
Open Scope list_scope.

(* ---------------------------------------------------------------- C284 ---- *)
(* in every execution, every process has each kernel loaded at most once, and exactly those it lists as registered *)
Theorem C284 : forall pid e l q p, run (start pid e) l q = Some p ->
  NoDup (pool p) /\ forall k, In k (pool p) <-> In k (list_registered_kernels p).
Proof. intros pid e l q p H. exact (reach_good pid e l q p H). Qed.
Print Assumptions C284.

(* registering loads the kernel or fails without effect, for a file that is not loaded and cannot be; unregistering takes exactly it away *)
Theorem C284_calls : forall pid e l q p k ok, run (start pid e) l q = Some p ->
  match register ok p k with
  | (p1, None) => (In k (pool p) \/ ok k = true) /\ (forall x, In x (pool p1) <-> In x (pool p) \/ x = k)
                  /\ (exists more, pool p1 = pool p ++ more)
  | (p1, Some _) => p1 = p /\ ~ In k (pool p) /\ ok k = false
  end
  /\ forall x, In x (pool (unregister p k)) <-> In x (pool p) /\ x <> k.
Proof.
  intros pid e l q p k ok H. apply reach_good in H. split; [|apply unregister_ok; exact H].
  pose proof (register_ok ok p k H) as R. destruct (register ok p k) as [p1 [x|]].
  - tauto.
  - destruct R as (R1 & R2 & R3 & m & R4 & R5). split; auto. split; [|eauto]. intros x. rewrite R4, in_app_iff. split.
    + intros [Hx|Hx]; auto. apply R5 in Hx. destruct Hx as [->|[]]. auto.
    + intros [Hx| ->]; auto. rewrite R4, in_app_iff in R1. exact R1.
Qed.
Print Assumptions C284_calls.

Definition yes (_ : string) : bool := true.
Example C284_case :
  let l := [Setup 7 None false yes; RegisterK 7 "mine.bsp" yes; RegisterK 7 "mine.bsp" yes; Fork 7 8; UnregisterK 8 "mine.bsp"; Setup 8 None false yes;
            Setup 7 None true yes] in
  option_map pool (run (start 7 []) l 7%Z) = Some (default_kernels ++ ["mine.bsp"])
  /\ option_map pool (run (start 7 []) l 8%Z) = Some default_kernels.
Proof. vm_compute. split; reflexivity. Qed.

(* ---------------------------------------------------------------- C285 ---- *)
(* the call succeeds and a default kernel is missing: after unregistering it; after a set-up with other kernels;
   in a process with the number of a process that set SPICE up earlier and whose environment it has inherited *)
Theorem C285_refuted :
  (exists l p p', ~ (exists i ks f ok, In (Setup i (Some ks) f ok) l) /\ run (start 7 []) l 7%Z = Some p
     /\ setup yes 7 None false p = (p', None) /\ exists k, is_default k /\ ~ In k (pool p'))
  /\ (exists l p p', ~ (exists i k, In (UnregisterK i k) l) /\ new_numbers [7%Z] l /\ run (start 7 []) l 7%Z = Some p
     /\ setup yes 7 None false p = (p', None) /\ exists k, is_default k /\ ~ In k (pool p'))
  /\ (exists l q p p', Forall keeps_defaults l /\ run (start 7 []) l q = Some p
     /\ setup yes q None false p = (p', None) /\ forall k, is_default k -> ~ In k (pool p')).
Proof.
  split; [|split].
  - exists [Setup 7 None false yes; UnregisterK 7 "de440"]. do 2 eexists. split.
    { intros (i & ks & f & ok & H). cbn in H. intuition discriminate. }
    split; [vm_compute; reflexivity|]. split; [vm_compute; reflexivity|]. exists "de440". split; [unfold is_default; auto|].
    vm_compute. intuition discriminate.
  - exists [Setup 7 (Some ["mine.bsp"]) false yes]. do 2 eexists. split.
    { intros (i & k & H). cbn in H. intuition discriminate. }
    split; [exact I|]. split; [vm_compute; reflexivity|]. split; [vm_compute; reflexivity|]. exists "de440". split; [unfold is_default; auto|].
    vm_compute. intuition discriminate.
  - exists [Setup 7 None false yes; Spawn 7 8; Exit 7; Spawn 8 7], 7%Z. do 2 eexists. split.
    { repeat (apply Forall_cons; [cbn; auto|]). apply Forall_nil. }
    split; [vm_compute; reflexivity|]. split; [vm_compute; reflexivity|]. intros k _ [].
Qed.
Print Assumptions C285_refuted.

(* no default kernel taken away, no set-up without them, new numbers for new processes: the call loads all default kernels,
   in the first process, in forked and in spawned ones *)
Theorem C285_partial : forall pid l q p ok p',
  Forall keeps_defaults l -> new_numbers [pid] l -> run (start pid []) l q = Some p ->
  setup ok q None false p = (p', None) -> forall k, is_default k -> In k (pool p').
Proof.
  intros pid l q p ok p' K Nn R S k Hk.
  destruct (run_marked l [pid] (start pid [])) as (u & M); auto.
  { intros i x. unfold start, upd. destruct (Z.eqb_spec i pid) as [->|]; [|discriminate]. intros [= <-]. split; [split; cbn; [constructor|tauto]|].
    cbn. split; auto. split; [intros y []|intros []]. }
  destruct (M q p R) as (G & _ & _ & D). apply default_is in Hk. unfold setup in S. cbn [negb] in S. rewrite andb_true_r in S.
  destruct (existsb (Z.eqb q) (env p)) eqn:X.
  - injection S as <-. apply D; auto. apply has_pid. exact X.
  - pose proof (register_all_ok ok default_kernels p G) as A. destruct (register_all ok p default_kernels) as [p1 [e|]]; [discriminate|].
    injection S as <-. cbn. apply A. exact Hk.
Qed.
Print Assumptions C285_partial.

Example C285_case :
  let l := [Setup 7 None false yes; Fork 7 8; Spawn 8 9; Exit 7; RegisterK 9 "mine.bsp" yes] in
  Forall keeps_defaults l /\ new_numbers [7%Z] l
  /\ exists p p', run (start 7 []) l 9%Z = Some p /\ setup yes 9 None false p = (p', None) /\ pool p' = "mine.bsp" :: default_kernels.
Proof.
  cbn zeta. split; [repeat (apply Forall_cons; [cbn; auto|]); apply Forall_nil|]. split; [cbn; intuition discriminate|]. do 2 eexists. vm_compute. repeat split; reflexivity.
Qed.

(* ---------------------------------------------------------------- C286 ---- *)
(* a process marked as set up: nothing happens without force.  Otherwise: all requested kernels are loaded and the process is marked, or
   a requested file that is not loaded could not be loaded and the process is not marked; kernels loaded before stay, in their order *)
Theorem C286 : forall pid e l q p ks force ok, run (start pid e) l q = Some p ->
  (In q (env p) -> force = false -> setup ok q ks force p = (p, None))
  /\ (~ In q (env p) \/ force = true ->
      match setup ok q ks force p with
      | (p1, None) => (forall k, requested ks k -> In k (pool p1) /\ (In k (pool p) \/ ok k = true)) /\ env p1 = q :: env p
      | (p1, Some _) => (exists k, requested ks k /\ ~ In k (pool p1) /\ ok k = false) /\ env p1 = env p
      end
      /\ NoDup (pool (fst (setup ok q ks force p)))
      /\ exists more, pool (fst (setup ok q ks force p)) = pool p ++ more /\ forall k, In k more -> requested ks k).
Proof.
  intros pid e l q p ks force ok R. apply reach_good in R. split.
  - intros H ->. unfold setup. apply has_pid in H. rewrite H. reflexivity.
  - intros H. pose proof (setup_good ok q ks force p R) as G. unfold setup in *.
    assert (X : existsb (Z.eqb q) (env p) && negb force = false).
    { destruct H as [H| ->]; [|apply andb_false_r]. destruct (existsb (Z.eqb q) (env p)) eqn:Y; auto. apply has_pid in Y. contradiction. }
    rewrite X in *. pose proof (register_all_ok ok (req ks) p R) as A. fold (req ks) in *.
    destruct (register_all ok p (req ks)) as [p1 [x|]]; cbn [fst pool env] in *.
    + destruct A as (_ & _ & A1 & (k & K1 & K2 & K3) & m & A2 & A3). split; [split; auto; exists k; rewrite <- req_is; auto|]. split; [apply G|].
      exists m. split; auto. intros y Hy. apply req_is. auto.
    + destruct A as (_ & A0 & A1 & A4 & m & A2 & A3). split; [split; [|congruence]; intros k Hk; apply req_is in Hk; auto|]. split; [apply G|].
      exists m. split; auto. intros y Hy. apply req_is. auto.
Qed.
Print Assumptions C286.

(* after a failure the same call succeeds once the files can be loaded, and loads nothing twice *)
Theorem C286_retry : forall pid e l q p ks force ok p1 x, run (start pid e) l q = Some p ->
  setup ok q ks force p = (p1, Some x) ->
  forall ok2, (forall k, requested ks k -> ok2 k = true) ->
  exists p2, setup ok2 q ks force p1 = (p2, None) /\ NoDup (pool p2) /\ (forall k, requested ks k -> In k (pool p2)) /\ In q (env p2).
Proof.
  intros pid e l q p ks force ok p1 x R S ok2 H2. apply reach_good in R.
  assert (G1 : good p1) by (pose proof (setup_good ok q ks force p R) as G; rewrite S in G; exact G).
  unfold setup in *. fold (req ks) in *. destruct (existsb (Z.eqb q) (env p) && negb force) eqn:X; [discriminate|].
  pose proof (register_all_ok ok (req ks) p R) as A. destruct (register_all ok p (req ks)) as [p0 [y|]]; [|discriminate]. injection S as <- <-.
  destruct A as (_ & _ & A1 & _). rewrite A1, X.
  pose proof (register_all_ok ok2 (req ks) p0 G1) as B. destruct (register_all ok2 p0 (req ks)) as [p2 [y'|]].
  - destruct B as (_ & _ & _ & (k & K1 & _ & K3) & _). apply req_is in K1. apply H2 in K1. congruence.
  - destruct B as ((B1 & _) & B2 & _). eexists. split; [reflexivity|]. cbn. split; auto. split; auto. intros k Hk. apply B2. apply req_is. exact Hk.
Qed.
Print Assumptions C286_retry.

Example C286_case :
  let no440 := fun k => negb (String.eqb k "de440") in
  let p := mk_proc [] [] [3%Z] in
  let p1 := fst (setup no440 7 None false p) in
  snd (setup no440 7 None false p) = Some RuntimeError /\ pool p1 = ["leapseconds"] /\ env p1 = [3%Z]
  /\ snd (setup yes 7 None false p1) = None /\ pool (fst (setup yes 7 None false p1)) = default_kernels.
Proof. vm_compute. repeat split; reflexivity. Qed.

(* ---------------------------------------------------------------- C287 ---- *)
Lemma to_au_same s : same_state s (to_au s).
Proof.
  unfold to_au. set (s1 := map _ s).
  assert (L : List.length (firstn 3 s1 ++ map (fun x => (x * s_p_day)%Q) (skipn 3 s1)) = List.length s).
  { rewrite app_length, map_length, firstn_length, skipn_length. subst s1. rewrite map_length. lia. }
  split; [exact L|]. split; intros i x y Hi Hx Hy.
  - assert (Li : (i < List.length s)%nat) by (apply nth_error_Some; congruence).
    rewrite nth_error_app1 in Hy by (rewrite firstn_length; subst s1; rewrite map_length; lia).
    assert (F : nth_error (firstn 3 s1) i = nth_error s1 i).
    { rewrite <- (firstn_skipn 3 s1) at 2. rewrite nth_error_app1; auto. rewrite firstn_length. subst s1. rewrite map_length. lia. }
    rewrite F in Hy. subst s1. rewrite nth_error_map, Hx in Hy. injection Hy as <-. unfold km_p_au. field.
  - assert (Li : (i < List.length s)%nat) by (apply nth_error_Some; congruence).
    rewrite nth_error_app2 in Hy by (rewrite firstn_length; lia). rewrite nth_error_map in Hy.
    assert (F : nth_error (skipn 3 s1) (i - List.length (firstn 3 s1)) = nth_error s1 i).
    { rewrite <- (firstn_skipn 3 s1) at 3. rewrite nth_error_app2; auto. rewrite firstn_length. lia. }
    rewrite F in Hy. subst s1. rewrite nth_error_map, Hx in Hy. injection Hy as <-. unfold km_p_au, s_p_day. field.
Qed.

(* one row per time, in order, each with the state SPICE gives at its own epoch in the requested frame and from the requested origin, converted
   from km and seconds to au and days *)
Theorem C287 : forall (T E : Type) (et : T -> E) E_eqb spkez, (forall a b : E, E_eqb a b = true <-> a = b) ->
  forall body times frame origin t, get_spice_body_state et E_eqb spkez body times frame origin = Ok t ->
  st_frame t = frame /\ st_origin t = repeat origin (List.length times)
  /\ Forall2 (fun time row => fst row = time /\ exists f km au, frame_named frame f /\ spkez body (et time) f origin = Some km
                /\ snd row = Some au /\ same_state km au) times (st_rows t).
Proof.
  intros T E et E_eqb spkez HE body times frame origin t H. pose proof (body_ok et E_eqb spkez HE body times frame origin) as B. rewrite H in B.
  destruct B as (f & F & R & Fr & Or & No). split; auto. split; auto. rewrite R. clear R Or H.
  assert (G : forall l, incl l times -> Forall2 (fun time row => fst row = time /\ exists f km au, frame_named frame f /\ spkez body (et time) f origin = Some km
                /\ snd row = Some au /\ same_state km au) l (map (fun x => (x, option_map to_au (spkez body (et x) f origin))) l)).
  { induction l as [|x l IH]; intros Hl; cbn; constructor.
    - split; auto. destruct (spkez body (et x) f origin) as [s|] eqn:S.
      + exists f, s, (to_au s). split; auto. split; auto. split; auto. apply to_au_same.
      + exfalso. apply (No x); auto. apply Hl. left. reflexivity.
    - apply IH. intros y Hy. apply Hl. right. exact Hy. }
  apply G. apply incl_refl.
Qed.
Print Assumptions C287.

(* it is refused, with ValueError, exactly for an unknown frame or an epoch for which SPICE has no state *)
Theorem C287_refused : forall (T E : Type) (et : T -> E) E_eqb spkez, (forall a b : E, E_eqb a b = true <-> a = b) ->
  forall body times frame origin e, get_spice_body_state et E_eqb spkez body times frame origin = Err e <->
  e = ValueError /\ ((forall f, ~ frame_named frame f) \/ exists f x, frame_named frame f /\ In x times /\ spkez body (et x) f origin = None).
Proof.
  intros T E et E_eqb spkez HE body times frame origin e. pose proof (body_ok et E_eqb spkez HE body times frame origin) as B.
  destruct (get_spice_body_state et E_eqb spkez body times frame origin) as [t|e'].
  - split; [discriminate|]. intros (_ & [N|(f' & x & F' & Hx & S)]); destruct B as (f & F & _ & _ & _ & No).
    + exfalso. exact (N f F).
    + exfalso. apply spice_frame_ok in F, F'. rewrite F in F'. injection F' as <-. exact (No x Hx S).
  - destruct B as [-> B]. split.
    + intros [= <-]. auto.
    + intros [-> _]. reflexivity.
Qed.
Print Assumptions C287_refused.

(* in any session of perturber queries, and for the bodies both functions know, the same states *)
Theorem C287_agrees : forall (E : Type) (et : row -> E) E_eqb spkez, (forall a b : E, E_eqb a b = true <-> a = b) ->
  forall neg (spk : list string -> Z -> Z -> string -> row -> list Q) maxsize kernels ops,
  (forall p a b f r, spk p b a f r = neg (spk p a b f r)) ->
  Forall no_pool_change ops -> Forall op_ok ops ->
  forall body times frame origin t, Forall epoch_ok times ->
  (forall f r km, In r times -> spkez body (et r) f origin = Some km -> spk kernels body origin f r = to_au km) ->
  get_spice_body_state et E_eqb spkez body times frame origin = Ok t ->
  exists states, List.last (fst (spice_run neg spk maxsize ([], kernels) (ops ++ [Query body times frame origin]))) None = Some (Ok states)
    /\ map snd (st_rows t) = map Some states.
Proof.
  intros E et E_eqb spkez HE neg spk m kernels ops anti NP OK body times frame origin t Et Sp H.
  rewrite (C17_spice_cache (list Q) neg spk m kernels); auto.
  2:{ apply Forall_app. split; auto. repeat constructor. }
  2:{ apply Forall_app. split; auto. }
  rewrite map_app. cbn [map]. rewrite last_last. cbn [op_expected].
  pose proof (body_ok et E_eqb spkez HE body times frame origin) as B. rewrite H in B. destruct B as (f & F & R & _ & _ & No).
  exists (map (spk kernels body origin f) times). split.
  - unfold expected_states. destruct F as [[-> ->]|[[-> ->]|[-> ->]]]; reflexivity.
  - rewrite R, !map_map. apply map_ext_in. intros r Hr. cbn. destruct (spkez body (et r) f origin) as [km|] eqn:S; [|exfalso; exact (No r Hr S)].
    cbn. rewrite (Sp f r km Hr S). reflexivity.
Qed.
Print Assumptions C287_agrees.

Definition toy_ez (b : Z) (e : Z) (f : string) (o : Z) : option (list Q) :=
  if (e <? 0)%Z then None else Some (map inject_Z [b; o; e; b; o; e]).
Example C287_case : exists t, get_spice_body_state (fun r => (days r - 51544)%Z) Z.eqb toy_ez 399 [mkrow 51545 0; mkrow 51546 0; mkrow 51545 7] "itrf93" 10 = Ok t
  /\ map (fun r => days (fst r)) (st_rows t) = [51545; 51546; 51545]%Z /\ st_frame t = "itrf93"
  /\ get_spice_body_state (fun r => (days r - 51544)%Z) Z.eqb toy_ez 399 [mkrow 51545 0; mkrow 51540 0] "itrf93" 10 = Err ValueError.
Proof. eexists. vm_compute. repeat split; reflexivity. Qed.

Definition anti_km (a b d : Z) : list Q := repeat (inject_Z ((a - b) * d)) 6.
Definition anti_spk (_ : list string) (a b : Z) (_ : string) (r : row) : list Q := to_au (anti_km a b (days r)).
Definition anti_ez (a : Z) (e : Z) (_ : string) (b : Z) : option (list Q) := Some (anti_km a b e).
Example C287_agrees_case :
  let times := [mkrow 59000 5; mkrow 59001 0; mkrow 59000 5] in
  (forall p a b f r, anti_spk p b a f r = map Qopp (anti_spk p a b f r))
  /\ Forall epoch_ok times
  /\ (forall f r km, In r times -> anti_ez 399 (days r) f 10 = Some km -> anti_spk ["de440"] 399 10 f r = to_au km)
  /\ exists t, get_spice_body_state days Z.eqb anti_ez 399 times "ecliptic" 10 = Ok t.
Proof.
  cbn zeta. split; [|split; [|split]].
  - intros p a b f r. unfold anti_spk, anti_km, to_au. cbn [repeat map firstn skipn app]. replace ((b - a) * days r)%Z with (- ((a - b) * days r))%Z by ring.
    generalize ((a - b) * days r)%Z. intros z. unfold km_p_au, s_p_day, inject_Z, Qdiv, Qmult, Qopp, Qinv. cbn [Qnum Qden]. rewrite ?Z.mul_opp_l. reflexivity.
  - repeat constructor; vm_compute; intuition congruence.
  - intros f r km _ [= <-]. reflexivity.
  - eexists. vm_compute. reflexivity.
Qed.

(* ---------------------------------------------------------------- C288 ---- *)
Theorem C288_refuted : exists frame f, frame_named frame f /\ perturber_frame 0 frame = Ok "unspecified" /\ frame <> "unspecified".
Proof. exists "ecliptic", "ECLIPJ2000". split; [left; auto|]. split; [reflexivity|discriminate]. Qed.
Print Assumptions C288_refuted.

(* at least one time: the requested frame; unknown frames are refused, also without times *)
Theorem C288_partial : forall n frame,
  ((exists f, frame_named frame f) -> (0 < n)%nat -> perturber_frame n frame = Ok frame)
  /\ ((forall f, ~ frame_named frame f) -> perturber_frame n frame = Err ValueError).
Proof.
  intros n frame. unfold perturber_frame. split.
  - intros (f & F) Hn. apply spice_frame_ok in F. rewrite F. cbn. destruct n; [lia|reflexivity].
  - intros N. destruct (spice_frame frame) as [f|e] eqn:F.
    + exfalso. apply (N f). apply spice_frame_ok. exact F.
    + apply spice_frame_err in F. subst. reflexivity.
Qed.
Print Assumptions C288_partial.
Example C288_case : perturber_frame 3 "equatorial" = Ok "equatorial" /\ perturber_frame 0 "galactic" = Err ValueError.
Proof. split; reflexivity. Qed.

(* ---------------------------------------------------------------- C289 ---- *)
(* true exactly if more than one processor may be used, and then Ray is initialised; an initialised Ray is used as it is, otherwise an existing
   cluster is tried first and a new one started only if there is none; the keyword arguments of the caller reach ray.init, and the
   dashboard is off unless the caller said otherwise *)
Theorem C289 : forall initialized ray_init cpus store kw res up calls,
  initialize_use_ray initialized ray_init cpus store kw = (res, up, calls) ->
  (forall b, res = Ok b -> (b = true <-> forall n, cpus = Some n -> (1 < n)%Z) /\ (b = true -> up = true) /\ (b = false -> up = initialized))
  /\ (initialized = true -> calls = [] /\ up = true /\ exists b, res = Ok b)
  /\ (calls = [] \/ (exists kw1, calls = [Auto kw1])
      \/ exists kw1, calls = [Auto kw1; Fresh cpus store kw1] /\ ray_init (Auto kw1) = NoConnection)
  /\ (initialized = false -> res = Ok true -> exists c, List.last calls (Auto []) = c /\ calls <> [] /\ ray_init c = Up)
  /\ (forall c, In c calls -> (forall x, In x kw -> In x (init_kw c))
        /\ (forall v, In ("include_dashboard", v) (init_kw c) <-> In ("include_dashboard", v) kw \/ (v = RBool false /\ forall v', ~ In ("include_dashboard", v') kw))).
Proof.
  intros init ri cpus store kw res up calls H. unfold initialize_use_ray in H.
  assert (D : forall x, In x kw -> In x (with_dashboard kw)).
  { intros x Hx. unfold with_dashboard. destruct (kw_has _ kw); auto. apply in_app_iff. auto. }
  assert (D2 : forall v, In ("include_dashboard", v) (with_dashboard kw) <-> In ("include_dashboard", v) kw \/ (v = RBool false /\ forall v', ~ In ("include_dashboard", v') kw)).
  { intros v. unfold with_dashboard. destruct (kw_has "include_dashboard" kw) eqn:K.
    - split; auto. intros [Hv|[_ N]]; auto. unfold kw_has in K. apply existsb_exists in K. destruct K as ([k x] & K1 & K2). cbn [fst] in K2.
      apply String.eqb_eq in K2. subst k. exfalso. exact (N x K1).
    - assert (N : forall v', ~ In ("include_dashboard", v') kw).
      { intros v' Hv. assert (X : kw_has "include_dashboard" kw = true); [|congruence]. apply existsb_exists. eexists. split; [exact Hv|]. reflexivity. }
      rewrite in_app_iff. cbn. split.
      + intros [Hv|[Hv|[]]]; auto. injection Hv as <-. auto.
      + intros [Hv|[-> _]]; auto. }
  set (kw1 := with_dashboard kw) in *.
  assert (C : match cpus with None => true | Some n => (1 <? n)%Z end = true <-> forall n, cpus = Some n -> (1 < n)%Z).
  { destruct cpus as [n|]. rewrite Z.ltb_lt. split. intros X m [= <-]. exact X. auto. split; auto. discriminate. }
  destruct (match cpus with None => true | Some n => (1 <? n)%Z end) eqn:B.
  2:{ injection H as <- <- <-. split; [intros b [= <-]; split; [rewrite <- C; split; auto|split; [discriminate|auto]]|].
      split; [intros ->; eauto|]. split; auto. split; [discriminate|]. intros c []. }
  assert (Tt : forall n, cpus = Some n -> (1 < n)%Z) by (apply C; reflexivity).
  destruct init.
  { injection H as <- <- <-. split; [intros b [= <-]; split; [tauto|split; [auto|discriminate]]|]. split; [eauto|]. split; auto. split; [discriminate|]. intros c []. }
  destruct (kw_has "address" kw1).
  { injection H as <- <- <-. split; [discriminate|]. split; [discriminate|]. split; auto. split; [discriminate|]. intros c []. }
  assert (Kc : forall c, init_kw c = kw1 -> (forall x, In x kw -> In x (init_kw c))
        /\ (forall v, In ("include_dashboard", v) (init_kw c) <-> In ("include_dashboard", v) kw \/ (v = RBool false /\ forall v', ~ In ("include_dashboard", v') kw))).
  { intros c ->. split; auto. }
  destruct (ri (Auto kw1)) eqn:R1.
  - injection H as <- <- <-. split; [intros b [= <-]; split; [tauto|split; [auto|discriminate]]|]. split; [discriminate|]. split; [eauto|].
    split; [intros _ _; exists (Auto kw1); cbn; split; auto; split; auto; discriminate|]. intros c [<-|[]]. apply Kc. reflexivity.
  - destruct (kw_has "object_store_memory" kw1).
    { injection H as <- <- <-. split; [discriminate|]. split; [discriminate|]. split; [eauto|]. split; [discriminate|]. intros c [<-|[]]. apply Kc. reflexivity. }
    assert (K2 : forall c, In c [Auto kw1; Fresh cpus store kw1] -> (forall x, In x kw -> In x (init_kw c))
        /\ (forall v, In ("include_dashboard", v) (init_kw c) <-> In ("include_dashboard", v) kw \/ (v = RBool false /\ forall v', ~ In ("include_dashboard", v') kw))).
    { intros c [<-|[<-|[]]]; apply Kc; reflexivity. }
    destruct (ri (Fresh cpus store kw1)) eqn:R2; injection H as <- <- <-.
    + split; [intros b [= <-]; split; [tauto|split; [auto|discriminate]]|]. split; [discriminate|]. split; [eauto|].
      split; [intros _ _; exists (Fresh cpus store kw1); cbn; split; auto; split; auto; discriminate|]. exact K2.
    + split; [discriminate|]. split; [discriminate|]. split; [eauto|]. split; [discriminate|]. exact K2.
    + split; [discriminate|]. split; [discriminate|]. split; [eauto|]. split; [discriminate|]. exact K2.
  - injection H as <- <- <-. split; [discriminate|]. split; [discriminate|]. split; [eauto|]. split; [discriminate|]. intros c [<-|[]]. apply Kc. reflexivity.
Qed.
Print Assumptions C289.

Definition no_cluster (c : rinit) : rres := match c with Auto _ => NoConnection | Fresh _ _ _ => Up end.
Example C289_case :
  initialize_use_ray false no_cluster (Some 4%Z) None [("log_to_driver", RBool false)]
  = (Ok true, true, [Auto [("log_to_driver", RBool false); ("include_dashboard", RBool false)];
                     Fresh (Some 4%Z) None [("log_to_driver", RBool false); ("include_dashboard", RBool false)]])
  /\ initialize_use_ray false no_cluster (Some 1%Z) None [] = (Ok false, false, []).
Proof. split; reflexivity. Qed.

(* ---------------------------------------------------------------- C290 ---- *)
(* the number of processors and the memory asked for do not reach an existing cluster *)
Theorem C290_refuted : exists cpus store kw,
  (exists ray_init calls, initialize_use_ray false ray_init cpus store kw = (Ok true, true, calls) /\ cpus <> None
     /\ forall c, In c calls -> exists kw1, c = Auto kw1)
  /\ forall ray_init, initialize_use_ray true ray_init cpus store kw = (Ok true, true, []).
Proof.
  exists (Some 4%Z), None, []. split; [|reflexivity]. exists (fun _ => Up). eexists. split; [reflexivity|]. split; [discriminate|].
  intros c [<-|[]]. eauto.
Qed.
Print Assumptions C290_refuted.

(* without a cluster a new one is started with exactly the number of processors and the memory asked for *)
Theorem C290_partial : forall ray_init cpus store kw,
  (forall n, cpus = Some n -> (1 < n)%Z) -> (forall v, ~ In ("address", v) kw) -> (forall v, ~ In ("object_store_memory", v) kw) ->
  (forall kw1, ray_init (Auto kw1) = NoConnection) -> (forall kw1, ray_init (Fresh cpus store kw1) = Up) ->
  exists calls kw1, initialize_use_ray false ray_init cpus store kw = (Ok true, true, calls) /\ List.last calls (Auto []) = Fresh cpus store kw1.
Proof.
  intros ri cpus store kw Hc Ha Hm HA HF. unfold initialize_use_ray.
  replace (match cpus with None => true | Some n => (1 <? n)%Z end) with true.
  2:{ destruct cpus as [n|]; auto. symmetry. apply Z.ltb_lt. auto. }
  assert (K : forall k, k <> "include_dashboard" -> (forall v, ~ In (k, v) kw) -> kw_has k (with_dashboard kw) = false).
  { intros k Nk Nv. destruct (kw_has k (with_dashboard kw)) eqn:X; auto. exfalso. unfold kw_has in X. apply existsb_exists in X.
    destruct X as ([x v] & X1 & X2). cbn [fst] in X2. apply String.eqb_eq in X2. subst x. unfold with_dashboard in X1.
    destruct (kw_has "include_dashboard" kw); [exact (Nv v X1)|]. apply in_app_iff in X1. destruct X1 as [X1|[X1|[]]]; [exact (Nv v X1)|]. congruence. }
  rewrite (K "address"), HA, (K "object_store_memory"), HF by (auto; discriminate). eexists. exists (with_dashboard kw). split; reflexivity.
Qed.
Print Assumptions C290_partial.
Example C290_case : exists calls, initialize_use_ray false no_cluster None (Some 1000000%Z) [] = (Ok true, true, calls)
  /\ List.last calls (Auto []) = Fresh None (Some 1000000%Z) [("include_dashboard", RBool false)].
Proof. eexists. split; reflexivity. Qed.
