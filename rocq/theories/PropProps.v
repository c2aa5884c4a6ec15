(* Theorems about the Propagator drivers. *)
From Coq Require Import String Lia ZArith Permutation Bool.
From Verif Require Import Base StrOrder SchedModel SchedSpec SchedProofs PropModel PropSpec PropProofs.
Open Scope Z_scope.
Open Scope list_scope.

(* ------------------------------------------------------------------ C22 ---- *)
Theorem C22_propagate_orbits : forall (I R IV V : Type) (iid ivid iorigin : I -> string)
    (oid vid : R -> string) (rtime : R -> Z * Z) backend vbackend (vkey : V -> key) collapse rescale to_origin is_code
    (g : I -> Z * Z -> R) (gv : IV -> Z * Z -> V) (void vvid : IV -> string),
  per_orbit backend g -> per_orbit vbackend gv ->
  (forall o t, oid (g o t) = iid o /\ vid (g o t) = ivid o) ->
  (forall vs r, oid (collapse vs r) = oid r /\ vid (collapse vs r) = vid r) ->
  (forall r, oid (rescale r) = oid r /\ vid (rescale r) = vid r) ->
  (forall o r, oid (to_origin o r) = oid r /\ vid (to_origin o r) = vid r /\ rtime (to_origin o r) = rtime r) ->
  (forall o t, rtime (rescale (g o t)) = t) ->
  (forall vs o t, rtime (rescale (collapse vs (g o t))) = t) ->
  (forall v t, vkey (gv v t) = (void v, vvid v, t)) ->
  forall pick mp cs variants orbits times,
  1 <= cs -> orbits <> [] -> variants <> Some [] ->
  NoDup (map (fun o => (iid o, ivid o)) orbits) ->
  (forall vs, variants = Some vs -> NoDup (map (fun v => (void v, vvid v)) vs)) ->
  one_origin iid iorigin orbits -> Forall (fun o => is_code (iorigin o) = true) orbits ->
  propagate_orbits iid iorigin oid vid rtime backend vbackend vkey collapse rescale to_origin is_code pick mp cs variants orbits times
  = Ok (expected_propagated iorigin oid vid rtime g gv vkey collapse rescale to_origin variants orbits times).
Proof. intros. eapply propagate_ok; eauto. Qed.

Theorem C22_ephemeris : forall (I R B E : Type) (iid ivid iorigin : I -> string)
    (oid vid : R -> string) (rtime : R -> Z * Z) backend rescale to_origin is_code (g : I -> Z * Z -> R)
    (btime : B -> Z * Z) (bcode : B -> string) (observe : R -> B -> E) ekey to_utc utc,
  per_orbit backend g ->
  (forall o t, oid (g o t) = iid o /\ vid (g o t) = ivid o) ->
  (forall r, oid (rescale r) = oid r /\ vid (rescale r) = vid r) ->
  (forall o r, oid (to_origin o r) = oid r /\ vid (to_origin o r) = vid r /\ rtime (to_origin o r) = rtime r) ->
  (forall o t, rtime (rescale (g o t)) = t) ->
  (forall o b, ekey (observe (final_row iorigin rescale to_origin g o (btime b)) b) = (iid o, ivid o, utc (btime b), bcode b)) ->
  forall pick mp cs orbits observers,
  1 <= cs -> orbits <> [] -> NoDup (map (fun o => (iid o, ivid o)) orbits) ->
  one_origin iid iorigin orbits -> Forall (fun o => is_code (iorigin o) = true) orbits ->
  (forall a b, In a observers -> In b observers -> tltb (btime a) (btime b) = true -> tltb (utc (btime a)) (utc (btime b)) = true) ->
  (forall a b, In a observers -> In b observers -> btime a = btime b -> bcode a = bcode b -> a = b) ->
  generate_ephemeris btime bcode (serial_propagate iid iorigin oid vid rtime backend rescale to_origin is_code)
    observe ekey to_utc pick mp cs orbits observers =
  Ok (flat_map (fun o => map (fun b => to_utc (observe (final_row iorigin rescale to_origin g o (btime b)) b))
                             (sort (obs_leb btime bcode) observers)) (sort (idleb iid ivid) orbits)).
Proof. intros. eapply ephemeris_any_schedule; eauto. Qed.

Definition toy_propagate (pick : nat -> nat) (mp cs : Z) :=
  propagate_orbits toy_id toy_origin toy_rid (fun _ => ""%string) toy_rtime toy_backend
    (fun (vs : list unit) ts => Ok (flat_map (fun _ => ts) vs)) (fun t => (""%string, ""%string, t)) (fun _ r => r)
    (fun r => r) toy_to toy_code pick mp cs None.
Lemma toy_per_orbit : per_orbit toy_backend toy_g.
Proof.
  intros os ts. exists (flat_map (fun t => map (fun o => toy_g o t) os) ts). split. reflexivity.
  induction os as [|o os IH]; cbn.
  - clear. induction ts; cbn; auto.
  - rewrite <- IH. clear. induction ts as [|t ts IH]; cbn; auto. constructor. rewrite IH.
    rewrite !app_assoc. apply Permutation_app_tail. apply Permutation_app_comm.
Qed.
(* two orbits about different origins, three epochs, chunks of one orbit finishing in reverse *)
Example C22_propagate_case :
  let os := [("b", "EARTH", 7); ("a", "SUN", 5)]%string in let ts := [(3, 0); (1, 5); (1, 2)] in
  toy_propagate (fun _ => 1%nat) 2 1 os ts = toy_propagate (fun _ => 0%nat) 1 100 os ts /\
  toy_propagate (fun _ => 1%nat) 2 1 os ts =
    Ok [("a", (1, 2), "SUN", 1006); ("a", (1, 5), "SUN", 1006); ("a", (3, 0), "SUN", 1008);
        ("b", (1, 2), "EARTH", 1008); ("b", (1, 5), "EARTH", 1008); ("b", (3, 0), "EARTH", 1010)]%string /\
  per_orbit toy_backend toy_g /\ NoDup (map toy_id os) /\ one_origin toy_id toy_origin os /\
  Forall (fun o => toy_code (toy_origin o) = true) os.
Proof.
  cbv zeta. split. reflexivity. split. reflexivity. split. apply toy_per_orbit. split.
  { repeat constructor; cbn; intuition discriminate. }
  split. { intros i j Hi Hj. cbn in Hi, Hj. destruct Hi as [<-|[<-|[]]], Hj as [<-|[<-|[]]]; cbn; congruence. }
  repeat constructor.
Qed.

(* the same orbit id on two rows: the returned order depends on which task finished first *)
Theorem C91_schedule_order_refuted : exists os ts p1 p2,
  toy_propagate p1 2 1 os ts <> toy_propagate p2 2 1 os ts.
Proof.
  exists [("a", "SUN", 5); ("a", "SUN", 7)]%string, [(0, 0)], (fun _ => 0%nat), (fun _ => 1%nat). vm_compute. discriminate.
Qed.
(* no orbits: neither an empty table nor one kind of error *)
Theorem C91_empty_input_refuted : forall (I R : Type) (iid iorigin : I -> string) (oid vid : R -> string) (rtime : R -> Z * Z)
    backend rescale to_origin is_code pick cs ts r,
  1 <= cs -> backend [] (sort tleb ts) = Ok r ->
  propagate_orbits iid iorigin oid vid rtime backend (fun (vs : list unit) ts => Ok (flat_map (fun _ => ts) vs))
    (fun t => (""%string, ""%string, t)) (fun _ x => x) rescale to_origin is_code pick 1 cs None [] ts = Err AttributeError /\
  propagate_orbits iid iorigin oid vid rtime backend (fun (vs : list unit) ts => Ok (flat_map (fun _ => ts) vs))
    (fun t => (""%string, ""%string, t)) (fun _ x => x) rescale to_origin is_code pick 2 cs None [] ts = Err ValueError.
Proof. exact empty_orbits. Qed.
Example C91_empty_case : toy_backend [] [(1, 2)] = Ok [] /\
  toy_propagate (fun _ => 0%nat) 1 3 [] [(1, 2)] = Err AttributeError /\ toy_propagate (fun _ => 0%nat) 2 3 [] [(1, 2)] = Err ValueError.
Proof. repeat split. Qed.

(* ------------------------------------------------------------------ C30 ---- *)
Theorem C30_input_origin_partial : forall (I R : Type) (iid iorigin : I -> string) (oid : R -> string) to_origin is_code inputs results,
  inputs <> [] -> one_origin iid iorigin inputs -> Forall (fun i => is_code (iorigin i) = true) inputs ->
  (forall r, In r results -> In (oid r) (map iid inputs)) ->
  exists l, ensure_origin iid iorigin oid to_origin is_code inputs results = Ok (Some l) /\
    (forall h : R -> R, (forall r i, In i inputs -> iid i = oid r -> h r = to_origin (iorigin i) r) -> Permutation l (map h results)).
Proof. exact ensure_one_row. Qed.
Example C30_case :
  ensure_origin toy_id toy_origin toy_rid toy_to toy_code [("a", "SUN", 1); ("b", "EARTH", 2)]%string
    [("b", (0, 0), "SUN", 4); ("a", (0, 0), "SUN", 3)]%string = Ok (Some [("a", (0, 0), "SUN", 3); ("b", (0, 0), "EARTH", 1004)])%string.
Proof. reflexivity. Qed.
(* an id under two origins: one result row becomes two *)
Theorem C30_duplicated_rows_refuted : exists inputs results l,
  ensure_origin toy_id toy_origin toy_rid toy_to toy_code inputs results = Ok (Some l) /\ length results = 1%nat /\ length l = 2%nat.
Proof.
  exists [("a", "SUN", 1); ("a", "EARTH", 2)]%string, [("a", (0, 0), "SUN", 3)]%string. eexists. split. reflexivity. split; reflexivity.
Qed.
(* a result row whose id is not in the inputs disappears *)
Theorem C30_dropped_rows_refuted : exists inputs results l,
  ensure_origin toy_id toy_origin toy_rid toy_to toy_code inputs results = Ok (Some l) /\ length results = 2%nat /\ length l = 1%nat.
Proof.
  exists [("a", "SUN", 1)]%string, [("a", (0, 0), "SUN", 3); ("x", (0, 0), "SUN", 4)]%string. eexists. split. reflexivity. split; reflexivity.
Qed.
(* no input rows: no table; an origin outside the enumeration (an asteroid, an observatory): KeyError *)
Theorem C30_no_table : forall (I R : Type) (iid iorigin : I -> string) (oid : R -> string) to_origin is_code,
  (forall results, ensure_origin iid iorigin oid to_origin is_code [] results = Ok None) /\
  (forall inputs results, (exists i, In i inputs /\ is_code (iorigin i) = false) ->
     ensure_origin iid iorigin oid to_origin is_code inputs results = Err KeyError).
Proof. exact ensure_no_table. Qed.
Example C30_no_table_case : ensure_origin toy_id toy_origin toy_rid toy_to toy_code [("a", "SUN", 1); ("b", "X05", 1)]%string [] = Err KeyError.
Proof. reflexivity. Qed.

(* ------------------------------------------------------------------ C90 ---- *)
Theorem C90_observer_pairing : forall (I R B : Type) (iid ivid iorigin : I -> string)
    (oid vid : R -> string) (rtime : R -> Z * Z) backend rescale to_origin is_code (g : I -> Z * Z -> R)
    (btime : B -> Z * Z) (bcode : B -> string),
  per_orbit backend g ->
  (forall o t, oid (g o t) = iid o /\ vid (g o t) = ivid o) ->
  (forall r, oid (rescale r) = oid r /\ vid (rescale r) = vid r) ->
  (forall o r, oid (to_origin o r) = oid r /\ vid (to_origin o r) = vid r /\ rtime (to_origin o r) = rtime r) ->
  (forall o t, rtime (rescale (g o t)) = t) ->
  forall orbits observers, orbits <> [] -> NoDup (map (fun o => (iid o, ivid o)) orbits) ->
  one_origin iid iorigin orbits -> Forall (fun o => is_code (iorigin o) = true) orbits ->
  exists l, generate_one btime bcode (serial_propagate iid iorigin oid vid rtime backend rescale to_origin is_code) pair orbits observers = Ok l /\
    Forall (fun rb => rtime (fst rb) = btime (snd rb)) l /\
    Permutation l (flat_map (fun o => map (fun b => (final_row iorigin rescale to_origin g o (btime b), b)) observers) orbits).
Proof. intros. eapply pairing; eauto. Qed.
Definition toy_ephemeris :=
  generate_one (fun b : Z * Z * string => fst b) (fun b => snd b)
    (serial_propagate toy_id toy_origin toy_rid (fun _ => ""%string) toy_rtime toy_backend (fun r => r) toy_to toy_code) pair.
Example C90_case :
  option_map (map (fun rb => (toy_rid (fst rb), toy_rtime (fst rb), snd rb)))
    (match toy_ephemeris [("b", "SUN", 5); ("a", "SUN", 7)]%string [((4, 0), "X05"); ((2, 0), "W84")]%string with Ok l => Some l | Err _ => None end)
  = Some [("a", (2, 0), ((2, 0), "W84")); ("a", (4, 0), ((4, 0), "X05")); ("b", (2, 0), ((2, 0), "W84")); ("b", (4, 0), ((4, 0), "X05"))]%string.
Proof. reflexivity. Qed.
(* one orbit id on two rows: states are observed by observers of another epoch, without error *)
Theorem C91_observer_pairing_refuted : exists orbits observers l r b,
  toy_ephemeris orbits observers = Ok l /\ In (r, b) l /\ toy_rtime r = (1, 0) /\ fst b = (2, 0).
Proof.
  exists [("a", "SUN", 5); ("a", "SUN", 7)]%string, [((1, 0), "X05"); ((2, 0), "X05")]%string.
  do 3 eexists. split. reflexivity. split. right. left. reflexivity. split; reflexivity.
Qed.

Print Assumptions C22_propagate_orbits.
Print Assumptions C22_ephemeris.
Print Assumptions C91_schedule_order_refuted.
Print Assumptions C91_empty_input_refuted.
Print Assumptions C30_input_origin_partial.
Print Assumptions C30_duplicated_rows_refuted.
Print Assumptions C30_dropped_rows_refuted.
Print Assumptions C30_no_table.
Print Assumptions C90_observer_pairing.
Print Assumptions C91_observer_pairing_refuted.
