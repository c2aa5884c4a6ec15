(* Theorems for C223-C226: JPL's Small-Body Database. *)
From Coq Require Import QArith ZArith String List Bool Lia Permutation.
From Verif Require Import Base ListLemmas ResModel CovModel TimeModel SbdbModel SbdbSpec SbdbProofs SbdbProps.
Import ListNotations.
Open Scope string_scope.
Open Scope list_scope.
Open Scope nat_scope.

Lemma orbit_of payload orbit orbit' : get "orbit" payload = JObj orbit -> or_empty (get "orbit" payload) = Ok orbit' -> orbit' = orbit.
Proof. intros Eo E1. rewrite Eo in E1. unfold or_empty in E1. destruct (truthy (JObj orbit)) eqn:T; [now injection E1|]. destruct orbit; [now injection E1|discriminate T]. Qed.

(* ---- C223 ---- *)
Lemma block_chosen parse text orbit l t els epoch cov : solution_block orbit l t -> choose parse text orbit = Ok (els, epoch, cov) ->
  els = JList l /\ sbdb_float parse t = Ok epoch.
Proof.
  intros B H. unfold choose in H. apply bind_inv in H. destruct H as [e0 [E0 H]]. destruct B as [cv l Ec D El T | l El N].
  - rewrite Ec in H. assert (H' : bind (read_covariance parse text cv) (fun m => match get "elements" cv with
      | JNull => Ok (get "elements" orbit, e0, Some m)
      | els => match get "epoch" cv with JNull => Ok (els, e0, Some m) | t => bind (sbdb_float parse t) (fun e => Ok (els, e, Some m)) end end) = Ok (els, epoch, cov)).
    { destruct (get "data" cv); [congruence|..]; exact H. }
    apply bind_inv in H'. destruct H' as [m [_ H']]. rewrite El in H'.
    destruct (get "epoch" cv) eqn:G; [congruence|..]; apply bind_inv in H'; destruct H' as [e1 [E1 H']]; injection H' as <- <- <-; auto.
  - destruct (get "covariance" orbit) as [| | | | |cv] eqn:Ec; try (injection H as <- <- <-; auto).
    destruct (N cv eq_refl) as [Z|Z].
    + rewrite Z in H. injection H as <- <- <-. auto.
    + destruct (get "data" cv); [injection H as <- <- <-; auto|..]; apply bind_inv in H; destruct H as [m [_ H]]; rewrite Z in H; injection H as <- <- <-; auto.
Qed.
Theorem C223_solution_partial : forall parse text ids payloads os k payload o orbit l t,
  orbits_from_payloads parse text ids payloads = Ok os -> nth_error payloads k = Some payload -> nth_error os k = Some o ->
  get "orbit" payload = JObj orbit -> solution_block orbit l t ->
  (forall q, reads parse t (Some q) -> sb_time o = from_jd q) /\ sb_scale o = "tdb" /\ sb_origin o = "SUN" /\ sb_frame o = "ecliptic" /\
  (forall name pos el x, nth_error ["q"; "e"; "i"; "om"; "w"] pos = Some name -> the_element text l name el -> reads parse (get "value" el) x -> nth_error (sb_coords o) pos = Some x) /\
  (forall el q, the_element text l "tp" el -> reads parse (get "value" el) (Some q) -> nth_error (sb_coords o) 5 = Some (Some (mjd (from_jd q)))).
Proof.
  intros parse text ids payloads os k payload o orbit l t H P O Eo B.
  destruct (orbits_inv _ _ _ _ _ H) as (_ & _ & I). destruct (I k payload o P O) as (p & q & Rp & Q & ->). cbn [sb_time sb_scale sb_origin sb_frame sb_coords].
  destruct (payload_inv _ _ _ _ Rp) as (obj & orbit' & els & epoch & cv & m & v & tp & _ & E1 & E2 & _ & E3 & E4 & _ & _ & E5 & E6 & _).
  rewrite (orbit_of _ _ _ Eo E1) in *. destruct (block_chosen _ _ _ _ _ _ _ _ B E2) as [[= ->] E7].
  split. { intros q' Rq. rewrite (reads_float _ _ _ Rq) in E7. injection E7 as <-. congruence. }
  split; [reflexivity|]. split; [reflexivity|]. split; [reflexivity|]. rewrite E6. pose proof (mapM_length _ _ _ E3) as L. cbn in L.
  assert (V : forall pos name x, nth_error ["q"; "e"; "i"; "om"; "w"; "tp"] pos = Some name -> element_value parse text l name = Ok x -> nth_error v pos = Some x).
  { intros pos name x N X. destruct (mapM_nth _ _ _ _ _ E3 N) as [y [Y1 Y2]]. congruence. }
  destruct v as [|v0 [|v1 [|v2 [|v3 [|v4 [|v5 [|]]]]]]]; try discriminate L. cbn [firstn app nth] in *.
  split.
  - intros name pos el' x N T R_. pose proof (value_of _ _ _ _ _ _ T R_) as X.
    assert (N' : nth_error ["q"; "e"; "i"; "om"; "w"; "tp"] pos = Some name) by (do 5 (destruct pos as [|pos]; [exact N|]); destruct pos; discriminate N).
    specialize (V pos name x N' X). do 5 (destruct pos as [|pos]; [exact V|]). destruct pos; discriminate N.
  - intros el' q' T R_. pose proof (value_of _ _ _ _ _ _ T R_) as X. specialize (V 5 "tp" (Some q') eq_refl X). cbn in V. injection V as ->. cbn in E4. injection E4 as <-. reflexivity.
Qed.
Print Assumptions C223_solution_partial.
(* elements of the covariance without their epoch are given the epoch of the other elements *)
Theorem C223_solution_refuted : exists parse text payload os o orbit cov,
  orbits_from_payloads parse text ["433"] [payload] = Ok os /\ os = [o] /\ get "orbit" payload = JObj orbit /\ get "covariance" orbit = JObj cov /\
  get "elements" cov = JList (six_elements JNull) /\ get "epoch" cov = JNull /\ get "elements" orbit = JList [] /\
  get "epoch" orbit = JNum (Some (2459000 # 1)%Q) /\ sb_time o = from_jd (2459000 # 1) /\ nth_error (sb_coords o) 0 = Some (Some 2%Q).
Proof.
  exists no_number, no_text.
  exists [("object", JObj [("fullname", JStr "Eros")]);
          ("orbit", JObj [("epoch", JNum (Some (2459000 # 1)%Q)); ("elements", JList []); ("covariance", JObj (("elements", JList (six_elements JNull)) :: demo_cov))])].
  eexists. eexists. eexists. eexists. split; [vm_compute; reflexivity|]. split; [reflexivity|]. repeat (split; [reflexivity|]). reflexivity.
Qed.
Print Assumptions C223_solution_refuted.
Example C223_case : exists l t orbit, get "orbit" (demo demo_cov) = JObj orbit /\ solution_block orbit l t /\ t = JNum (Some (2459000 # 1)%Q) /\ l = six_elements (JNum (Some 2%Q)) /\
  the_element no_text l "e" [("name", JStr "e"); ("value", JStr "0.5"); ("sigma", JNum (Some 2%Q))].
Proof.
  exists (six_elements (JNum (Some 2%Q))), (JNum (Some (2459000 # 1)%Q)). eexists. split; [reflexivity|]. split; [|split; [reflexivity|]; split; [reflexivity|]].
  - change (JNum (Some (2459000 # 1)%Q)) with (get "epoch" [("epoch", JNum (Some (2459000 # 1)%Q)); ("elements", JList (six_elements (JNum (Some 2%Q)))); ("covariance", JObj demo_cov)]) at 2. apply of_orbit; [reflexivity|]. intros cov [= <-]. right. reflexivity.
  - exists [], (tl (six_elements (JNum (Some 2%Q)))). split; [reflexivity|]. split; [reflexivity|]. intros o I. right. cbn in I. repeat (destruct I as [I|I]; [injection I as <-; discriminate|]). contradiction.
Qed.
Example C223_case_covariance : fields (orbits_from_payloads no_number no_text ["433"]
    [demo (("elements", JList [el "q" 1 JNull; el "e" 0 JNull; el "i" 1 JNull; el "om" 2 JNull; el "w" 3 JNull; el "tp" 2458000 JNull]) :: ("epoch", JNum (Some (2458000 # 1)%Q)) :: demo_cov)])
  = Some [("00000", "Ceres", mkrow 57999 43200000000000, [Some 1%Q; Some 0%Q; Some 1%Q; Some 2%Q; Some 3%Q; Some (mjd (mkrow 57999 43200000000000))], [Some 11%Q; Some 1%Q; Some 1%Q; Some 25%Q; Some 22%Q])].
Proof. vm_compute. reflexivity. Qed.

(* ---- C224 ---- *)
Theorem C224_magnitude_partial : forall parse text ids payloads os k payload o l,
  orbits_from_payloads parse text ids payloads = Ok os -> nth_error payloads k = Some payload -> nth_error os k = Some o -> get "phys_par" payload = JList l ->
  (forall h x, the_element text l "H" h -> reads parse (get "value" h) (Some x) -> ~ x == 0 -> fst (fst (fst (sb_phys o))) = Some x)%Q /\
  (forall h s, the_element text l "H" h -> reads parse (get "sigma" h) (Some s) -> ~ s == 0 -> snd (fst (fst (sb_phys o))) = Some s)%Q /\
  (forall g x, the_element text l "G" g -> reads parse (get "value" g) x -> snd (fst (sb_phys o)) = x) /\
  (forall g s, the_element text l "G" g -> reads parse (get "sigma" g) s -> snd (sb_phys o) = s).
Proof.
  intros parse text ids payloads os k payload o l H P O L.
  destruct (orbits_inv _ _ _ _ _ H) as (_ & _ & I). destruct (I k payload o P O) as (p & q & Rp & Q & ->). cbn [sb_phys].
  destruct (payload_inv _ _ _ _ Rp) as (obj & orbit' & els & epoch & cv & m & v & tp & _ & _ & _ & _ & _ & _ & E & _).
  unfold phys_par in E. rewrite L in E. assert (X : phys_list (JList l) = Ok l) by (destruct l; reflexivity). rewrite X in E. cbn [bind] in E. injection E as <-. cbn [fst snd].
  assert (F : forall key el name x, the_element text l name el -> reads parse (get key el) x -> phys_field parse key (named text l name) = Some x).
  { intros key el' name x T R_. rewrite (named_element _ _ _ _ T). unfold phys_field. now rewrite (reads_float _ _ _ R_). }
  repeat split.
  - intros h x T R_ N. rewrite (F _ _ _ _ T R_). cbn [or_num]. destruct (Qeq_bool x 0) eqn:Z; [apply Qeq_bool_iff in Z; contradiction|reflexivity].
  - intros h s T R_ N. rewrite (F _ _ _ _ T R_). cbn [or_num]. destruct (Qeq_bool s 0) eqn:Z; [apply Qeq_bool_iff in Z; contradiction|reflexivity].
  - intros g x T R_. now rewrite (F _ _ _ _ T R_).
  - intros g s T R_. now rewrite (F _ _ _ _ T R_).
Qed.
Print Assumptions C224_magnitude_partial.
(* a magnitude of zero is lost; the sigma of another magnitude is taken for the one without *)
Theorem C224_magnitude_refuted : exists parse text, 
  (exists payload o, orbits_from_payloads parse text ["4"] [payload] = Ok [o] /\ get "phys_par" payload = JList [el "H" 0 (JNum (Some (1 # 10)%Q))] /\ fst (fst (fst (sb_phys o))) = None) /\
  (exists payload o, orbits_from_payloads parse text ["4"] [payload] = Ok [o] /\ get "phys_par" payload = JList [el "H" 3 JNull; el "H_mag" 5 (JNum (Some (1 # 10)%Q))] /\
     fst (fst (fst (sb_phys o))) = Some 3%Q /\ snd (fst (fst (sb_phys o))) = Some (1 # 10)%Q).
Proof.
  exists no_number, no_text. split.
  - exists (("phys_par", JList [el "H" 0 (JNum (Some (1 # 10)%Q))]) :: demo demo_cov). eexists. split; [vm_compute; reflexivity|]. split; reflexivity.
  - exists (("phys_par", JList [el "H" 3 JNull; el "H_mag" 5 (JNum (Some (1 # 10)%Q))]) :: demo demo_cov). eexists. split; [vm_compute; reflexivity|]. split; [reflexivity|]. split; reflexivity.
Qed.
Print Assumptions C224_magnitude_refuted.
Example C224_case : the_element no_text [el "G" 1 JNull; el "H" 3 (JNum (Some (1 # 10)%Q))] "H" [("name", JStr "H"); ("value", JNum (Some (inject_Z 3))); ("sigma", JNum (Some (1 # 10)%Q))] /\
  exists o, orbits_from_payloads no_number no_text ["4"] [("phys_par", JList [el "G" 1 JNull; el "H" 3 (JNum (Some (1 # 10)%Q))]) :: demo demo_cov] = Ok [o] /\ sb_phys o = (Some 3%Q, Some (1 # 10)%Q, Some 1%Q, None).
Proof.
  split; [exists [el "G" 1 JNull], []; split; [reflexivity|]; split; [reflexivity|]; intros o []|].
  eexists. split; vm_compute; reflexivity.
Qed.

(* ---- C225 ---- *)
Lemma kept_rows (ids : list string) (g : nat -> dict) : combine ids (map g (seq 0 (List.length ids))) = map (fun i => (nth i ids "", g i)) (seq 0 (List.length ids)).
Proof.
  assert (G : forall (l pre : list string), combine l (map g (seq (List.length pre) (List.length l))) = map (fun i => (nth i (pre ++ l) "", g i)) (seq (List.length pre) (List.length l))).
  { induction l as [|x l IH]; intro pre; [reflexivity|]. cbn [List.length seq map combine]. f_equal.
    - f_equal. rewrite app_nth2 by lia. now rewrite Nat.sub_diag.
    - specialize (IH (pre ++ [x])). rewrite app_length in IH. cbn [List.length] in IH. rewrite Nat.add_1_r in IH. rewrite <- app_assoc in IH. exact IH. }
  exact (G ids []).
Qed.
Lemma filter_rows (f : string * dict -> bool) (h : nat -> string * dict) l : filter f (map h l) = map h (filter (fun i => f (h i)) l).
Proof. induction l as [|x l IH]; cbn; [reflexivity|]. destruct (f (h x)); cbn; now rewrite IH. Qed.
Theorem C225_rows_partial : forall parse text workers order fetch allow from_input ids (g : nat -> dict) os,
  (forall i, i < List.length ids -> fetch i (nth i ids "") = Ok (g i)) -> Permutation order (seq 0 (List.length ids)) ->
  query_sbdb_new parse text workers order fetch allow from_input ids = Ok os ->
  exists kept, kept = filter (fun i => negb allow || has "object" (g i)) (seq 0 (List.length ids)) /\ List.length os = List.length kept /\
  (forall r o i, nth_error os r = Some o -> nth_error kept r = Some i ->
     sb_id o = (if from_input then nth i ids "" else pad5 r) /\ has "object" (g i) = true /\
     (forall obj name, get "object" (g i) = JObj obj -> get "fullname" obj = JStr name -> sb_object o = name)) /\
  (from_input = false -> NoDup (map sb_id os)).
Proof.
  intros parse text workers order fetch allow from_input ids g os F P H. unfold query_sbdb_new in H.
  apply bind_inv in H. destruct H as [pl [E H]].
  assert (W : (0 < workers)%Z). { unfold get_payloads in E. destruct (Z.leb_spec workers 0); [discriminate|lia]. }
  rewrite (payloads_ok workers order fetch ids g W P F) in E. injection E as <-.
  set (keep := filter (fun i => negb allow || has "object" (g i)) (seq 0 (List.length ids))).
  assert (K : (if allow then filter (fun p => has "object" (snd p)) (combine ids (map g (seq 0 (List.length ids)))) else combine ids (map g (seq 0 (List.length ids))))
              = map (fun i => (nth i ids "", g i)) keep).
  { rewrite kept_rows. unfold keep. destruct allow; cbn [negb orb].
    - apply filter_rows.
    - f_equal. clear. induction (seq 0 (List.length ids)) as [|x l IH]; cbn; [reflexivity|now rewrite <- IH]. }
  cbv zeta in H. rewrite K in H. exists keep. split; [reflexivity|]. clearbody keep.
  destruct keep as [|i0 keep'] eqn:Ek.
  - cbn [map] in H. injection H as <-. split; [reflexivity|]. split; [intros [|r] ? ? X; discriminate X|constructor].
  - rewrite <- Ek in *. assert (H' : bind (orbits_from_payloads parse text (map fst (map (fun i => (nth i ids "", g i)) keep)) (map snd (map (fun i => (nth i ids "", g i)) keep)))
        (fun os => Ok (if from_input then set_ids (map fst (map (fun i => (nth i ids "", g i)) keep)) os else os)) = Ok os) by (rewrite Ek in *; exact H).
    clear H i0 keep' Ek K. rewrite !map_map in H'. cbn [fst snd] in H'. apply bind_inv in H'. destruct H' as [os' [H' E]].
    destruct (orbits_inv _ _ _ _ _ H') as (_ & L & I). rewrite map_length in L.
    assert (A : forall r o i, nth_error os' r = Some o -> nth_error keep r = Some i ->
       sb_id o = pad5 r /\ has "object" (g i) = true /\ (forall obj name, get "object" (g i) = JObj obj -> get "fullname" obj = JStr name -> sb_object o = name)).
    { intros r o i O Ki. destruct (I r (g i) o) as (p & q & Rp & Q & ->); [now rewrite nth_error_map, Ki|exact O|]. cbn [sb_id sb_object].
      split; [reflexivity|]. split. { unfold read_payload in Rp. destruct (has "object" (g i)); [reflexivity|discriminate Rp]. }
      destruct (payload_inv _ _ _ _ Rp) as (obj & orbit' & els & epoch & cv & m & v & tp & E1 & _ & _ & _ & _ & _ & _ & E2 & _).
      intros obj' name G1 G2. rewrite E2. rewrite G1 in E1. unfold or_empty in E1. destruct obj' as [|x obj']; [discriminate G2|]. injection E1 as <-. now rewrite G2. }
    injection E as <-. destruct from_input.
    + assert (L' : List.length (set_ids (map (fun i => nth i ids "") keep) os') = List.length keep).
      { unfold set_ids. rewrite map_length, combine_length, map_length. lia. }
      split; [exact L'|]. split; [|discriminate]. intros r o i O Ki. unfold set_ids in O. rewrite nth_error_map in O.
      destruct (nth_error os' r) as [o'|] eqn:O'; [|exfalso; apply nth_error_None in O'; assert (r < List.length keep) by (apply nth_error_Some; congruence); lia].
      assert (C : nth_error (combine (map (fun i => nth i ids "") keep) os') r = Some (nth i ids "", o')).
      { assert (G : forall A B (a : list A) (b : list B) n x y, nth_error a n = Some x -> nth_error b n = Some y -> nth_error (combine a b) n = Some (x, y)).
        { induction a as [|x0 a IH]; intros [|y0 b] [|n] x y; cbn; try discriminate; [congruence|apply IH]. }
        apply G; [now rewrite nth_error_map, Ki|exact O']. }
      rewrite C in O. cbn in O. injection O as <-. cbn [sb_id sb_object]. destruct (A r o' i O' Ki) as (_ & A2 & A3). auto.
    + split; [exact L|]. split; [exact A|]. intros _. apply NoDup_nth_error. intros a b La Eq. rewrite map_length in La.
      rewrite !nth_error_map in Eq. destruct (nth_error os' a) as [oa|] eqn:Oa; [|apply nth_error_None in Oa; lia]. cbn in Eq.
      destruct (nth_error os' b) as [ob|] eqn:Ob; [|discriminate Eq]. cbn in Eq. injection Eq as Eq.
      assert (La' : a < List.length os') by (apply nth_error_Some; congruence). assert (Lb' : b < List.length os') by (apply nth_error_Some; congruence).
      destruct (nth_error keep a) as [ia|] eqn:Ka; [|apply nth_error_None in Ka; lia]. destruct (nth_error keep b) as [ib|] eqn:Kb; [|apply nth_error_None in Kb; lia].
      destruct (A a oa ia Oa Ka) as [X1 _]. destruct (A b ob ib Ob Kb) as [X2 _]. apply pad5_inj. congruence.
Qed.
Print Assumptions C225_rows_partial.
Theorem C225_missing : forall parse text workers order fetch from_input ids (g : nat -> dict) i, (0 < workers)%Z ->
  (forall i, i < List.length ids -> fetch i (nth i ids "") = Ok (g i)) -> Permutation order (seq 0 (List.length ids)) ->
  i < List.length ids -> has "object" (g i) = false ->
  exists e, query_sbdb_new parse text workers order fetch false from_input ids = Err e.
Proof.
  intros parse text workers order fetch from_input ids g i W F P L N.
  destruct (query_sbdb_new parse text workers order fetch false from_input ids) as [os|e] eqn:H; [exfalso|now exists e].
  destruct (C225_rows_partial _ _ _ _ _ _ _ _ _ _ F P H) as (kept & K & Lo & A & _).
  assert (Ek : kept = seq 0 (List.length ids)). { rewrite K. cbn [negb orb]. clear. induction (seq 0 (List.length ids)) as [|x l IH]; cbn; [reflexivity|now rewrite IH]. }
  assert (Ki : nth_error kept i = Some i). { rewrite Ek. rewrite nth_error_nth' with (d := 0) by (now rewrite seq_length). now rewrite seq_nth. }
  destruct (nth_error os i) as [o|] eqn:O; [|apply nth_error_None in O; rewrite Ek, seq_length in Lo; lia].
  destruct (A i o i O Ki) as (_ & B & _). congruence.
Qed.
Print Assumptions C225_missing.
(* an object without a name is called "None" *)
Theorem C225_name_refuted : exists parse text payload o, query_sbdb_new parse text 1 [0] (fun _ _ => Ok payload) false false ["4"] = Ok [o] /\
  get "object" payload = JObj [] /\ sb_object o = "None".
Proof.
  exists no_number, no_text, (("object", JObj []) :: demo demo_cov). eexists. split; [vm_compute; reflexivity|]. split; reflexivity.
Qed.
Print Assumptions C225_name_refuted.
Example C225_case : fields (query_sbdb_new no_number no_text 2 [1; 2; 0] (fun i _ => match i with 1 => Ok [("message", JStr "not found")] | _ => Ok (demo demo_cov) end) true true ["1"; "x"; "2"])
  = fields (query_sbdb_new no_number no_text 1 [0; 1] (fun i _ => Ok (demo demo_cov)) false true ["1"; "2"]) /\
  query_sbdb_new no_number no_text 2 [1; 2; 0] (fun i _ => match i with 1 => Ok [("message", JStr "not found")] | _ => Ok (demo demo_cov) end) false true ["1"; "x"; "2"] = Err KeyError.
Proof. vm_compute. auto. Qed.

(* ---- C226 ---- *)
(* the uncertainty an element is given with: none if there is none *)
Definition given_sigma (parse : string -> option num) (text : json -> string) (l : list json) (name : string) (s : num) : Prop :=
  exists e, the_element text l name e /\ (reads parse (get "sigma" e) s \/ get "sigma" e = JNull /\ s = None).
Lemma sigma_given parse text l name s : given_sigma parse text l name s -> element_sigma parse text l name = Ok s.
Proof. intros (e & T & [R_|[N ->]]); [now apply (sigma_of _ _ _ _ _ _ T)|now apply (sigma_none _ _ _ _ _ T)]. Qed.
Theorem C226_sigmas_partial : forall parse text ids payloads os k payload o orbit l (s : nat -> num),
  orbits_from_payloads parse text ids payloads = Ok os -> nth_error payloads k = Some payload -> nth_error os k = Some o ->
  get "orbit" payload = JObj orbit -> get "elements" orbit = JList l -> (forall cov, get "covariance" orbit = JObj cov -> get "data" cov = JNull) ->
  (forall a name, nth_error ["q"; "e"; "i"; "om"; "w"; "tp"] a = Some name -> given_sigma parse text l name (s a)) ->
  (forall a, a < 6 -> match s a with Some x => exists y, sb_cov o a a = Some y /\ (y == x * x)%Q | None => sb_cov o a a = None end) /\
  (forall a b, a < b < 6 -> sb_cov o a b = sb_cov o b a /\ match s a with Some _ => exists y, sb_cov o a b = Some y /\ (y == 0)%Q | None => sb_cov o a b = None end).
Proof.
  intros parse text ids payloads os k payload o orbit l s H P O Eo El N S.
  destruct (orbits_inv _ _ _ _ _ H) as (_ & _ & I). destruct (I k payload o P O) as (p & q & Rp & Q & ->). cbn [sb_cov].
  destruct (payload_inv _ _ _ _ Rp) as (obj & orbit' & els & epoch & cv & m & v & tp & _ & E1 & E2 & E3 & _ & _ & _ & _ & _ & _ & E4).
  rewrite (orbit_of _ _ _ Eo E1) in *. rewrite E4.
  assert (X : els = l /\ cv = None).
  { unfold choose in E2. apply bind_inv in E2. destruct E2 as [e0 [_ E2]]. destruct (get "covariance" orbit) as [| | | | |cov] eqn:Ec; try (injection E2 as E2 _ <-; split; [congruence|reflexivity]).
    rewrite (N cov eq_refl) in E2. injection E2 as E2 _ <-. split; [congruence|reflexivity]. }
  destruct X as [-> ->]. destruct E3 as [sg [E3 ->]].
  assert (G : mapM (element_sigma parse text l) ["e"; "q"; "tp"; "om"; "w"; "i"] = Ok [s 1; s 0; s 5; s 3; s 4; s 2]).
  { cbn [mapM]. rewrite (sigma_given _ _ _ _ _ (S 1 "e" eq_refl)), (sigma_given _ _ _ _ _ (S 0 "q" eq_refl)), (sigma_given _ _ _ _ _ (S 5 "tp" eq_refl)),
      (sigma_given _ _ _ _ _ (S 3 "om" eq_refl)), (sigma_given _ _ _ _ _ (S 4 "w" eq_refl)), (sigma_given _ _ _ _ _ (S 2 "i" eq_refl)). reflexivity. }
  rewrite G in E3. injection E3 as <-.
  assert (D : forall x, match x with Some z => exists y, nmul (nmul x x) (Some 1%Q) = Some y /\ (y == z * z)%Q | None => nmul (nmul x x) (Some 1%Q) = None end).
  { intros [z|]; [|reflexivity]. exists (z * z * 1)%Q. split; [reflexivity|ring]. }
  assert (F : forall x, match x with Some z => exists y, nmul (nmul x x) (Some 0%Q) = Some y /\ (y == 0)%Q | None => nmul (nmul x x) (Some 0%Q) = None end).
  { intros [z|]; [|reflexivity]. exists (z * z * 0)%Q. split; [reflexivity|ring]. }
  split.
  - intros a La. do 6 (destruct a as [|a]; [exact (D (s _))|]). lia.
  - intros a b Lab. split; [apply convert_symmetric|].
    do 5 (destruct a as [|a]; [do 6 (destruct b as [|b]; [first [lia | exact (F (s _))]|]); lia|]). lia.
Qed.
Print Assumptions C226_sigmas_partial.
(* with the uncertainty of e unknown, its covariances with i, node, peri and tp are unknown too, that with q is zero *)
Theorem C226_sigmas_refuted : exists parse text payload o orbit, orbits_from_payloads parse text ["4"] [payload] = Ok [o] /\ get "orbit" payload = JObj orbit /\
  get "covariance" orbit = JNull /\ get "elements" orbit = JList (six_elements JNull) /\
  sb_cov o 1 1 = None /\ sb_cov o 0 1 = Some 0%Q /\ map (sb_cov o 1) [2; 3; 4; 5] = [None; None; None; None].
Proof.
  exists no_number, no_text, [("object", JObj [("fullname", JStr "Vesta")]); ("orbit", JObj [("epoch", JNum (Some (2459000 # 1)%Q)); ("elements", JList (six_elements JNull))])].
  eexists. eexists. split; [vm_compute; reflexivity|]. repeat (split; [reflexivity|]). reflexivity.
Qed.
Print Assumptions C226_sigmas_refuted.
Example C226_case : forall a name, nth_error ["q"; "e"; "i"; "om"; "w"; "tp"] a = Some name ->
  given_sigma no_number no_text (six_elements JNull) name (nth a [Some 3%Q; None; Some 4%Q; Some 5%Q; Some 6%Q; Some 7%Q] None).
Proof.
  intros a name H. do 6 (destruct a as [|a]; [injection H as <-; eexists; split;
    [first [exists [], (skipn 1 (six_elements JNull)); split; [reflexivity|]; split; [reflexivity|] | exists (firstn 1 (six_elements JNull)), (skipn 2 (six_elements JNull)); split; [reflexivity|]; split; [reflexivity|]
     | exists (firstn 2 (six_elements JNull)), (skipn 3 (six_elements JNull)); split; [reflexivity|]; split; [reflexivity|] | exists (firstn 3 (six_elements JNull)), (skipn 4 (six_elements JNull)); split; [reflexivity|]; split; [reflexivity|]
     | exists (firstn 4 (six_elements JNull)), (skipn 5 (six_elements JNull)); split; [reflexivity|]; split; [reflexivity|] | exists (firstn 5 (six_elements JNull)), []; split; [reflexivity|]; split; [reflexivity|]];
     intros o I; right; cbn in I; repeat (destruct I as [I|I]; [injection I as <-; discriminate|]); contradiction
    |first [left; left; reflexivity | right; split; reflexivity]]|]). destruct a; discriminate H.
Qed.
