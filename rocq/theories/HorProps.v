(* C232-C234: queries of JPL Horizons. *)
From Coq Require Import QArith ZArith String List Bool Lia Permutation Sorted.
From Verif Require Import Base StrOrder ListLemmas ResModel TimeModel TimeSpec SchedModel TableModel SbdbModel HorModel HorSpec HorProofs HorProofs2.
Import ListNotations.
Open Scope string_scope.
Open Scope list_scope.
Open Scope nat_scope.

(* What Horizons answers to queries of a type of coordinates at a location *)
Definition service (vectors elements : string -> string -> list Q -> list hrow) (kind location : string) (name : string -> string) (cells : string -> Q -> string -> num) : Prop :=
  (kind = "cartesian" /\ answers (vectors location) name cells) \/
  ((kind = "keplerian" \/ kind = "cometary" /\ forall id q, exists x, cells id q "Tp_jd" = Some x) /\ answers_mjd (elements location) name cells).

(* C232: one row for every object and every time, sorted by time, with the values Horizons gave *)
Theorem C232_rows : forall vectors elements to_tdb kind location name cells, service vectors elements kind location name cells ->
  forall ids times, ids <> [] -> times <> [] -> (forall t, In t times -> normal (to_tdb t)) ->
  exists out asked, query_horizons vectors elements to_tdb kind location ids times = Ok out /\
    Permutation asked (list_prod (numbered_ids ids) times) /\
    Forall2 (fun pt o => row_for kind name cells (fst (fst pt)) (snd (fst pt)) (to_tdb (snd pt)) o) asked out /\
    StronglySorted (fun a b => row_leb (ho_time a) (ho_time b) = true) out.
Proof.
  intros vectors elements to_tdb kind location name cells H ids times N T Nm.
  destruct (query_ok vectors elements to_tdb kind location name cells H ids times N T) as (chunks & C & E).
  pose proof (rows_perm to_tdb kind name cells ids chunks) as P. rewrite C in P.
  set (F := fun pt : (nat * string) * row => make kind (entry_of to_tdb name cells (fst pt) (snd pt))).
  assert (P2 : Permutation (sort (fun a b => row_leb (ho_time a) (ho_time b)) (flat_map (fun c => map (make kind) (sort frame_leb (frame_rows to_tdb name cells ids c))) (rev chunks))) (map F (list_prod (numbered_ids ids) times))).
  { rewrite <- sort_perm. rewrite P.
    assert (G : forall ps, flat_map (fun p => map (fun t => make kind (entry_of to_tdb name cells p t)) (sort row_leb times)) ps = map F (list_prod ps (sort row_leb times))).
    { induction ps as [|p ps IH]; [reflexivity|]. cbn [flat_map list_prod]. rewrite map_app, map_map, IH. reflexivity. }
    rewrite G. apply Permutation_map. clear. induction (numbered_ids ids) as [|p ps IH]; [constructor|]. cbn [list_prod]. apply Permutation_app; [|exact IH]. apply Permutation_map. symmetry. apply sort_perm. }
  eexists. apply Permutation_map_inv in P2. destruct P2 as (asked & Ea & Pa).
  exists asked. split; [exact E|]. split; [symmetry; exact Pa|]. split.
  - rewrite Ea. assert (Nn : forall pt, In pt asked -> normal (to_tdb (snd pt))).
    { intros [p t] I. apply Nm. apply (Permutation_in _ (Permutation_sym Pa)) in I. apply in_prod_iff in I. apply I. }
    clear - Nn H. induction asked as [|pt l IH]; cbn [map]; constructor; [|apply IH; intros; apply Nn; now right].
    apply (make_row vectors elements to_tdb kind location name cells H). apply Nn. now left.
  - apply (sort_sorted (fun a b => row_leb (ho_time a) (ho_time b))); [intros; apply row_leb_total|intros a b c; apply row_leb_trans].
Qed.
(* C232: for distinct times and at most 100000 objects the order is exact: by time, then in the order of the request *)
Theorem C232_order : forall vectors elements to_tdb kind location name cells, service vectors elements kind location name cells ->
  forall ids times, ids <> [] -> times <> [] -> (forall t, In t times -> normal (to_tdb t)) -> NoDup (map to_tdb times) -> (Z.of_nat (List.length ids) <= 100000)%Z ->
  exists out ordered, query_horizons vectors elements to_tdb kind location ids times = Ok out /\
    Permutation ordered times /\ StronglySorted (fun a b => row_leb (to_tdb a) (to_tdb b) = true) ordered /\
    Forall2 (fun tp o => row_for kind name cells (fst (snd tp)) (snd (snd tp)) (to_tdb (fst tp)) o) (list_prod ordered (numbered_ids ids)) out.
Proof.
  intros vectors elements to_tdb kind location name cells H ids times N T Nm ND L.
  eexists. exists (sort (fun a b => row_leb (to_tdb a) (to_tdb b)) times). split; [apply (query_exact vectors elements to_tdb kind location name cells H); assumption|].
  split; [symmetry; apply sort_perm|]. split; [apply (sort_sorted (fun a b => row_leb (to_tdb a) (to_tdb b))); [intros; apply row_leb_total|intros a b c; apply row_leb_trans]|].
  assert (Nn : forall t, In t (sort (fun a b => row_leb (to_tdb a) (to_tdb b)) times) -> normal (to_tdb t)) by (intros t I; apply sort_In in I; now apply Nm).
  revert Nn. generalize (sort (fun a b => row_leb (to_tdb a) (to_tdb b)) times). intros st Nn. induction st as [|t st IH]; [constructor|]. cbn [list_prod flat_map].
  apply Forall2_app; [|apply IH; intros; apply Nn; now right]. clear IH. induction (numbered_ids ids) as [|p ps IHp]; cbn [map]; constructor; [|exact IHp].
  apply (make_row vectors elements to_tdb kind location name cells H). apply Nn. now left.
Qed.
(* C232: no times, no objects, an unknown type of coordinates *)
Theorem C232_errors : forall vectors elements to_tdb kind location,
  (forall ids, query_horizons vectors elements to_tdb kind location ids [] = Err AssertionError) /\
  (forall times, times <> [] -> query_horizons vectors elements to_tdb kind location [] times = Err ValueError) /\
  (kind <> "cartesian" -> kind <> "keplerian" -> kind <> "cometary" -> forall ids times, times <> [] -> query_horizons vectors elements to_tdb kind location ids times = Err ValueError).
Proof.
  intros vectors elements to_tdb kind location. split; [reflexivity|].
  assert (G : forall ids times, times <> [] -> (forall c, chunk_orbits vectors elements to_tdb kind location ids c = Err ValueError) -> query_horizons vectors elements to_tdb kind location ids times = Err ValueError).
  { intros ids times T C. destruct (SchedProofs.tiles_ok (sort row_leb times) 50 ltac:(lia)) as (chunks & E & Cc & _). unfold query_horizons. destruct times as [|t0 ts]; [congruence|]. rewrite E. cbn [bind].
    destruct chunks as [|c cs]; [|cbn [all_chunks]; now rewrite C]. exfalso. pose proof (f_equal (@List.length row) Cc) as Z. rewrite sort_length in Z. discriminate. }
  split.
  - intros times T. apply G; [exact T|]. intro c. unfold chunk_orbits. repeat (destruct (String.eqb kind _); [reflexivity|]). reflexivity.
  - intros K1 K2 K3 ids times T. apply G; [exact T|]. intro c. unfold chunk_orbits. destruct (String.eqb_spec kind "cartesian"); [congruence|]. destruct (String.eqb_spec kind "keplerian"); [congruence|]. destruct (String.eqb_spec kind "cometary"); [congruence|]. reflexivity.
Qed.

(* a service for the cases: two bodies, positions that depend on the place asked from *)
Definition test_cells (location : string) (id : string) (q : Q) (c : string) : num :=
  if String.eqb c "x" then Some (if String.eqb location "@ssb" then 5 # 1 else 3 # 1)%Q else if String.eqb c "RA" then Some 10%Q else if String.eqb c "DEC" then Some 20%Q else
  if String.eqb c "lighttime" then Some (720 # 1)%Q else Some 1%Q.
Definition test_ask (location id : string) (qs : list Q) : list hrow := map (fun q => mkh q ("body " ++ id)%string (test_cells location id q)) qs.
Definition test_times : list row := [mkrow 60001 0; mkrow 60000 43200000000000].
Lemma test_service location : service test_ask test_ask "cartesian" location (fun id => ("body " ++ id)%string) (test_cells location).
Proof. left. split; [reflexivity|]. intros id qs. reflexivity. Qed.
Example C232_case : service test_ask test_ask "cartesian" "@sun" (fun id => ("body " ++ id)%string) (test_cells "@sun") /\
  NoDup (map (fun t : row => t) test_times) /\ (forall t, In t test_times -> normal t) /\
  exists out, query_horizons test_ask test_ask (fun t => t) "cartesian" "@sun" ["B"; "A"] test_times = Ok out /\
    map (fun o => (ho_id o, ho_object o, ho_time o, ho_coords o)) out =
      [("00000", "body B", mkrow 60000 43200000000000, [Some (3 # 1); Some 1; Some 1; Some 1; Some 1; Some 1]);
       ("00001", "body A", mkrow 60000 43200000000000, [Some (3 # 1); Some 1; Some 1; Some 1; Some 1; Some 1]);
       ("00000", "body B", mkrow 60001 0, [Some (3 # 1); Some 1; Some 1; Some 1; Some 1; Some 1]);
       ("00001", "body A", mkrow 60001 0, [Some (3 # 1); Some 1; Some 1; Some 1; Some 1; Some 1])]%Q /\
  query_horizons test_ask test_ask (fun t => t) "spherical" "@sun" ["B"; "A"] test_times = Err ValueError.
Proof.
  split; [apply test_service|]. split. { constructor; [intros [E|[]]; discriminate E|]. constructor; [intros []|constructor]. }
  split. { intros t [<-|[<-|[]]]; unfold normal; cbn; lia. }
  eexists. split; [vm_compute; reflexivity|]. split; [reflexivity|]. vm_compute. reflexivity.
Qed.

(* C233: the origin in the result is that of the location asked for.
   Missing: any location but the Sun: each row says "SUN". *)
Theorem C233_origin_partial : forall vectors elements to_tdb kind location ids times out,
  query_horizons vectors elements to_tdb kind location ids times = Ok out -> forall o, In o out -> ho_origin o = "SUN" /\ ho_frame o = "ecliptic" /\ ho_scale o = "tdb".
Proof.
  intros vectors elements to_tdb kind location ids times out H o I. unfold query_horizons in H. destruct times as [|t0 ts]; [discriminate|]. revert H.
  destruct (iterate_chunks (sort row_leb (t0 :: ts)) 50) as [chunks|]; [|discriminate]. cbn [bind].
  assert (G : forall cs total res, (forall o, In o total -> ho_origin o = "SUN" /\ ho_frame o = "ecliptic" /\ ho_scale o = "tdb") -> all_chunks vectors elements to_tdb kind location ids cs total = Ok res ->
    forall o, In o res -> ho_origin o = "SUN" /\ ho_frame o = "ecliptic" /\ ho_scale o = "tdb").
  { induction cs as [|c cs IH]; intros total res Ht E. { injection E as <-. exact Ht. } cbn [all_chunks] in E. destruct (chunk_orbits vectors elements to_tdb kind location ids c) as [os|] eqn:Ec; [|discriminate]. cbn [bind] in E.
    refine (IH _ _ _ E). intros o' I'. apply in_app_or in I'. destruct I' as [I'|I']; [|now apply Ht]. clear - Ec I'. unfold chunk_orbits in Ec.
    destruct (String.eqb kind "cartesian"); [|destruct (String.eqb kind "keplerian"); [|destruct (String.eqb kind "cometary"); [|discriminate]]].
    - destruct (get_frame _ ids) as [f|]; [|discriminate]. injection Ec as <-. apply in_map_iff in I'. destruct I' as (q & <- & _). auto.
    - destruct (get_frame _ ids) as [f|]; [|discriminate]. injection Ec as <-. apply in_map_iff in I'. destruct I' as (q & <- & _). auto.
    - destruct (get_frame _ ids) as [f|]; [|discriminate]. cbn [bind] in Ec. apply In_nth_error in I'. destruct I' as [n En].
      assert (Ln : exists x, nth_error f n = Some x). { destruct (nth_error f n) eqn:X; [eauto|]. apply nth_error_None in X. apply mapM_length in Ec. assert (n < List.length os) by (apply nth_error_Some; congruence). lia. }
      destruct Ln as [x Ex]. destruct (mapM_nth _ _ _ n x Ec Ex) as (y & Ey & Ny). assert (y = o') by congruence. subst. unfold cometary_row in Ey. destruct (jd_row _); [|discriminate]. injection Ey as <-. auto. }
  destruct (all_chunks vectors elements to_tdb kind location ids chunks []) as [res|] eqn:E; [|discriminate]. cbn [bind]. intros [= <-]. apply sort_In in I. exact (G chunks [] res ltac:(intros ? []) E o I).
Qed.
(* the same object at the same time, asked for from the Sun and from the barycentre: different positions, both said to be of the Sun *)
Theorem C233_origin_refuted : exists vectors elements name cells ids times o o',
  (forall location, answers (vectors location) name (cells location)) /\ (forall t, In t times -> normal t) /\
  query_horizons vectors elements (fun t => t) "cartesian" "@sun" ids times = Ok [o] /\ query_horizons vectors elements (fun t => t) "cartesian" "@ssb" ids times = Ok [o'] /\
  ho_origin o = "SUN" /\ ho_origin o' = "SUN" /\ ho_time o = ho_time o' /\ ho_object o = ho_object o' /\ ho_frame o = ho_frame o' /\ ho_coords o <> ho_coords o'.
Proof.
  exists test_ask, test_ask, (fun id => ("body " ++ id)%string), test_cells, ["A"], [mkrow 60000 0]. do 2 eexists.
  split; [intros location id qs; reflexivity|]. split. { intros t [<-|[]]; unfold normal; cbn; lia. }
  split; [vm_compute; reflexivity|]. split; [vm_compute; reflexivity|]. repeat (split; [reflexivity|]). discriminate.
Qed.
Example C233_case : exists out, query_horizons test_ask test_ask (fun t => t) "keplerian" "@sun" ["A"] [mkrow 60000 0] = Ok out /\ map ho_origin out = ["SUN"].
Proof. eexists. split; vm_compute; reflexivity. Qed.

(* C234: ephemerides: one row for every object and observer, in order, as Horizons gave it.
   Missing: the frame. *)
Theorem C234_rows_partial : forall ephemerides to_utc name cells, (forall code, answers (ephemerides code) name (cells code)) ->
  forall ids observers, ids <> [] -> observers <> [] -> (forall c t, In (c, t) observers -> normal (to_utc t)) ->
  exists out asked, query_horizons_ephemeris ephemerides to_utc ids observers = Ok out /\
    Permutation asked (list_prod (numbered_ids ids) observers) /\
    Forall2 (fun po e => seen_from name cells (fst (fst po)) (snd (fst po)) (fst (snd po)) (to_utc (snd (snd po))) e) asked out /\
    StronglySorted eph_order out.
Proof.
  intros ephemerides to_utc name cells H ids observers N O Nm. destruct (eph_ok ephemerides to_utc name cells H ids observers N O) as (fr & E & P).
  assert (P2 : Permutation (map (fun po => seen to_utc name cells (fst po) (snd po)) (list_prod (numbered_ids ids) observers)) (sort eph_leb fr)).
  { rewrite <- sort_perm, P. assert (G : forall ps, flat_map (fun p => map (seen to_utc name cells p) observers) ps = map (fun po => seen to_utc name cells (fst po) (snd po)) (list_prod ps observers)).
    { induction ps as [|p ps IH]; [reflexivity|]. cbn [flat_map list_prod]. rewrite map_app, map_map, IH. reflexivity. }
    now rewrite G. }
  symmetry in P2. destruct (Permutation_map_inv _ _ P2) as (asked & Ea & Pa). exists (map eph_row (sort eph_leb fr)), asked. split; [exact E|]. split; [now symmetry|].
  assert (Nn : forall po, In po asked -> normal (to_utc (snd (snd po)))).
  { intros [p [c t]] I. apply (Nm c). apply (Permutation_in _ (Permutation_sym Pa)) in I. apply in_prod_iff in I. apply I. }
  split.
  - rewrite Ea, map_map. clear - Nn. induction asked as [|po l IH]; cbn [map]; constructor; [|apply IH; intros; apply Nn; now right]. apply seen_row. apply Nn. now left.
  - pose proof (sort_sorted eph_leb eph_leb_total eph_leb_trans fr) as S. rewrite Ea in *. clear - S Nn. induction asked as [|po l IH]; cbn [map] in *; [constructor|]. inversion S as [|? ? S' F]; subst.
    constructor; [apply IH; [intros; apply Nn; now right|exact S']|]. rewrite Forall_forall in *. intros e I. rewrite map_map in I. apply in_map_iff in I. destruct I as (po' & <- & I'). apply seen_order; [apply Nn; now left|apply Nn; now right|].
    apply (F (seen to_utc name cells (fst po') (snd po'))). apply in_map_iff. exists po'. auto.
Qed.
(* no objects or no observers *)
Theorem C234_errors : forall ephemerides to_utc,
  (forall observers, query_horizons_ephemeris ephemerides to_utc [] observers = Err ValueError) /\ (forall ids, query_horizons_ephemeris ephemerides to_utc ids [] = Err ValueError).
Proof.
  intros ephemerides to_utc. split; [|reflexivity]. intro observers. unfold query_horizons_ephemeris. destruct (iterate_codes str_leb fst observers) as [|g gs]; reflexivity.
Qed.
(* the right ascension and declination are said to be ecliptic *)
Theorem C234_frame_refuted : exists ephemerides name cells ids observers e,
  (forall code, answers (ephemerides code) name (cells code)) /\ query_horizons_ephemeris ephemerides (fun t => t) ids observers = Ok [e] /\
  (exists id t, In id ids /\ In (he_origin e, t) observers /\ he_lon e = cells (he_origin e) id (jd t) "RA" /\ he_lat e = cells (he_origin e) id (jd t) "DEC") /\
  he_lon e <> None /\ he_frame e = "ecliptic".
Proof.
  exists test_ask, (fun id => ("body " ++ id)%string), test_cells, ["A"], [("X05", mkrow 60000 0)]. eexists. split; [intros code id qs; reflexivity|].
  split; [vm_compute; reflexivity|]. split; [exists "A", (mkrow 60000 0); repeat split; cbn; auto|]. split; [discriminate|reflexivity].
Qed.
Example C234_case : exists out, query_horizons_ephemeris test_ask (fun t => t) ["B"; "A"] [("X05", mkrow 60000 0); ("500", mkrow 60000 0)] = Ok out /\
  map (fun e => (he_id e, he_origin e, option_map Qred (he_light e))) out = [("00000", "500", Some (1 # 2)); ("00000", "X05", Some (1 # 2)); ("00001", "500", Some (1 # 2)); ("00001", "X05", Some (1 # 2))]%Q.
Proof. eexists. split; [vm_compute; reflexivity|]. vm_compute. reflexivity. Qed.

Print Assumptions C232_rows.
Print Assumptions C232_order.
Print Assumptions C232_errors.
Print Assumptions C232_case.
Print Assumptions C233_origin_partial.
Print Assumptions C233_origin_refuted.
Print Assumptions C233_case.
Print Assumptions C234_rows_partial.
Print Assumptions C234_errors.
Print Assumptions C234_frame_refuted.
Print Assumptions C234_case.
