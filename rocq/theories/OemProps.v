(* OEM and SPK export properties. *)
From Coq Require Import String QArith Qround Lqa Lia Permutation Sorted.
From Verif Require Import Base ListLemmas TimeModel TimeSpec TimeProofs OemModel OemSpec OemProofs SpkProofs.
Open Scope string_scope.
Open Scope Z_scope.
Open Scope list_scope.

(* C56: names *)
Theorem C56_names :
  (forall c o, adam_to_oem_center c = Ok o -> oem_to_adam_center o = Ok c) /\
  (forall o c, oem_to_adam_center o = Ok c -> adam_to_oem_center c = Ok (upper o)) /\
  (forall f o, adam_to_oem_frame f = Ok o <-> oem_to_adam_frame o = Ok f) /\
  (forall s e, adam_to_oem_center s = Err e \/ oem_to_adam_center s = Err e \/ adam_to_oem_frame s = Err e \/ oem_to_adam_frame s = Err e -> e = ValueError) /\
  (forall c, is_ok (adam_to_oem_center c) = true <->
     In c ["SOLAR_SYSTEM_BARYCENTER"; "MERCURY_BARYCENTER"; "VENUS_BARYCENTER"; "EARTH_MOON_BARYCENTER"; "MARS_BARYCENTER"; "JUPITER_BARYCENTER";
           "SATURN_BARYCENTER"; "URANUS_BARYCENTER"; "NEPTUNE_BARYCENTER"; "SUN"; "MERCURY"; "VENUS"; "EARTH"; "MOON"; "MARS"; "JUPITER";
           "SATURN"; "URANUS"; "NEPTUNE"]) /\
  (forall f, is_ok (adam_to_oem_frame f) = true <-> In f ["equatorial"; "itrf93"]).
Proof.
  split; [exact center_round|]. split; [exact center_round_back|].
  split; [intros f o; split; [apply frame_round|apply frame_round_back]|].
  split; [intros s e [H|[H|[H|H]]]; eapply get_err; exact H|].
  split.
  - intros c. split.
    + intros H. destruct (adam_to_oem_center c) as [o|] eqn:E; [|discriminate]. apply get_In in E.
      apply (in_map fst) in E. exact E.
    + intros H. cbn in H. repeat (destruct H as [H|H]; [subst c; reflexivity|]). destruct H.
  - intros c. split.
    + intros H. destruct (adam_to_oem_frame c) as [o|] eqn:E; [|discriminate]. apply get_In in E.
      apply (in_map fst) in E. exact E.
    + intros H. cbn in H. repeat (destruct H as [H|H]; [subst c; reflexivity|]). destruct H.
Qed.
Print Assumptions C56_names.
Example C56_case : oem_to_adam_center "Earth Barycenter" = Ok "EARTH_MOON_BARYCENTER" /\ adam_to_oem_frame "ecliptic" = Err ValueError.
Proof. split; reflexivity. Qed.

Section Cases.
Definition idr (f : string) (v : Z) := v.
Definition idz (v : Z) := v.
Definition nm (o : string) (r : row) := o.
Definition wr := @orbit_to_oem Z Z idr idr idz idz (fun r => r).
Definition rd := @orbit_from_oem Z Z idz idz nm.
Definition st (orbit : string) (day : Z) (code : string) (v : Z) (c : option Z) : state Z Z := mkstate (Some "o") orbit (mkrow day 0) code v c.
End Cases.

(* C57: a table with mixed origins is written with the first state's centre; all other states come
   back with a centre that is not theirs *)
Theorem C57_centre_refuted : exists os f back s,
  wr "equatorial" os = Ok f /\ rd f = Ok ("equatorial", back) /\ In s os /\ s_code s = "EARTH" /\
  Forall (fun b => s_code b = "SUN") back.
Proof.
  exists [st "a" 1 "SUN" 10 None; st "a" 2 "EARTH" 20 None]. eexists. eexists. exists (st "a" 2 "EARTH" 20 None).
  split; [vm_compute; reflexivity|]. split; [vm_compute; reflexivity|]. split; [cbn; auto|]. split; [reflexivity|].
  repeat constructor.
Qed.
Print Assumptions C57_centre_refuted.
(* if all origins agree the file's centre is theirs *)
Theorem C57_centre_partial : forall V C (rotate : string -> V -> V) (rotate_cov : string -> C -> C) km km_cov stamp frame os code f,
  (forall s, In s os -> s_code s = code) ->
  orbit_to_oem rotate rotate_cov km km_cov stamp frame os = Ok f ->
  oem_to_adam_center (f_center f) = Ok code /\ f_frame f = "EME2000".
Proof.
  intros V C rotate rotate_cov km km_cov stamp frame os code f A H.
  destruct (written _ _ _ _ _ _ _ _ H) as [object [s0 [_ [Hd [_ [Hf [Hc _]]]]]]]. split; auto.
  apply center_round. rewrite <- Hc. f_equal. symmetry. apply A.
  apply (sort_In time_leb). destruct (sort time_leb os); [discriminate|]. injection Hd as ->. cbn. auto.
Qed.
Print Assumptions C57_centre_partial.
Example C57_case : exists f, wr "ecliptic" [st "a" 2 "SUN" 20 None; st "a" 1 "SUN" 10 (Some 4)] = Ok f /\ f_center f = "SUN".
Proof. eexists. split; [vm_compute; reflexivity|reflexivity]. Qed.

(* C111: what is written is read back.  Two states at one epoch share the last covariance. *)
Theorem C111_round_trip_refuted : exists os f back s b,
  wr "equatorial" os = Ok f /\ rd f = Ok ("equatorial", back) /\ In s os /\ In b back /\
  s_time b = s_time s /\ s_vals b = s_vals s /\ s_cov s = Some 5 /\ s_cov b = Some 7 /\
  (forall s', In s' os -> s_vals s' = s_vals s -> s' = s).
Proof.
  exists [st "a" 1 "SUN" 10 (Some 5); st "b" 1 "SUN" 20 (Some 7)]. eexists. eexists.
  exists (st "a" 1 "SUN" 10 (Some 5)), (mkstate (Some "o") "o" (mkrow 1 0) "SUN" 10 (Some 7)).
  split; [vm_compute; reflexivity|]. split; [vm_compute; reflexivity|].
  split; [cbn; auto|]. split; [cbn; auto|]. repeat (split; [reflexivity|]).
  intros s' [<-|[<-|[]]] E; auto. discriminate E.
Qed.
Print Assumptions C111_round_trip_refuted.
(* also after propagation, although the requested times are checked to be unique *)
Theorem C111_propagated_refuted : exists os f back b,
  orbit_to_oem_propagated idr idr idz idz (fun r => r) (fun o t => mkstate (s_object o) (s_orbit o) t (s_code o) (s_vals o) (s_cov o)) "equatorial" os [mkrow 9 0] = Ok f /\
  rd f = Ok ("equatorial", back) /\ In b back /\ s_cov b = Some 7 /\
  ~ (exists o, In o os /\ s_vals o = s_vals b /\ s_cov o = Some 7).
Proof.
  exists [st "a" 1 "SUN" 10 (Some 5); st "b" 1 "SUN" 20 (Some 7)]. eexists. eexists.
  exists (mkstate (Some "o") "o" (mkrow 9 0) "SUN" 10 (Some 7)).
  split; [vm_compute; reflexivity|]. split; [vm_compute; reflexivity|].
  split; [cbn; auto|]. split; [reflexivity|].
  intros [o [[<-|[<-|[]]] [E1 E2]]]; [discriminate E2|discriminate E1].
Qed.
Print Assumptions C111_propagated_refuted.
(* with one object, one origin and distinct epochs every state is read back, in time order, with its
   values and covariance in the equatorial frame *)
Theorem C111_round_trip_partial : forall V C (rotate : string -> V -> V) (rotate_cov : string -> C -> C) km au km_cov au_cov stamp name frame os object code,
  (forall v, au (km v) = v) -> (forall c, au_cov (km_cov c) = c) ->
  os <> [] -> (forall s, In s os -> s_object s = Some object /\ s_code s = code /\ normal (s_time s)) ->
  is_ok (adam_to_oem_center code) = true ->
  NoDup (map (fun s => stamp (s_time s)) os) ->
  exists f l, orbit_to_oem rotate rotate_cov km km_cov stamp frame os = Ok f /\
    Permutation os l /\ StronglySorted (fun a b => instant (s_time a) <= instant (s_time b)) l /\
    orbit_from_oem au au_cov name f =
      Ok ("equatorial", map (fun s => mkstate (Some object) (name object (stamp (s_time s))) (stamp (s_time s)) code
                                        (rotate frame (s_vals s)) (option_map (rotate_cov frame) (s_cov s))) l).
Proof.
  intros V C rotate rotate_cov km au km_cov au_cov stamp name frame os object code U1 U2 N A Hc D.
  destruct (adam_to_oem_center code) as [ce|] eqn:Ec; [|discriminate].
  destruct (write_ok rotate rotate_cov km km_cov stamp frame os object code ce N A Ec) as [f Hf].
  exists f, (sort time_leb os). split; auto. split; [apply sort_perm|].
  assert (IN : forall s, In s (sort time_leb os) -> In s os) by (intros s; apply sort_In). split.
  { pose proof (sort_sorted time_leb time_leb_total time_leb_trans os) as S.
    revert IN S. generalize (sort time_leb os). intros l IN S. induction S as [|a l S IH F]; constructor.
    - apply IH. intros s Hs. apply IN. cbn. auto.
    - rewrite Forall_forall in *. intros b Hb. specialize (F b Hb). change (time_leb a b = true) in F. unfold time_leb in F.
      destruct (A a (IN a (or_introl eq_refl))) as [_ [_ Na]]. destruct (A b (IN b (or_intror Hb))) as [_ [_ Nb]].
      unfold instant, normal, DAY in *. lia. }
  destruct (written _ _ _ _ _ _ _ _ Hf) as [ob [s0 [HO [Hd [Ho [Hfr [Hce [Hs Hcv]]]]]]]].
  assert (I0 : In s0 os). { apply IN. destruct (sort time_leb os); [discriminate|]. injection Hd as ->. cbn. auto. }
  assert (Eo : ob = object). { pose proof (HO s0 I0). destruct (A s0 I0) as [X _]. congruence. }
  destruct (A s0 I0) as [_ [Es0 _]]. rewrite Es0 in Hce.
  unfold orbit_from_oem. rewrite Hfr. assert (F : oem_to_adam_frame "EME2000" = Ok "equatorial") by reflexivity. rewrite F. cbn [bind].
  rewrite (center_round _ _ Hce). cbn [bind]. f_equal. f_equal. rewrite Hs, map_map. apply map_ext_in. intros s Hin. cbn [fst snd].
  rewrite Ho, Eo, U1, Hcv.
  rewrite (own_cov au_cov stamp (fun c => km_cov (rotate_cov frame c))).
  - f_equal. destruct (s_cov s); cbn; [rewrite U2|]; auto.
  - eapply Permutation_NoDup; [|exact D]. apply Permutation_map, sort_perm.
  - auto.
Qed.
Print Assumptions C111_round_trip_partial.
Example C111_case : exists f, wr "ecliptic" [st "a" 2 "SUN" 20 (Some 3); st "a" 1 "SUN" 10 None] = Ok f /\
  rd f = Ok ("equatorial", [mkstate (Some "o") "o" (mkrow 1 0) "SUN" 10 None; mkstate (Some "o") "o" (mkrow 2 0) "SUN" 20 (Some 3)]).
Proof. eexists. split; vm_compute; reflexivity. Qed.

(* the span in the header is that of the states *)
Theorem C111_span_partial : forall V C (rotate : string -> V -> V) (rotate_cov : string -> C -> C) km km_cov stamp frame (os : list (state V C)) f,
  (forall s, In s os -> normal (s_time s)) -> orbit_to_oem rotate rotate_cov km km_cov stamp frame os = Ok f ->
  exists a b, In a os /\ In b os /\ f_start f = stamp (s_time a) /\ f_stop f = stamp (s_time b) /\
    forall s, In s os -> (instant (s_time a) <= instant (s_time s) <= instant (s_time b))%Z.
Proof.
  intros V C rotate rotate_cov km km_cov stamp frame os f N H. unfold orbit_to_oem in H.
  destruct (negb _); [discriminate|]. destruct (map s_object os) as [|[object|] r]; try discriminate.
  rewrite sort_turn in H. set (ss := sort time_leb os) in *.
  assert (M : map s_time (map (turn rotate rotate_cov frame) ss) = map s_time ss) by (rewrite map_map; reflexivity). rewrite M in H.
  destruct (map (turn rotate rotate_cov frame) ss) as [|s0 s1] eqn:E; [discriminate|].
  assert (NE : map s_time ss <> []) by (intro Z; rewrite Z in M; discriminate).
  assert (FN : Forall normal (map s_time ss)). { apply Forall_forall. intros x Hx. apply in_map_iff in Hx as (s & <- & Hs). apply N, (sort_In time_leb), Hs. }
  destruct (ts_min_spec (mkts "" (map s_time ss)) NE FN) as (lo & LO & IL & BL). destruct (ts_max_spec (mkts "" (map s_time ss)) NE FN) as (hi & HI & IH & BH).
  rewrite LO, HI in H. destruct (adam_to_oem_frame "equatorial"); [|discriminate]. cbn [bind] in H. destruct (adam_to_oem_center (s_code s0)); [|discriminate]. cbn [bind] in H. injection H as <-. cbn [f_start f_stop].
  cbn [rows] in IL, IH, BL, BH. apply in_map_iff in IL as (u & <- & Ha). apply in_map_iff in IH as (w & <- & Hb). exists u, w.
  split; [apply (sort_In time_leb), Ha|]. split; [apply (sort_In time_leb), Hb|]. split; [reflexivity|]. split; [reflexivity|].
  intros s Hs. apply (sort_In time_leb) in Hs. split; [apply BL|apply BH]; apply in_map; exact Hs.
Qed.
Print Assumptions C111_span_partial.
(* C112: two different orbits of one object are written as one trajectory *)
Theorem C112_one_orbit_refuted : exists os f,
  wr "equatorial" os = Ok f /\ (exists a b, In a os /\ In b os /\ s_orbit a <> s_orbit b) /\
  f_states f = [(mkrow 1 0, 10); (mkrow 2 0, -10); (mkrow 3 0, 30)] /\
  map s_orbit (sort time_leb os) = ["a"; "b"; "a"].
Proof.
  exists [st "a" 1 "SUN" 10 None; st "a" 3 "SUN" 30 None; st "b" 2 "SUN" (-10) None]. eexists.
  split; [vm_compute; reflexivity|]. split; [|split; reflexivity].
  exists (st "a" 1 "SUN" 10 None), (st "b" 2 "SUN" (-10) None). cbn. split; auto. split; auto. discriminate.
Qed.
Print Assumptions C112_one_orbit_refuted.
(* a table naming several objects, no object, or with a missing object id is rejected *)
Theorem C112_one_object_partial : forall V C (rotate : string -> V -> V) (rotate_cov : string -> C -> C) km km_cov stamp frame (os : list (state V C)),
  ~ (os <> [] /\ exists object, forall s, In s os -> s_object s = Some object) ->
  orbit_to_oem rotate rotate_cov km km_cov stamp frame os = Err AssertionError.
Proof.
  intros V C rotate rotate_cov km km_cov stamp frame os N. unfold orbit_to_oem.
  destruct (List.length (uniq opt_eqb (map s_object os)) =? 1)%nat eqn:E; cbn [negb]; auto.
  apply Nat.eqb_eq in E. destruct (uniq_one _ E) as [x [Hx U]].
  destruct (map s_object os) as [|[object|] r] eqn:E2; auto. exfalso. apply N. split; [intros ->; discriminate|].
  exists object. intros s Hs. rewrite (U (s_object s)); [symmetry; apply U; cbn; auto|]. rewrite <- E2. apply in_map. auto.
Qed.
Print Assumptions C112_one_object_partial.
(* a list of times with repetitions is rejected, and so is a table with several objects *)
Theorem C112_propagated_partial : forall V C (rotate : string -> V -> V) (rotate_cov : string -> C -> C) km km_cov stamp prop frame (os : list (state V C)) ts f,
  orbit_to_oem_propagated rotate rotate_cov km km_cov stamp prop frame os ts = Ok f ->
  NoDup ts /\ exists object, forall s, In s os -> s_object s = object.
Proof.
  intros V C rotate rotate_cov km km_cov stamp prop frame os ts f H. unfold orbit_to_oem_propagated in H.
  destruct (List.length (uniq opt_eqb (map s_object os)) =? 1)%nat eqn:E; cbn [negb] in H; [|discriminate].
  destruct (List.length (uniq row_eqb ts) =? List.length ts)%nat eqn:E2; cbn [negb] in H; [|discriminate].
  apply Nat.eqb_eq in E, E2. split.
  - apply (@NoDup_incl_NoDup _ (uniq row_eqb ts)); [apply (uniq_NoDup row_eqb row_eqb_eq)|lia|]. intros x Hx. exact (proj1 (uniq_In row_eqb row_eqb_eq ts x) Hx).
  - destruct (uniq_one _ E) as [x [_ U]]. exists x. intros s Hs. apply U, in_map, Hs.
Qed.
Print Assumptions C112_propagated_partial.
Example C112_case : wr "equatorial" [st "a" 1 "SUN" 10 None; mkstate (Some "p") "b" (mkrow 2 0) "SUN" 1 None] = Err AssertionError /\
  wr "equatorial" [] = Err AssertionError.
Proof. split; reflexivity. Qed.

Open Scope Q_scope.
(* C58: the windows tile the segment, and the record SPICE picks for a time is a window containing it *)
Theorem C58_tiling : forall times w lo hi ws, 0 < w -> segment times w = Ok (lo, hi, ws) ->
  In lo times /\ In hi times /\ (forall t, In t times -> lo <= t /\ t <= hi) /\ tiles lo hi ws /\
  forall t, lo <= t -> t <= hi -> exists a b,
    nth_error ws (Z.to_nat (record_for lo w (Z.of_nat (List.length ws)) t)) = Some (a, b) /\ a <= t /\ t <= b.
Proof.
  intros times w lo hi ws W H. destruct (segment_ok _ _ _ _ _ W H) as [I1 [I2 [B [L E]]]].
  split; auto. split; auto. split; auto. destruct (windows_tile lo hi w _ W L eq_refl) as [_ T]. rewrite <- E in T. split; auto.
  intros t T1 T2. destruct (record_covers lo hi w _ t W L eq_refl T1 T2) as [k [Hk [_ K]]].
  exists (window_start lo w k), (window_end lo hi w k). split; auto.
  rewrite E at 2. rewrite map_length, seq_length, <- E in *. exact Hk.
Qed.
Print Assumptions C58_tiling.
Example C58_case : segment [0; 24; 48; 72] 32 = Ok (0, 72, [(0 + 0 * 32, 0 + 0 * 32 + 32); (0 + 1 * 32, 0 + 1 * 32 + 32); (0 + 2 * 32, 72)]) /\
  record_for 0 32 3 70 = 2%Z.
Proof. split; reflexivity. Qed.

(* C113: whenever the span is not a multiple of the window, motion at constant speed is fitted exactly
   in the last window but read back wrong at its end *)
Theorem C113_evaluated_refuted : forall start stop w, 0 < w -> start < stop ->
  (forall m : Z, ~ stop - start == inject_Z m * w) ->
  exists k c, (k < Z.to_nat (num_windows start stop w))%nat /\
    (forall t, chebyshev c (scaled (window_start start w k) (window_end start stop w k) t) == t) /\
    ~ chebyshev c (read_scaled start w k stop) == stop.
Proof.
  intros lo hi w W L N. destruct (last_partial lo hi w W L N) as [k [K [K1 K2]]].
  destruct (win_end lo hi w k) as [[_ H1]|[H1 _]]; [lra|].
  set (a := window_start lo w k) in *.
  exists k, [(hi + a) / 2; (hi - a) / 2]. split; auto.
  assert (V : forall s, chebyshev [(hi + a) / 2; (hi - a) / 2] s == (hi + a) / 2 + (hi - a) / 2 * s).
  { intros s. unfold chebyshev. cbn [cheb_eval]. ring. }
  assert (X : forall t, chebyshev [(hi + a) / 2; (hi - a) / 2] (scaled a (window_end lo hi w k) t) == t).
  { intros t. rewrite V. unfold scaled. rewrite H1. field. lra. }
  split; auto. intros E. pose proof (X hi) as Xh. rewrite V in E, Xh.
  apply (scaled_unread lo hi w k hi W K1 K2 K1). fold a.
  assert (Y : (hi - a) / 2 * scaled a (window_end lo hi w k) hi == (hi - a) / 2 * read_scaled lo w k hi) by lra.
  apply (Qmult_inj_l _ _ ((hi - a) / 2)); [|exact Y]. intros Z. assert (hi - a == 0) by (setoid_replace (hi - a) with (2 * ((hi - a) / 2)) by field; lra). lra.
Qed.
Print Assumptions C113_evaluated_refuted.
(* a window of full length is evaluated where it was fitted; so all are if the window divides the span *)
Theorem C113_evaluated_partial : forall start stop w k c t, 0 < w ->
  (window_start start w k + w <= stop \/ exists m, stop - start == inject_Z m * w /\ (k < Z.to_nat (num_windows start stop w))%nat) ->
  scaled (window_start start w k) (window_end start stop w k) t == read_scaled start w k t /\
  chebyshev c (scaled (window_start start w k) (window_end start stop w k) t) == chebyshev c (read_scaled start w k t).
Proof.
  intros lo hi w k c t W H.
  assert (F : window_start lo w k + w <= hi). { destruct H as [H|[m [H1 H2]]]; auto. eapply all_full; eauto. }
  pose proof (scaled_read lo hi w k t W F) as E. split; auto.
  clear H. assert (G : forall c t0 t1 t0' t1' s s', t0 == t0' -> t1 == t1' -> s == s' -> cheb_eval t0 t1 s c == cheb_eval t0' t1' s' c).
  { clear. intros d. induction d as [|c0 c' IH]; intros t0 t1 t0' t1' s s' E0 E1 Es; cbn; [reflexivity|]. rewrite (IH t1 (2 * s * t1 - t0) t1' (2 * s' * t1' - t0') s s'); auto; rewrite E0, ?E1, ?Es; reflexivity. }
  unfold chebyshev. apply G; auto; reflexivity.
Qed.
Print Assumptions C113_evaluated_partial.
Example C113_case : window_start 0 32 0 + 32 <= 48 /\ ~ (exists m, 48 - 0 == inject_Z m * 32).
Proof. split; [unfold window_start, Qle; cbn; lia|]. intros [m H]. unfold Qeq, inject_Z in H. cbn in H. lia. Qed.

(* C114: the kernel covers the requested interval.  It stops at the last whole step. *)
Theorem C114_coverage_refuted : exists start stop step w times lo hi ws,
  0 < step /\ 0 < w /\ start < stop /\ sample_times start stop step = Ok times /\ segment times w = Ok (lo, hi, ws) /\ hi < stop.
Proof.
  exists 0, (29 # 10), (1 # 1), 32. eexists. eexists. eexists. eexists.
  split; [lra|]. split; [lra|]. split; [lra|]. split; [vm_compute; reflexivity|]. split; [vm_compute; reflexivity|]. reflexivity.
Qed.
Print Assumptions C114_coverage_refuted.
Theorem C114_short_refuted : forall start stop step w, 0 < step -> 0 < w -> start <= stop -> stop - start < step ->
  exists times, sample_times start stop step = Ok times /\ segment times w = Err IndexError.
Proof.
  intros start stop step w S W L B. destruct (samples_ok start stop step S L) as [Pm E]. cbv zeta in *.
  destruct (floor_spec (stop - start) step S) as [F1 F2]. set (m := Qfloor ((stop - start) / step)) in *.
  assert (M : m = 0%Z).
  { destruct (Z_lt_le_dec 0 m) as [X|X]; [exfalso|lia]. assert (Y : (1 <= m)%Z) by lia. pose proof (inj_le 1 m step S Y) as Z. change (inject_Z 1) with 1 in Z. lra. }
  rewrite M in E. eexists. split; [exact E|]. change (Z.to_nat (0 + 1)) with 1%nat. cbn [seq map]. set (t := start + inject_Z (Z.of_nat 0) * step).
  unfold segment, num_windows. cbn [fold_left]. assert (Q : Qceiling ((t - t) / w) = 0%Z).
  { change 0%Z with (Qceiling (inject_Z 0)). apply Qceiling_comp. change (inject_Z 0) with 0. field. lra. }
  rewrite Q. reflexivity.
Qed.
Print Assumptions C114_short_refuted.
Theorem C114_coverage_partial : forall start stop step w, 0 < step -> 0 < w -> step <= stop - start ->
  exists times lo hi ws, sample_times start stop step = Ok times /\ segment times w = Ok (lo, hi, ws) /\
    lo == start /\ stop - step < hi /\ hi <= stop /\ (forall m : Z, stop - start == inject_Z m * step -> hi == stop).
Proof.
  intros start stop step w S W L. destruct (kernel_span start stop step w S W L) as [times [lo [hi [ws [H1 [H2 [H3 H4]]]]]]].
  exists times, lo, hi, ws. split; auto. split; auto. split; auto.
  destruct (floor_spec (stop - start) step S) as [F1 F2]. rewrite inj_S in F2. split; [lra|]. split; [lra|].
  intros m E. assert (Q : Qfloor ((stop - start) / step) = m).
  { rewrite <- (Qfloor_Z m). apply Qfloor_comp. rewrite E. field. lra. }
  rewrite Q in H4. lra.
Qed.
Print Assumptions C114_coverage_partial.
Example C114_case : 1 <= 3 - 0 /\ sample_times 0 3 1 = Ok [0 + 0 * 1; 0 + 1 * 1; 0 + 2 * 1; 0 + 3 * 1].
Proof. split; [lra|reflexivity]. Qed.
