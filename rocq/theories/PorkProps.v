(* Properties of the transfer grid. *)
From Coq Require Import Reals Lra Psatz.
From Coq Require Import List String Bool ZArith Lia Permutation Sorted.
From Verif Require Import Base ListLemmas SchedModel TimeModel TimeSpec TimeScaleProofs SphModel SphSpec KepModel KepSpec KepElem FrameProofs UnivModel UnivSpec LightModel FrameModel
  LambertModel LambertGeom LambertEnd LambertProps PorkModel PorkSpec PorkProofs PorkMore PorkPlot PorkEnd.
Import ListNotations.
Open Scope string_scope.
Open Scope list_scope.
Open Scope R_scope.
Local Notation instant := PorkSpec.instant.

(* C184: the rows of the grid *)
Theorem C184_rows : forall mu m pick mp deps arrs o pro n tol s, mu o = Ok m -> generate mu pick mp deps arrs o pro n tol = Ok s ->
  Permutation (map (fun x => (x_dep x, x_arr x)) (s_rows s)) (filter before (list_prod (t_rows deps) (t_rows arrs))).
Proof. intros mu m pick mp deps arrs o pro n tol s M. exact (table_rows mu o m pro n tol M pick mp deps arrs s). Qed.
Lemma origin_all : forall l c, origin_of l = Some c -> all_from c l.
Proof.
  intros l c H. unfold origin_of in H. pose proof (uniq_In String.eqb String.eqb_eq (map b_origin l)) as IN. destruct (uniq String.eqb (map b_origin l)) as [|y [|]]; try discriminate.
  injection H as ->. split.
  - intros ->. destruct (IN c) as [I _]. destruct I. left. reflexivity.
  - apply Forall_forall. intros b B. apply (in_map b_origin) in B. apply IN in B. destruct B as [B|[]]. auto.
Qed.
Theorem C184_accepted : forall mu m pick mp deps arrs o pro n tol, mu o = Ok m ->
  (exists s, generate mu pick mp deps arrs o pro n tol = Ok s) <->
  t_frame deps = t_frame arrs /\ exists c, all_from c (t_rows deps) /\ all_from c (t_rows arrs).
Proof.
  intros mu m pick mp deps arrs o pro n tol M. split.
  - intros [s H]. destruct (generate_rows mu o m pro n tol M pick mp deps arrs s H) as (_ & _ & _ & F & c & A & B). split; [exact F|]. exists c. split; apply origin_all; assumption.
  - intros (F & c & A & B). exact (generate_succeeds mu o m pro n tol M pick mp deps arrs c F A B).
Qed.
Example C184_case : forall m, exists s, generate (gm m) (fun _ => 1%nat) 2 launch many "SUN" true 35 (/ 10 ^ 10) = Ok s /\ List.length (s_rows s) = 101%nat.
Proof.
  intro m. destruct (generate_succeeds (gm m) "SUN" m true 35 (/ 10 ^ 10) eq_refl (fun _ => 1%nat) 2 launch many "SUN" eq_refl launch_sun many_sun) as [s H]. exists s. split; [exact H|].
  destruct (generate_rows (gm m) "SUN" m true 35 (/ 10 ^ 10) eq_refl _ _ _ _ _ H) as (P & _). apply Permutation_length in P. rewrite P, map_length, many_pairs, map_length. unfold many. cbn [t_rows]. now rewrite map_length, seq_length.
Qed.

(* C185: their order *)
Theorem C185_order_partial : forall mu m pick mp deps arrs o pro n tol s, mu o = Ok m -> generate mu pick mp deps arrs o pro n tol = Ok s -> (mp <= 1)%Z ->
  Forall (fun b => proper (b_time b)) (t_rows deps) -> Forall (fun b => proper (b_time b)) (t_rows arrs) ->
  StronglySorted (fun x y => instant (b_time (x_arr x)) <= instant (b_time (x_arr y)))%Z (s_rows s) /\
  (NoDup (map (fun b => instant (b_time b)) (t_rows arrs)) -> StronglySorted in_order (s_rows s)).
Proof. intros mu m pick mp deps arrs o pro n tol s M. exact (serial_order mu o m pro n tol M pick mp deps arrs s). Qed.
Theorem C185_order_refuted : forall m, exists pick deps arrs s x y r, generate (gm m) pick 2 deps arrs "SUN" true 35 (/ 10 ^ 10) = Ok s /\
  Forall (fun b => proper (b_time b)) (t_rows deps) /\ Forall (fun b => proper (b_time b)) (t_rows arrs) /\
  NoDup (map (fun b => instant (b_time b)) (t_rows arrs)) /\ s_rows s = x :: y :: r /\ ~ in_order x y /\
  (instant (b_time (x_arr y)) < instant (b_time (x_arr x)))%Z.
Proof.
  intro m. destruct (many_swapped m) as (s & H & x & y & r & E & X & Y). exists (fun _ => 1%nat), launch, many, s, x, y, r. split; [exact H|]. split; [|split; [|split]].
  - repeat constructor; cbn; lia.
  - apply Forall_forall. intros b B. apply in_map_iff in B. destruct B as (j & <- & _). split; cbn; lia.
  - unfold many. cbn [t_rows]. rewrite map_map. apply FinFun.Injective_map_NoDup; [|apply seq_NoDup]. intros i j IJ. unfold instant, body in IJ. cbn [b_time days nanos] in IJ. lia.
  - split; [exact E|]. unfold in_order, instant. rewrite X, Y. cbn [days nanos]. lia.
Qed.
Example C185_case : forall m, exists s, generate (gm m) (fun _ => 0%nat) 1 launch many "SUN" true 35 (/ 10 ^ 10) = Ok s /\ (1 < List.length (s_rows s))%nat.
Proof.
  intro m. destruct (generate_succeeds (gm m) "SUN" m true 35 (/ 10 ^ 10) eq_refl (fun _ => 0%nat) 1 launch many "SUN" eq_refl launch_sun many_sun) as [s H]. exists s. split; [exact H|].
  destruct (generate_rows (gm m) "SUN" m true 35 (/ 10 ^ 10) eq_refl _ _ _ _ _ H) as (P & _). apply Permutation_length in P. rewrite P, map_length, many_pairs, map_length. unfold many. cbn [t_rows]. rewrite map_length, seq_length. lia.
Qed.

(* C186: each row is the transfer of its own pair *)
Theorem C186_transfer : forall mu m pick mp deps arrs o pro n tol s x, mu o = Ok m -> generate mu pick mp deps arrs o pro n tol = Ok s -> In x (s_rows s) ->
  x_vels x = izzo_lambert (b_pos (x_dep x)) (b_pos (x_arr x)) (IZR (instant (b_time (x_arr x)) - instant (b_time (x_dep x))) / 86400000000000) m (mkopt 0 pro true n tol tol) /\
  forall v1 v2, x_vels x = Some (v1, v2) -> dot (b_pos (x_dep x)) (b_pos (x_arr x)) <> - (norm (b_pos (x_dep x)) * norm (b_pos (x_arr x))) ->
  momentum (row_of (b_pos (x_arr x)) v2) = momentum (row_of (b_pos (x_dep x)) v1) /\
  energy m (row_of (b_pos (x_arr x)) v2) = energy m (row_of (b_pos (x_dep x)) v1) /\
  eccentricity m (row_of (b_pos (x_arr x)) v2) = eccentricity m (row_of (b_pos (x_dep x)) v1).
Proof.
  intros mu m pick mp deps arrs o pro n tol s x M H I. split.
  - exact (proj1 (solved_row mu o m pro n tol M pick mp deps arrs s x H I)).
  - intros v1 v2 V D. exact (conic_row mu o m pro n tol M pick mp deps arrs s x v1 v2 H I V D).
Qed.
(* a departure, a reachable arrival and an arrival at the place of departure *)
Definition stops : orbits := mkorbits "ecliptic" "tdb" [body 1 (0, 1, 0); body 2 (1, 0, 0)].
Lemma stops_sun : all_from "SUN" (t_rows stops).
Proof. apply all_sun; [discriminate|]. intros b [<-|[<-|[]]]; reflexivity. Qed.
Lemma stops_rows : forall m pick mp s, generate (gm m) pick mp launch stops "SUN" true 35 (/ 10 ^ 10) = Ok s ->
  Permutation (s_rows s) [row_for "SUN" m true 35 (/ 10 ^ 10) (body 0 (1, 0, 0), body 1 (0, 1, 0)); row_for "SUN" m true 35 (/ 10 ^ 10) (body 0 (1, 0, 0), body 2 (1, 0, 0))].
Proof.
  intros m pick mp s H. destruct (generate_rows (gm m) "SUN" m true 35 (/ 10 ^ 10) eq_refl _ _ _ _ _ H) as (P & _).
  change (sort time_leb (t_rows launch)) with [body 0 (1, 0, 0)] in P. change (sort time_leb (t_rows stops)) with (t_rows stops) in P. rewrite one_departure in P; [exact P|].
  repeat constructor; apply body_after; lia.
Qed.
Lemma stops_some : exists m s x v, generate (gm m) (fun _ => 0%nat) 1 launch stops "SUN" true 35 (/ 10 ^ 10) = Ok s /\ 0 < m /\ In x (s_rows s) /\ x_vels x = Some v /\
  b_pos (x_dep x) = (1, 0, 0) /\ b_pos (x_arr x) = (0, 1, 0) /\ exists y, In y (s_rows s) /\ b_pos (x_dep y) = b_pos (x_arr y).
Proof.
  destruct one_day as (m & v1 & v2 & MP & V). destruct (generate_succeeds (gm m) "SUN" m true 35 (/ 10 ^ 10) eq_refl (fun _ => 0%nat) 1 launch stops "SUN" eq_refl launch_sun stops_sun) as [s H].
  pose proof (stops_rows _ _ _ _ H) as P. apply Permutation_sym in P. exists m, s. eexists. exists (v1, v2). split; [exact H|]. split; [exact MP|]. split; [eapply Permutation_in; [exact P|left; reflexivity]|].
  split; [|split; [reflexivity|split; [reflexivity|]]].
  - cbn. unfold flight_time, mjdR. cbn [b_time body days nanos]. replace (1 + 0 / IZR DAY - (0 + 0 / IZR DAY)) with 1; [exact V|]. unfold Rdiv. ring.
  - eexists. split; [eapply Permutation_in; [exact P|right; left; reflexivity]|reflexivity].
Qed.
Example C186_case : exists m s x v, generate (gm m) (fun _ => 0%nat) 1 launch stops "SUN" true 35 (/ 10 ^ 10) = Ok s /\ In x (s_rows s) /\ x_vels x = Some v /\
  dot (b_pos (x_dep x)) (b_pos (x_arr x)) <> - (norm (b_pos (x_dep x)) * norm (b_pos (x_arr x))).
Proof. destruct stops_some as (m & s & x & v & H & _ & I & V & D & A & _). exists m, s, x, v. split; [exact H|]. split; [exact I|]. split; [exact V|]. rewrite D, A. exact (proj2 quarter). Qed.

(* C187: tables in different time scales *)
Definition early : orbits := mkorbits "ecliptic" "tai" [mkorb "a" (mkrow 0 0) (1, 0, 0) (0, 0, 0) "SUN"].
Definition late : orbits := mkorbits "ecliptic" "tt" [mkorb "b" (mkrow 0 10000000000) (0, 1, 0) (0, 0, 0) "SUN"].
Theorem C187_scales_refuted : forall E m, exists deps arrs s x t, generate (gm m) (fun _ => 0%nat) 1 deps arrs "SUN" true 35 (/ 10 ^ 10) = Ok s /\ In x (s_rows s) /\
  t_scale deps = "tai" /\ t_scale arrs = "tt" /\ rescale_row E (t_scale deps) (t_scale arrs) (b_time (x_dep x)) = Ok t /\ (instant (b_time (x_arr x)) < instant t)%Z.
Proof.
  intros E m. exists early, late.
  assert (A1 : all_from "SUN" (t_rows early)) by (apply all_sun; [discriminate|]; intros b [<-|[]]; reflexivity).
  assert (A2 : all_from "SUN" (t_rows late)) by (apply all_sun; [discriminate|]; intros b [<-|[]]; reflexivity).
  destruct (generate_succeeds (gm m) "SUN" m true 35 (/ 10 ^ 10) eq_refl (fun _ => 0%nat) 1 early late "SUN" eq_refl A1 A2) as [s H]. exists s.
  pose proof (C184_rows (gm m) m (fun _ => 0%nat) 1%Z early late "SUN" true 35%nat (/ 10 ^ 10) s eq_refl H) as P. cbn in P.
  destruct (s_rows s) as [|x r] eqn:ES; [apply Permutation_nil_cons in P; destruct P|]. exists x.
  assert (XD : x_dep x = hd x.(x_dep) (t_rows early) /\ x_arr x = hd x.(x_arr) (t_rows late)).
  { cbn. assert (I : In (x_dep x, x_arr x) (map (fun x => (x_dep x, x_arr x)) (x :: r))) by (left; reflexivity). eapply Permutation_in in I; [|exact P]. destruct I as [I|[]]. injection I as -> ->. auto. }
  destruct XD as [XD XA]. cbn in XD, XA. destruct (tai_tt_row E (mkrow 0 0)) as (t & T & (TI & _) & _); [unfold normal; cbn; lia|unfold sane; cbn; lia|].
  exists t. split; [exact H|]. split; [left; reflexivity|]. split; [reflexivity|]. split; [reflexivity|]. rewrite XD, XA. cbn [b_time t_scale early late]. split; [exact T|].
  change (instant t) with (TimeSpec.instant t). rewrite TI. cbn. lia.
Qed.
Theorem C187_scales_partial : forall E mu m pick mp deps arrs o pro n tol s x, mu o = Ok m -> generate mu pick mp deps arrs o pro n tol = Ok s -> In x (s_rows s) ->
  t_scale deps = "tai" -> t_scale arrs = "tai" -> normal (b_time (x_dep x)) -> sane (b_time (x_dep x)) -> normal (b_time (x_arr x)) -> sane (b_time (x_arr x)) ->
  exists d a, rescale_row E (t_scale deps) "tt" (b_time (x_dep x)) = Ok d /\ rescale_row E (t_scale arrs) "tt" (b_time (x_arr x)) = Ok a /\
  (instant d < instant a)%Z /\ time_of_flight x = IZR (instant a - instant d) / 86400000000000.
Proof.
  intros E mu m pick mp deps arrs o pro n tol s x M H I SD SA ND PD NA PA. rewrite SD, SA.
  destruct (tai_tt_row E _ ND PD) as (d & D & (DI & _) & _). destruct (tai_tt_row E _ NA PA) as (a & A & (AI & _) & _). exists d, a. split; [exact D|]. split; [exact A|].
  change (instant d) with (TimeSpec.instant d). change (instant a) with (TimeSpec.instant a). rewrite DI, AI.
  destruct (row_in mu o m pro n tol M _ _ _ _ _ _ H I) as (d' & a' & _ & _ & -> & L). cbn [x_dep x_arr row_for fst snd] in *. rewrite mjdR_lt in L. apply Z.ltb_lt in L.
  unfold time_of_flight, flight_time, mjdR, DAY, TimeSpec.instant. unfold instant in L. cbn [x_dep x_arr row_for fst snd]. split; [lia|].
  replace (days (b_time a') * 86400000000000 + nanos (b_time a') + 32184000000 - (days (b_time d') * 86400000000000 + nanos (b_time d') + 32184000000))%Z
    with (days (b_time a') * 86400000000000 + nanos (b_time a') - (days (b_time d') * 86400000000000 + nanos (b_time d')))%Z by ring.
  rewrite minus_IZR, !plus_IZR, !mult_IZR. field.
Qed.

(* C188: the origin of the transfer *)
Theorem C188_origin_refuted : forall mu m pick mp deps arrs o c pro n tol, mu o = Ok m -> t_frame deps = t_frame arrs -> all_from c (t_rows deps) -> all_from c (t_rows arrs) -> c <> o ->
  exists s, generate mu pick mp deps arrs o pro n tol = Ok s /\ forall x, In x (s_rows s) -> In (x_dep x) (t_rows deps) /\ b_origin (x_dep x) = c /\ b_origin (x_arr x) = c /\ x_origin x = o /\
  x_vels x = izzo_lambert (b_pos (x_dep x)) (b_pos (x_arr x)) (time_of_flight x) m (mkopt 0 pro true n tol tol).
Proof.
  intros mu m pick mp deps arrs o c pro n tol M F A B N. destruct (generate_succeeds mu o m pro n tol M pick mp deps arrs c F A B) as [s H]. exists s. split; [exact H|]. intros x X.
  destruct (row_in mu o m pro n tol M _ _ _ _ _ _ H X) as (d & a & D & AA & -> & _). destruct A as [_ A], B as [_ B]. rewrite Forall_forall in A, B. cbn. auto 6.
Qed.
Example C188_case : exists s x, generate (fun o => if String.eqb o "EARTH" then Ok 1 else Err ValueError) (fun _ => 0%nat) 1 launch many "EARTH" true 35 (/ 10 ^ 10) = Ok s /\ In x (s_rows s) /\
  b_origin (x_dep x) = "SUN" /\ x_origin x = "EARTH".
Proof.
  set (mu := fun o : string => if String.eqb o "EARTH" then Ok 1 else Err ValueError).
  destruct (C188_origin_refuted mu 1 (fun _ => 0%nat) 1%Z launch many "EARTH" "SUN" true 35%nat (/ 10 ^ 10) eq_refl eq_refl launch_sun many_sun ltac:(discriminate)) as (s & H & R). exists s.
  destruct (generate_rows mu "EARTH" 1 true 35 (/ 10 ^ 10) eq_refl _ _ _ _ _ H) as (P & _). rewrite many_pairs in P. destruct (s_rows s) as [|x r] eqn:ES.
  - apply Permutation_length in P. rewrite !map_length in P. unfold many in P. cbn [t_rows] in P. rewrite map_length, seq_length in P. discriminate.
  - exists x. split; [exact H|]. split; [left; reflexivity|]. destruct (R x (or_introl eq_refl)) as (_ & A & _ & B & _). auto.
Qed.
Theorem C188_origin_partial : forall mu m pick mp deps arrs o pro n tol s x, mu o = Ok m -> all_from o (t_rows deps) -> generate mu pick mp deps arrs o pro n tol = Ok s -> In x (s_rows s) ->
  x_origin x = b_origin (x_dep x) /\ x_origin x = b_origin (x_arr x).
Proof.
  intros mu m pick mp deps arrs o pro n tol s x M [N A] H X. destruct (proj1 (C184_accepted mu m pick mp deps arrs o pro n tol M) (ex_intro _ s H)) as (_ & c & [_ C] & [_ B]).
  destruct (row_in mu o m pro n tol M _ _ _ _ _ _ H X) as (d & a & D & AA & -> & _). rewrite Forall_forall in A, B, C. cbn. rewrite (B a AA), (A d D), <- (C d D), (A d D). auto.
Qed.

(* C189: speeds at infinity *)
Theorem C189_speeds : forall x,
  (c3_departure x = option_map (fun v => v ^ 2) (vinf_departure x)) /\ (c3_arrival x = option_map (fun v => v ^ 2) (vinf_arrival x)) /\
  (forall v1 v2, x_vels x = Some (v1, v2) -> exists a b, vinf_departure x = Some a /\ vinf_arrival x = Some b /\ 0 <= a /\ 0 <= b /\
     (a = 0 <-> v1 = b_vel (x_dep x)) /\ (b = 0 <-> v2 = b_vel (x_arr x))) /\
  (x_vels x = None -> c3_departure x = None /\ c3_arrival x = None /\ vinf_departure x = None /\ vinf_arrival x = None).
Proof.
  intro x. unfold c3_departure, c3_arrival, vinf_departure, vinf_arrival. split; [destruct (x_vels x); reflexivity|]. split; [destruct (x_vels x); reflexivity|]. split.
  - intros v1 v2 ->. cbn. do 2 eexists. split; [reflexivity|]. split; [reflexivity|]. split; [apply norm_nn|]. split; [apply norm_nn|].
    assert (Z : forall u w, norm (vminus u w) = 0 <-> u = w).
    { intros [[a b] c] [[d e] f]. split.
      - intro H. apply norm_0_vec in H. cbn in H. injection H as H1 H2 H3. f_equal; [f_equal|]; lra.
      - intros E. injection E as -> -> ->. unfold norm. replace (dot _ _) with 0; [apply sqrt_0|]. cbn. ring. }
    split; apply Z.
  - intros ->. repeat split.
Qed.
Theorem C189_flight_time : forall mu m pick mp deps arrs o pro n tol s x, mu o = Ok m -> generate mu pick mp deps arrs o pro n tol = Ok s -> In x (s_rows s) ->
  0 < time_of_flight x /\ time_of_flight x * 86400000000000 = IZR (instant (b_time (x_arr x)) - instant (b_time (x_dep x))).
Proof.
  intros mu m pick mp deps arrs o pro n tol s x M H I. destruct (row_in mu o m pro n tol M _ _ _ _ _ _ H I) as (d & a & _ & _ & -> & L). apply rlt_t in L.
  unfold time_of_flight, flight_time. cbn [x_dep x_arr row_for fst snd]. split; [lra|]. unfold mjdR, instant, DAY. rewrite minus_IZR, !plus_IZR, !mult_IZR. field.
Qed.

(* C190: direction of departure *)
Theorem C190_direction : forall v, norm v <> 0 ->
  (exists s, departure_direction "equatorial" v = Ok (Some s) /\ c_0 s = 1 /\ spherical_ranges s /\ scale (norm v) (dir_of s) = v) /\
  (exists s, departure_direction "ecliptic" v = Ok (Some s) /\ c_0 s = 1 /\ spherical_ranges s /\ scale (norm v) (in_ecliptic obliquity (dir_of s)) = v).
Proof. intros v N. split; [exact (direction_eq v N)|exact (direction_ec v N)]. Qed.
Theorem C190_length : forall f k v, 0 < k -> departure_direction f (scale k v) = departure_direction f v.
Proof. exact direction_scaled. Qed.
Lemma nth_zip3 : forall (xs ys zs : list R) i x y z, nth_error xs i = Some x -> nth_error ys i = Some y -> nth_error zs i = Some z ->
  nth_error (map (fun p : R * R * R => (fst (fst p), snd (fst p), snd p)) (combine (combine xs ys) zs)) i = Some (x, y, z).
Proof.
  induction xs as [|a xs IH]; intros [|b ys] [|c zs] [|i] x y z X Y Z; cbn in *; try discriminate.
  - now injection X as ->; injection Y as ->; injection Z as ->.
  - now apply IH.
Qed.
Theorem C190_rows : forall n f vx vy vz l, departure_spherical n f vx vy vz = Ok l ->
  (List.length vx = n /\ List.length vy = n /\ List.length vz = n /\ List.length l = n /\ n <> 0%nat) /\
  forall i x y z, nth_error vx i = Some x -> nth_error vy i = Some y -> nth_error vz i = Some z ->
  exists s, nth_error l i = Some s /\ departure_direction f (x, y, z) = Ok s.
Proof.
  intros n f vx vy vz l H. unfold departure_spherical in H. destruct (Nat.eqb_spec (List.length vx) (List.length vy)) as [A|]; [|discriminate]. destruct (Nat.eqb_spec (List.length vy) (List.length vz)) as [B|]; [|discriminate].
  destruct (Nat.eqb_spec (List.length vz) n) as [C|]; [|discriminate]. cbn [andb negb] in H. destruct vx as [|x0 vx']; [discriminate|]. split.
  - apply mapM_length in H. rewrite map_length, !combine_length in H. split; [lia|]. split; [lia|]. split; [lia|]. split; [lia|]. cbn [List.length] in A. lia.
  - intros i x y z X Y Z. destruct (mapM_nth _ _ _ i (x, y, z) H (nth_zip3 _ _ _ _ _ _ _ X Y Z)) as (s & S & E). exists s. auto.
Qed.
Example C190_case : norm (3, 0, 4) <> 0.
Proof. assert (norm (3, 0, 4) = 5) by (apply norm_of; [lra|cbn; ring]). lra. Qed.

(* C191: plotting data with a transfer that was not solved *)
Theorem C191_unsolved_refuted : exists m s x v, generate (gm m) (fun _ => 0%nat) 1 launch stops "SUN" true 35 (/ 10 ^ 10) = Ok s /\ In x (s_rows s) /\ x_vels x = Some v /\
  plot plain (map point_of (s_rows s)) = Err AssertionError.
Proof.
  destruct stops_some as (m & s & x & v & H & _ & I & V & _ & _ & y & Y & E). exists m, s, x, v. split; [exact H|]. split; [exact I|]. split; [exact V|].
  apply plot_unsolved with (point_of y); [now apply in_map| |reflexivity]. destruct (solved_row (gm m) "SUN" m true 35 (/ 10 ^ 10) eq_refl _ _ _ _ _ _ H Y) as [S _].
  rewrite C164_no_result in S by (right; right; left; exact E). unfold point_of, c3_departure. cbn [g_c3]. now rewrite S.
Qed.
Theorem C191_unsolved : forall o l p, In p l -> g_c3 p = None -> l_c3_max o = None -> plot o l = Err AssertionError.
Proof. exact plot_unsolved. Qed.
Lemma km_pos : forall x, 0 < x -> 0 < au_per_day_to_km_per_s x.
Proof. intros x X. unfold au_per_day_to_km_per_s, km_p_au, s_p_day. apply Rdiv_lt_0_compat; lra. Qed.
Lemma km_nn : forall x, 0 <= x -> 0 <= au_per_day_to_km_per_s x.
Proof. intros x [X|<-]; [left; now apply km_pos|]. unfold au_per_day_to_km_per_s. lra. Qed.
Theorem C191_plain_partial : forall xs, (forall x, In x xs -> x_vels x <> None /\ 0 < time_of_flight x) ->
  (exists x c, In x xs /\ c3_departure x = Some c /\ c <> 0) -> (exists x c, In x xs /\ vinf_arrival x = Some c /\ c <> 0) ->
  exists f, plot plain (map point_of xs) = Ok f /\ forall x, In x xs -> chosen plain (map point_of xs) (point_of x).
Proof.
  intros xs A (x1 & c1 & I1 & C1 & P1) (x2 & c2 & I2 & C2 & P2).
  assert (V : forall x, In x xs -> exists c v, c3_departure x = Some c /\ vinf_arrival x = Some v /\ 0 <= c /\ 0 <= v).
  { intros x X. destruct (A x X) as [S _]. unfold c3_departure, vinf_arrival. destruct (x_vels x) as [[v1 v2]|]; [|congruence]. cbn. do 2 eexists. split; [reflexivity|]. split; [reflexivity|].
    unfold calculate_c3. split; [apply pow2_ge_0|apply norm_nn]. }
  assert (NE : xs <> []) by (intros ->; destruct I1). assert (KP : 0 < au_per_day_to_km_per_s 1 ^ 2) by (apply pow_lt, km_pos; lra).
  assert (HC : exists hc, or_max (l_c3_max plain) (map g_c3 (map point_of xs)) = Ok (Some hc) /\ 0 < hc).
  { cbn. destruct (npmax_some (map g_c3 (map point_of xs))) as (m & M & _); [destruct xs; [congruence|discriminate]| |].
    - apply Forall_forall. intros u U. rewrite map_map in U. apply in_map_iff in U. destruct U as (x & <- & X). destruct (V x X) as (c & v & Ec & _). cbn. rewrite Ec. discriminate.
    - exists m. split; [exact M|]. destruct (npmax_ge _ _ M (g_c3 (point_of x1)) (in_map g_c3 _ _ (in_map point_of _ _ I1))) as (u & U & L). cbn in U. rewrite C1 in U. cbn in U. injection U as <-.
      destruct (V x1 I1) as (c & v & Ec & _ & Cp & _). rewrite C1 in Ec. injection Ec as <-. assert (0 < c1 * au_per_day_to_km_per_s 1 ^ 2) by (apply Rmult_lt_0_compat; lra). cbn [pow] in *. lra. }
  assert (HV : exists hv, or_max (l_vinf_max plain) (map g_vinf (map point_of xs)) = Ok (Some hv) /\ 0 < hv).
  { cbn. destruct (npmax_some (map g_vinf (map point_of xs))) as (m & M & _); [destruct xs; [congruence|discriminate]| |].
    - apply Forall_forall. intros u U. rewrite map_map in U. apply in_map_iff in U. destruct U as (x & <- & X). destruct (V x X) as (c & v & _ & Ev & _). cbn. rewrite Ev. discriminate.
    - exists m. split; [exact M|]. destruct (npmax_ge _ _ M (g_vinf (point_of x2)) (in_map g_vinf _ _ (in_map point_of _ _ I2))) as (u & U & L). cbn in U. rewrite C2 in U. cbn in U. injection U as <-.
      destruct (V x2 I2) as (c & v & _ & Ev & _ & Vp). rewrite C2 in Ev. injection Ev as <-. pose proof (km_pos c2 ltac:(lra)). lra. }
  destruct HC as (hc & HC & CP). destruct HV as (hv & HV & VP).
  destruct (plot_ok plain (map point_of xs) hc hv HC HV) as (f & F & _); [destruct xs; [congruence|discriminate]|exact CP|exact VP|]. exists f. split; [exact F|].
  intros x X. split; [now apply in_map|]. destruct (V x X) as (c & v & Ec & Ev & Cp & Vp). unfold point_of. cbn [g_c3 g_vinf g_arr g_dep]. rewrite Ec, Ev. cbn [option_map]. do 2 eexists. split; [reflexivity|]. split; [reflexivity|].
  cbn [plain l_c3_min l_c3_max l_vinf_min l_vinf_max l_tof_min l_tof_max at_least at_most]. destruct (A x X) as [_ T]. unfold time_of_flight, flight_time in T.
  repeat split; [apply Rmult_le_pos; [exact Cp|lra]|apply km_nn; exact Vp|lra].
Qed.
Definition unit_orb (k : Z) (v : vec) : orb := mkorb "b" (mkrow k 0) (1, 0, 0) v "SUN".
Example C191_case : let x := mktransfer (unit_orb 0 (0, 0, 0)) (unit_orb 1 (0, 0, 0)) (Some ((1, 0, 0), (0, 1, 0))) "SUN" in
  (x_vels x <> None /\ 0 < time_of_flight x) /\ (exists c, c3_departure x = Some c /\ c <> 0) /\ (exists c, vinf_arrival x = Some c /\ c <> 0).
Proof.
  cbv zeta. split; [split; [discriminate|]|split].
  - unfold time_of_flight, flight_time, mjdR. cbn. lra.
  - eexists. split; [reflexivity|]. cbn [fst]. unfold calculate_c3. replace (norm _) with 1 by (symmetry; apply norm_of; [lra|cbn; ring]). lra.
  - eexists. split; [reflexivity|]. cbn [snd]. replace (norm _) with 1 by (symmetry; apply norm_of; [lra|cbn; ring]). lra.
Qed.

(* C192: the cells of a figure *)
Theorem C192_cells : forall o l xs ys c3 vi tf b1 b2, plot o l = Ok (Figure xs ys c3 vi tf b1 b2) ->
  StronglySorted Rlt xs /\ StronglySorted Rlt ys /\
  (forall d, In d xs <-> exists p, chosen o l p /\ g_dep p = d) /\ (forall a, In a ys <-> exists p, chosen o l p /\ g_arr p = a) /\
  forall i j d a, nth_error xs j = Some d -> nth_error ys i = Some a -> exists rc rv rt, nth_error c3 i = Some rc /\ nth_error vi i = Some rv /\ nth_error tf i = Some rt /\
    nth_error rt j = Some (Some (a - d)) /\
    ((exists p, chosen o l p /\ g_dep p = d /\ g_arr p = a /\ nth_error rc j = Some (g_c3 p)) \/ (nth_error rc j = Some None /\ forall p, chosen o l p -> ~ (g_dep p = d /\ g_arr p = a))) /\
    ((exists p, chosen o l p /\ g_dep p = d /\ g_arr p = a /\ nth_error rv j = Some (g_vinf p)) \/ (nth_error rv j = Some None /\ forall p, chosen o l p -> ~ (g_dep p = d /\ g_arr p = a))).
Proof.
  intros o l xs ys c3 vi tf b1 b2 H. destruct (plot_inv _ _ _ _ _ _ _ _ _ H) as (s & K & X & Y & C & V & T & _ & _).
  split; [subst xs; apply unique_lt|]. split; [subst ys; apply unique_lt|].
  assert (W : forall (g : point -> R) d, In d (unique_sorted (map g s)) <-> exists p, chosen o l p /\ g p = d).
  { intros g d. rewrite unique_In, in_map_iff. split; intros (p & A & B); exists p; rewrite K in *; tauto. }
  split; [subst xs; apply W|]. split; [subst ys; apply W|]. intros i j d a J I. subst c3 vi tf.
  destruct (grid_nth xs ys (cell s g_c3) i j d a J I) as (rc & RC & EC). destruct (grid_nth xs ys (cell s g_vinf) i j d a J I) as (rv & RV & EV). destruct (grid_nth xs ys (fun d a => Some (a - d)) i j d a J I) as (rt & RT & ET).
  exists rc, rv, rt. repeat (split; [assumption|]). split.
  - destruct (cell_spec s g_c3 d a) as [(p & P & D & A & E)|[E N]]; rewrite E in EC; [left; exists p; rewrite <- K; auto|right]. split; [exact EC|]. intros p P. apply K in P. auto.
  - destruct (cell_spec s g_vinf d a) as [(p & P & D & A & E)|[E N]]; rewrite E in EV; [left; exists p; rewrite <- K; auto|right]. split; [exact EV|]. intros p P. apply K in P. auto.
Qed.

(* the plotted numbers, in kilometres and seconds *)
Theorem C192_units : forall x, g_c3 (point_of x) = option_map (fun v => (v * 149597870.7 / 86400) ^ 2) (vinf_departure x) /\
  g_vinf (point_of x) = option_map (fun v => v * 149597870.7 / 86400) (vinf_arrival x) /\
  g_dep (point_of x) * 86400000000000 = IZR (instant (b_time (x_dep x))) /\ g_arr (point_of x) * 86400000000000 = IZR (instant (b_time (x_arr x))).
Proof.
  intro x. unfold point_of, c3_departure, vinf_departure, vinf_arrival, au_per_day_to_km_per_s, km_p_au, s_p_day, calculate_c3. cbn [g_c3 g_vinf g_dep g_arr].
  split; [destruct (x_vels x); cbn [option_map]; [f_equal; lra|reflexivity]|]. split; [destruct (x_vels x); cbn [option_map]; [f_equal; lra|reflexivity]|].
  unfold mjdR, instant, DAY. rewrite !plus_IZR, !mult_IZR. split; field.
Qed.

(* C193: the marked optimum *)
Theorem C193_marker_partial : forall o l xs ys c3 vi tf b1 b2, plot o l = Ok (Figure xs ys c3 vi tf b1 b2) ->
  (forall b, b1 = Some b -> chosen o l b /\ (forall p u v, chosen o l p -> g_c3 p = Some u -> g_c3 b = Some v -> v <= u) /\ shown_in (l_xlim o) (g_dep b) /\ shown_in (l_ylim o) (g_arr b)) /\
  (forall b, b2 = Some b -> chosen o l b /\ (forall p u v, chosen o l p -> g_vinf p = Some u -> g_vinf b = Some v -> v <= u) /\ shown_in (l_xlim o) (g_dep b) /\ shown_in (l_ylim o) (g_arr b)) /\
  (l_optimal o = true -> (exists p, chosen o l p) -> (forall p, chosen o l p -> shown_in (l_xlim o) (g_dep p) /\ shown_in (l_ylim o) (g_arr p)) -> b1 <> None /\ b2 <> None).
Proof.
  intros o l xs ys c3 vi tf b1 b2 H. destruct (plot_inv _ _ _ _ _ _ _ _ _ H) as (s & K & _ & _ & _ & _ & _ & B1 & B2).
  assert (SC : forall p, In p s -> g_c3 p <> None) by (intros p P; apply K in P; destruct P as (_ & c & v & E & _); congruence).
  assert (SV : forall p, In p s -> g_vinf p <> None) by (intros p P; apply K in P; destruct P as (_ & c & v & _ & E & _); congruence).
  split; [|split].
  - intros b E. rewrite B1 in E. destruct (mark_spec o s g_c3 b SC E) as (I & M & X & Y & _). split; [now apply K|]. split; [|auto]. intros p u v P. apply K in P. now apply M.
  - intros b E. rewrite B2 in E. destruct (mark_spec o s g_vinf b SV E) as (I & M & X & Y & _). split; [now apply K|]. split; [|auto]. intros p u v P. apply K in P. now apply M.
  - intros OP [p0 P0] W. assert (NE : s <> []) by (intros ->; apply K in P0; destruct P0). split; intro E.
    + rewrite E in B1. symmetry in B1. destruct (mark_none o s g_c3 SC NE OP B1) as (b & I & _ & N). apply N, W, K, I.
    + rewrite E in B2. symmetry in B2. destruct (mark_none o s g_vinf SV NE OP B2) as (b & I & _ & N). apply N, W, K, I.
Qed.
Definition four : list point := [mkpoint (Some 1) (Some 1) 0 2; mkpoint (Some 5) (Some 5) 1 2; mkpoint (Some 5) (Some 5) 0 3; mkpoint (Some 5) (Some 5) 1 3].
Definition window : limits := mklimits None (Some 10) None (Some 10) None (Some 10) (Some (1 / 2, 3 / 2)) None true.
Lemma four_chosen : forall p, In p four -> chosen window four p.
Proof.
  intros p P. split; [exact P|]. destruct P as [<-|[<-|[<-|[<-|[]]]]]; cbn; do 2 eexists; (split; [reflexivity|split; [reflexivity|]]); lra.
Qed.
Theorem C193_marker_refuted : exists o l xs ys c3 vi tf b1 b2 p, plot o l = Ok (Figure xs ys c3 vi tf b1 b2) /\ l_optimal o = true /\
  chosen o l p /\ shown_in (l_xlim o) (g_dep p) /\ shown_in (l_ylim o) (g_arr p) /\ b1 = None /\ b2 = None.
Proof.
  destruct (plot_ok window four 10 10) as (f & F & G); [reflexivity|reflexivity|discriminate|cbn; lra|cbn; lra|].
  destruct f as [|xs ys c3 vi tf b1 b2].
  { exfalso. destruct (G eq_refl) as [[d D]|[d D]].
    - pose proof (D _ (four_chosen (mkpoint (Some 1) (Some 1) 0 2) ltac:(left; reflexivity))) as A. pose proof (D _ (four_chosen (mkpoint (Some 5) (Some 5) 1 2) ltac:(right; left; reflexivity))) as B. cbn in A, B. lra.
    - pose proof (D _ (four_chosen (mkpoint (Some 1) (Some 1) 0 2) ltac:(left; reflexivity))) as A. pose proof (D _ (four_chosen (mkpoint (Some 5) (Some 5) 0 3) ltac:(right; right; left; reflexivity))) as B. cbn in A, B. lra. }
  exists window, four, xs, ys, c3, vi, tf, b1, b2, (mkpoint (Some 5) (Some 5) 1 2). split; [exact F|]. split; [reflexivity|]. split; [apply four_chosen; right; left; reflexivity|].
  split; [cbn; lra|]. split; [exact I|]. destruct (C193_marker_partial _ _ _ _ _ _ _ _ _ F) as (M1 & M2 & _).
  pose proof (four_chosen (mkpoint (Some 1) (Some 1) 0 2) ltac:(left; reflexivity)) as C0. split.
  - destruct b1 as [b|]; [|reflexivity]. exfalso. destruct (M1 b eq_refl) as ((B & _) & M & X & _). destruct B as [<-|[<-|[<-|[<-|[]]]]]; cbn in X; try lra; specialize (M _ 1 5 C0 eq_refl eq_refl); lra.
  - destruct b2 as [b|]; [|reflexivity]. exfalso. destruct (M2 b eq_refl) as ((B & _) & M & X & _). destruct B as [<-|[<-|[<-|[<-|[]]]]]; cbn in X; try lra; specialize (M _ 1 5 C0 eq_refl eq_refl); lra.
Qed.
Example C192_case : exists xs ys c3 vi tf b1 b2, plot (mklimits None (Some 10) None (Some 10) None (Some 10) None None true) four = Ok (Figure xs ys c3 vi tf b1 b2).
Proof.
  set (o := mklimits None (Some 10) None (Some 10) None (Some 10) None None true).
  assert (FC : forall p, In p four -> chosen o four p) by (intros p P; exact (four_chosen p P)).
  destruct (plot_ok o four 10 10) as (f & F & G); [reflexivity|reflexivity|discriminate|cbn; lra|cbn; lra|].
  destruct f as [|xs ys c3 vi tf b1 b2]; [|do 7 eexists; exact F]. exfalso. destruct (G eq_refl) as [[d D]|[d D]].
  - pose proof (D _ (FC (mkpoint (Some 1) (Some 1) 0 2) ltac:(left; reflexivity))) as A. pose proof (D _ (FC (mkpoint (Some 5) (Some 5) 1 2) ltac:(right; left; reflexivity))) as B. cbn in A, B. lra.
  - pose proof (D _ (FC (mkpoint (Some 1) (Some 1) 0 2) ltac:(left; reflexivity))) as A. pose proof (D _ (FC (mkpoint (Some 5) (Some 5) 0 3) ltac:(right; right; left; reflexivity))) as B. cbn in A, B. lra.
Qed.

(* C194: the epochs of the propagated bodies *)
Theorem C194_epochs : forall a b h, 0 < h -> exists ts, arange a b h = Ok ts /\
  (forall k t, nth_error ts k = Some t -> t = a + INR k * h /\ a <= t < b) /\ b <= a + INR (List.length ts) * h.
Proof. exact arange_spec. Qed.
Theorem C194_whole_steps : forall a h k, 0 < h -> exists ts, arange a (a + INR k * h) h = Ok ts /\ List.length ts = k /\ ~ In (a + INR k * h) ts.
Proof.
  intros a h k H. destruct (arange_spec a (a + INR k * h) h H) as (ts & T & A & B). exists ts. split; [exact T|].
  assert (NI : ~ In (a + INR k * h) ts). { intro I. apply In_nth_error in I. destruct I as [j J]. destruct (A _ _ J). lra. }
  split; [|exact NI]. assert (L : (k <= List.length ts)%nat). { apply INR_le. apply Rmult_le_reg_r with h; lra. }
  destruct (Nat.eq_dec (List.length ts) k) as [|NE]; [assumption|]. exfalso. destruct (nth_error ts k) as [t|] eqn:E.
  - destruct (A _ _ E) as [-> ?]. lra.
  - apply nth_error_None in E. lia.
Qed.
Theorem C194_zero_step : forall a b, arange a b 0 = Err ZeroDivisionError.
Proof. intros a b. unfold arange. destruct (Req_EM_T 0 0); [reflexivity|congruence]. Qed.
Example C194_case : exists ts, arange 60000 60010 10 = Ok ts /\ List.length ts = 1%nat.
Proof. destruct (C194_whole_steps 60000 10 1 ltac:(lra)) as (ts & T & L & _). exists ts. replace 60010 with (60000 + INR 1 * 10) by (cbn; lra). auto. Qed.

(* C195: the generated colour scale *)
Theorem C195_levels_partial : forall rgb n hi lo l, saturated rgb n hi lo = Ok l -> (2 <= n)%nat ->
  List.length l = n /\ forall i p c a, nth_error l i = Some (p, c, a) ->
    p = INR i / INR (n - 1) /\ 0 <= p <= 1 /\ a = lo + (hi - lo) * p /\
    (0 <= fst (fst c) <= 255 /\ 0 <= snd (fst c) <= 255 /\ 0 <= snd c <= 255)%Z.
Proof. exact colour_levels. Qed.
Theorem C195_darker_refuted : exists l p1 c1 a1 p7 c7 a7, saturated (255, 0, 0)%Z 8 (8 / 10) (1 / 10) = Ok l /\
  nth_error l 1 = Some (p1, c1, a1) /\ nth_error l 7 = Some (p7, c7, a7) /\ p1 < p7 /\ (fst (fst c1) < fst (fst c7))%Z.
Proof. exact darkest_not_last. Qed.
Theorem C195_one_level : forall rgb hi lo, saturated rgb 1 hi lo = Err ZeroDivisionError.
Proof. reflexivity. Qed.
Example C195_case : exists l, saturated (255, 0, 0)%Z 8 (8 / 10) (1 / 10) = Ok l /\ (2 <= 8)%nat.
Proof. eexists. split; [reflexivity|lia]. Qed.

Print Assumptions C184_rows.
Print Assumptions C184_accepted.
Print Assumptions C185_order_partial.
Print Assumptions C185_order_refuted.
Print Assumptions C186_transfer.
Print Assumptions C187_scales_refuted.
Print Assumptions C187_scales_partial.
Print Assumptions C188_origin_refuted.
Print Assumptions C188_origin_partial.
Print Assumptions C189_speeds.
Print Assumptions C189_flight_time.
Print Assumptions C190_direction.
Print Assumptions C190_length.
Print Assumptions C190_rows.
Print Assumptions C191_unsolved_refuted.
Print Assumptions C191_unsolved.
Print Assumptions C191_plain_partial.
Print Assumptions C192_cells.
Print Assumptions C192_units.
Print Assumptions C193_marker_partial.
Print Assumptions C193_marker_refuted.
Print Assumptions C194_epochs.
Print Assumptions C194_whole_steps.
Print Assumptions C194_zero_step.
Print Assumptions C195_levels_partial.
Print Assumptions C195_darker_refuted.
Print Assumptions C195_one_level.
