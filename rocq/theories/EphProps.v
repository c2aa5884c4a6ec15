(* Theorems about two-body ephemerides. *)
From Coq Require Import Reals Lra Lia String List Bool.
From Verif Require Import Base ListLemmas SphModel SphSpec SphProofs KepModel KepSpec KepElem UnivModel UnivSpec UnivOrbit UnivTime UnivProofs LightModel LightProofs LightProps FrameModel PhotModel EphModel EphSpec EphProofs.
Import ListNotations.
Open Scope string_scope.
Open Scope list_scope.
Open Scope R_scope.

Definition known_frame (f : string) : Prop := f = "ecliptic" \/ f = "equatorial".

(* C196: every row shows the orbit where it was when the light left: the state reported is the orbit
   propagated to the emission epoch, and distance, longitude and latitude are those of the equatorial
   vector from the observer to it (with stellar aberration: of the aberrated vector). *)
Theorem C196_on_sky : forall rel itrf mu jac c fo fb os bs wm wa es, rest rel -> known_frame fo -> known_frame fb -> lt_tol c < 10 ^ 30 ->
  generate_ephemeris_2body rel itrf mu jac c fo fb os bs wm wa = Ok es ->
  List.length es = List.length os /\ List.length bs = List.length os /\
  forall i e, nth_error es i = Some e -> exists o b s w,
    nth_error os i = Some o /\ nth_error bs i = Some b /\
    barycentric_state rel fo (or_origin o) (or_epoch o) (or_state o) s /\
    barycentric_state rel fb (ob_origin b) (ob_epoch b) (ob_state b) w /\
    propagate s (or_epoch o) (or_epoch o - e_light e) mu (max_iter c) (kep_tol c) = Some (e_emit e) /\
    0 <= c_0 (e_coord e) /\ 0 <= c_1 (e_coord e) < 360 /\ -90 <= c_2 (e_coord e) <= 90 /\
    (stellar c = false ->
       c_0 (e_coord e) = distance (pos (e_emit e)) (pos w) /\
       sky (c_0 (e_coord e)) (c_1 (e_coord e)) (c_2 (e_coord e)) = equatorial (towards (pos w) (pos (e_emit e))) /\
       (off_axis (row_of (equatorial (towards (pos w) (pos (e_emit e)))) (0, 0, 0)) ->
        vel (spherical_to_cartesian (e_coord e)) = equatorial (towards (vel w) (vel (e_emit e))))) /\
    (stellar c = true -> exists u, aberrate (e_emit e) w = Some u /\
       sky (c_0 (e_coord e)) (c_1 (e_coord e)) (c_2 (e_coord e)) = equatorial u).
Proof.
  intros rel itrf mu jac c fo fb os bs wm wa es Z FO FB T H.
  destruct (gen_rows rel itrf Z mu jac c fo fb os bs wm wa es FO FB H) as (L1 & L2 & K). split; [exact L1|]. split; [exact L2|].
  intros i e N. destruct (K i e N) as (o & b & s & w & NO & NB & BS & BW & KE & _). exists o, b, s, w.
  split; [exact NO|]. split; [exact NB|]. split; [exact BS|]. split; [exact BW|].
  unfold kernel in KE. destruct (add_light_time _ _ _ _ _ _ _ _) as [st l] eqn:A. injection KE as K1 K2 K3. subst st l.
  destruct (light_time_epoch _ _ _ _ _ _ _ _ _ _ T A) as (P & _). symmetry in P. split; [exact P|].
  destruct (stellar c) eqn:S.
  - destruct (on_sky_stellar _ _ _ K1) as (u & U1 & U2 & (U3 & U4 & U5)). split; [exact U3|]. split; [exact U4|]. split; [exact U5|].
    split; [discriminate|]. intros _. exists u. split; [exact U1|]. symmetry. exact U2.
  - destruct (on_sky_plain _ _ _ K1) as (U1 & U2 & (U3 & U4 & U5) & U6). split; [exact U3|]. split; [exact U4|]. split; [exact U5|].
    split; [|discriminate]. intros _. split; [exact U2|]. split; [symmetry; exact U1|exact U6].
Qed.
Print Assumptions C196_on_sky.

(* C196, with Newton's law: for an orbit that moves as X, V, slower than beta times light, the emission
   state is where the body was and the light time is the time light needs from there. *)
Theorem C196_light_time : forall rel itrf mu jac c fo fb os bs wm wa es i e o b s w beta X V, rest rel -> known_frame fo -> known_frame fb ->
  generate_ephemeris_2body rel itrf mu jac c fo fb os bs wm wa = Ok es ->
  nth_error es i = Some e -> nth_error os i = Some o -> nth_error bs i = Some b ->
  barycentric_state rel fo (or_origin o) (or_epoch o) (or_state o) s ->
  barycentric_state rel fb (ob_origin b) (ob_epoch b) (ob_state b) w ->
  0 < mu -> not_radial s -> two_body mu X V -> X 0 = pos s -> V 0 = vel s ->
  kep_tol c < 10 ^ 15 -> (forall dt, last_step s dt mu (max_iter c) (kep_tol c) 0) ->
  0 <= beta < 1 -> (forall t, norm (V t) <= beta * light) ->
  lt_tol c < 10 ^ 30 -> distance (pos s) (pos w) / light + lt_tol c < 10 ^ 30 ->
  pos (e_emit e) = X (- e_light e) /\ vel (e_emit e) = V (- e_light e) /\
  Rabs (e_light e - distance (X (- e_light e)) (pos w) / light) <= beta * lt_tol c /\
  (stellar c = false -> Rabs (e_light e - c_0 (e_coord e) / light) <= beta * lt_tol c).
Proof.
  intros rel itrf mu jac c fo fb os bs wm wa es i e o b s w beta X V Z FO FB H N NO NB BS BW M F L X0 V0 T R B S LT D.
  destruct (gen_rows rel itrf Z mu jac c fo fb os bs wm wa es FO FB H) as (_ & _ & K).
  destruct (K i e N) as (o' & b' & s' & w' & NO' & NB' & BS' & BW' & KE & _).
  rewrite NO in NO'. injection NO' as <-. rewrite NB in NB'. injection NB' as <-.
  rewrite (barycentric_unique rel _ _ _ _ _ _ BS' BS) in *. rewrite (barycentric_unique rel _ _ _ _ _ _ BW' BW) in *.
  unfold kernel in KE. destruct (add_light_time _ _ _ _ _ _ _ _) as [st l] eqn:A. injection KE as K1 K2 K3. subst st l.
  destruct (C69_newton s (or_epoch o) (pos w) (lt_tol c) mu (max_iter c) (kep_tol c) max_lt_iter beta X V M F L X0 V0 T R B S LT D) as [Q _].
  destruct (Q _ _ A) as (E & G & _). injection E as E. split; [rewrite E; apply pos_row|]. split; [rewrite E; apply vel_row|]. split; [exact G|].
  intro ST. rewrite ST in K1. destruct (on_sky_plain _ _ _ K1) as (_ & U & _). rewrite U, E, pos_row. exact G.
Qed.
Print Assumptions C196_light_time.

(* an orbit of radius 1 about the barycentre seen from distance 3 *)
Definition at_rest_rel : string -> string -> R -> string -> option row6 := fun _ _ _ _ => Some (mk6 0 0 0 0 0 0).
Definition no_itrf : string -> place -> result row6 := fun _ _ => Err ValueError.
Definition no_cov : covariance := fun _ _ => None.
Definition case_orbit : orbit := mkorbit "a" None 0 "SOLAR_SYSTEM_BARYCENTER" circ no_cov None None.
Definition case_observer (code : string) (x : R) : observer := mkobserver code 0 "SOLAR_SYSTEM_BARYCENTER" (mk6 x 0 0 0 0 0).
Definition defaults : settings := mkset (/ 10 ^ 10) 1000 (/ 10 ^ 15) false.

Lemma single : forall rel itrf mu jac c o b, or_origin o = "SOLAR_SYSTEM_BARYCENTER" -> ob_origin b = "SOLAR_SYSTEM_BARYCENTER" ->
  generate_ephemeris_2body rel itrf mu jac c "ecliptic" "ecliptic" [o] [b] false false =
  bind (row mu jac c (negb (all_missing (or_cov o))) ((o, place_of_orbit o), (b, place_of_observer b))) (fun e => Ok [e]).
Proof.
  intros rel itrf mu jac c o b O B. unfold generate_ephemeris_2body. cbn [List.length Nat.eqb negb map].
  unfold barycentric, shortcut, place_of_orbit, place_of_observer. rewrite O, B. cbn [forallb fst snd andb String.eqb Ascii.eqb Bool.eqb].
  unfold transform. cbn [forallb fst snd andb String.eqb Ascii.eqb Bool.eqb bind combine mapM]. rewrite andb_true_r.
  destruct (row mu jac c _ _) as [e|e]; reflexivity.
Qed.
Example C196_case : exists e, generate_ephemeris_2body at_rest_rel no_itrf 1 (fun _ _ _ _ => None) defaults "ecliptic" "ecliptic"
    [case_orbit] [case_observer "500" 3] false false = Ok [e] /\ e_code e = "500" /\ Rabs (e_light e - c_0 (e_coord e) / light) <= / 10 ^ 12.
Proof.
  destruct C69_case as (X & V & _ & _ & _ & l & A & G).
  rewrite single by reflexivity. unfold row, place_of_orbit, place_of_observer, case_orbit, case_observer. cbn [or_origin or_epoch or_state ob_origin ob_epoch ob_state].
  unfold kernel, defaults. cbn [lt_tol max_iter kep_tol stellar]. change (pos (mk6 3 0 0 0 0 0)) with (3, 0, 0). unfold max_lt_iter. rewrite A.
  unfold on_sky. cbn [bind]. eexists. split; [reflexivity|]. cbn [e_code e_light e_coord ob_code]. split; [reflexivity|].
  rewrite rho_norm. unfold rotate_ec2eq. rewrite pos_rot, mat_equatorial, equatorial_norm, pos_sub, towards_distance, pos_row. exact G.
Qed.

(* C198: ids, observatory code, epochs, frames and origin of every row *)
Theorem C198_labels : forall rel itrf mu jac c fo fb os bs wm wa es, rest rel -> known_frame fo -> known_frame fb ->
  generate_ephemeris_2body rel itrf mu jac c fo fb os bs wm wa = Ok es ->
  forall i o b, nth_error os i = Some o -> nth_error bs i = Some b -> exists e, nth_error es i = Some e /\
    e_id e = or_id o /\ e_object e = or_object o /\ e_epoch e = or_epoch o /\ e_code e = ob_code b /\ e_frame e = "equatorial" /\
    e_emit_epoch e = or_epoch o - e_light e /\ e_emit_origin e = "SOLAR_SYSTEM_BARYCENTER" /\ e_emit_frame e = "ecliptic".
Proof.
  intros rel itrf mu jac c fo fb os bs wm wa es Z FO FB H i o b NO NB.
  destruct (gen_rows rel itrf Z mu jac c fo fb os bs wm wa es FO FB H) as (L1 & L2 & K).
  destruct (nth_len os es i o) as (e & N); [lia|exact NO|]. exists e. split; [exact N|].
  destruct (K i e N) as (o' & b' & s & w & NO' & NB' & _ & _ & _ & Q). rewrite NO in NO'. injection NO' as <-. rewrite NB in NB'. injection NB' as <-.
  destruct Q as (A1 & A2 & A3 & A4 & A5 & A6 & A7 & A8 & _). repeat split; assumption.
Qed.
Print Assumptions C198_labels.

(* C199 refuted: an observer at another epoch is accepted, whatever the difference. *)
Theorem C199_epochs_refuted : exists rel itrf mu jac c o x, rest rel /\ forall t, exists e,
  generate_ephemeris_2body rel itrf mu jac c "ecliptic" "ecliptic" [o] [mkobserver "500" t "SOLAR_SYSTEM_BARYCENTER" x] false false = Ok [e] /\
  e_epoch e = or_epoch o.
Proof.
  exists at_rest_rel, no_itrf, 1, (fun _ _ _ _ => None), defaults, case_orbit, (mk6 3 0 0 0 0 0).
  split; [intros ? ? ?; reflexivity|]. intro t. destruct C196_case as (e & H & _). exists e.
  rewrite single in H by reflexivity. rewrite single by reflexivity. cbn [place_of_observer ob_origin ob_epoch ob_state] in *.
  unfold row, place_of_orbit, place_of_observer in *. cbn [or_origin or_epoch or_state ob_origin ob_epoch ob_state case_observer case_orbit ob_code] in *.
  split; [exact H|]. destruct (kernel _ _ _ _ _) as [[[?|] [?|]] [?|]]; try discriminate. cbn [bind] in H. injection H as <-. reflexivity.
Qed.
Print Assumptions C199_epochs_refuted.
(* what holds: tables of different lengths are refused *)
Theorem C199_lengths_partial : forall rel itrf mu jac c fo fb os bs wm wa, List.length os <> List.length bs ->
  generate_ephemeris_2body rel itrf mu jac c fo fb os bs wm wa = Err AssertionError.
Proof.
  intros. unfold generate_ephemeris_2body. destruct (Nat.eqb_spec (List.length os) (List.length bs)); [contradiction|reflexivity].
Qed.
Print Assumptions C199_lengths_partial.

(* C200: the same orbits and observers, given about other origins or in the other frame, have the same
   coordinates, light times and emission states. *)
Theorem C200_representation : forall rel itrf mu jac c fo fb fo' fb' os bs os' bs' wm wa wm' wa' es es',
  rest rel -> known_frame fo -> known_frame fb -> known_frame fo' -> known_frame fb' ->
  generate_ephemeris_2body rel itrf mu jac c fo fb os bs wm wa = Ok es ->
  generate_ephemeris_2body rel itrf mu jac c fo' fb' os' bs' wm' wa' = Ok es' ->
  (forall i o o', nth_error os i = Some o -> nth_error os' i = Some o' -> or_epoch o = or_epoch o' /\
     exists s, barycentric_state rel fo (or_origin o) (or_epoch o) (or_state o) s /\ barycentric_state rel fo' (or_origin o') (or_epoch o') (or_state o') s) ->
  (forall i b b', nth_error bs i = Some b -> nth_error bs' i = Some b' ->
     exists w, barycentric_state rel fb (ob_origin b) (ob_epoch b) (ob_state b) w /\ barycentric_state rel fb' (ob_origin b') (ob_epoch b') (ob_state b') w) ->
  forall i e e', nth_error es i = Some e -> nth_error es' i = Some e' ->
    e_coord e = e_coord e' /\ e_light e = e_light e' /\ e_emit e = e_emit e' /\ e_emit_epoch e = e_emit_epoch e'.
Proof.
  intros rel itrf mu jac c fo fb fo' fb' os bs os' bs' wm wa wm' wa' es es' Z F1 F2 F3 F4 H H' SO SB i e e' N N'.
  destruct (gen_rows rel itrf Z mu jac c fo fb os bs wm wa es F1 F2 H) as (_ & _ & K). destruct (K i e N) as (o & b & s & w & NO & NB & BS & BW & KE & _ & _ & _ & _ & _ & EE & _).
  destruct (gen_rows rel itrf Z mu jac c fo' fb' os' bs' wm' wa' es' F3 F4 H') as (_ & _ & K'). destruct (K' i e' N') as (o' & b' & s' & w' & NO' & NB' & BS' & BW' & KE' & _ & _ & _ & _ & _ & EE' & _).
  destruct (SO i o o' NO NO') as (T & s0 & S1 & S2). destruct (SB i b b' NB NB') as (w0 & W1 & W2).
  rewrite (barycentric_unique rel _ _ _ _ _ _ BS S1), (barycentric_unique rel _ _ _ _ _ _ BW W1) in KE.
  rewrite (barycentric_unique rel _ _ _ _ _ _ BS' S2), (barycentric_unique rel _ _ _ _ _ _ BW' W2), <- T in KE'.
  rewrite KE in KE'. injection KE' as A1 A2 A3. rewrite EE, EE', A2, T. auto.
Qed.
Print Assumptions C200_representation.
