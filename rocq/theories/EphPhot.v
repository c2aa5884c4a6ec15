(* Photometry of two-body ephemerides. *)
From Coq Require Import Reals Lra Lia String List Bool.
From Verif Require Import Base ListLemmas SphModel SphSpec SphProofs KepModel KepSpec KepElem UnivModel LightModel LightProofs FrameModel PhotModel PhotSpec PhotPhase EphModel EphSpec EphProofs.
Import ListNotations.
Open Scope string_scope.
Open Scope list_scope.
Open Scope R_scope.

Section Photometry.
Variable rel : string -> string -> R -> string -> option row6.
Variable itrf : string -> place -> result row6.
Hypothesis atrest : rest rel.

Lemma helio_row : forall fb es bs gs i e b, (fb = "ecliptic" \/ fb = "equatorial") -> helio rel itrf fb es bs = Ok gs ->
  nth_error es i = Some e -> nth_error bs i = Some b -> e_emit_origin e = "SOLAR_SYSTEM_BARYCENTER" ->
  exists r q, nth_error gs i = Some (r, q) /\
    heliocentric_position rel "ecliptic" "SOLAR_SYSTEM_BARYCENTER" (e_emit_epoch e) (e_emit e) r /\
    heliocentric_position rel fb (ob_origin b) (ob_epoch b) (ob_state b) q.
Proof.
  intros fb es bs gs i e b F H NE NB O. unfold helio in H. apply bind_ok in H as (a & HA & H). apply bind_ok in H as (d & HD & H). injection H as <-.
  destruct (transform_row rel itrf atrest _ _ _ _ i (e_emit_origin e) (e_emit_epoch e) (e_emit e) (or_introl eq_refl) HA) as (w & W & N1); [apply (map_nth_error (fun e => (e_emit_origin e, e_emit_epoch e, e_emit e) : place)); exact NE|].
  destruct (transform_row rel itrf atrest _ _ _ _ i (ob_origin b) (ob_epoch b) (ob_state b) F HD) as (w' & W' & N2); [apply (map_nth_error place_of_observer); exact NB|].
  do 2 eexists. split.
  - rewrite combine_nth, (map_nth_error (fun p : place => pos (snd p)) _ _ N1), (map_nth_error (fun p : place => pos (snd p)) _ _ N2). reflexivity.
  - cbn [snd]. split.
    + exists w. rewrite <- O. split; [exact W|]. left. split; [reflexivity|]. cbn [String.eqb Ascii.eqb Bool.eqb]. apply pos_add.
    + exists w'. split; [exact W'|]. destruct F as [->| ->]; cbn [String.eqb Ascii.eqb Bool.eqb]; [left|right]; (split; [reflexivity|]).
      * apply pos_add.
      * rewrite pos_rot, mat_ecliptic, pos_add. reflexivity.
Qed.

Variable mu_ssb : R.
Variable jac : (row6 -> option row6) -> row6 -> nat -> nat -> option R.
Notation gen := (generate_ephemeris_2body rel itrf mu_ssb jac).

Lemma gen_photometry : forall c fo fb os bs wm wa es, (fo = "ecliptic" \/ fo = "equatorial") -> (fb = "ecliptic" \/ fb = "equatorial") ->
  gen c fo fb os bs wm wa = Ok es ->
  forall i e o b, nth_error es i = Some e -> nth_error os i = Some o -> nth_error bs i = Some b ->
  (wm && existsb has_params os = false -> e_mag e = None) /\ (wa = false -> e_alpha e = None) /\
  (wm && existsb has_params os = true \/ wa = true -> exists r q,
    heliocentric_position rel "ecliptic" "SOLAR_SYSTEM_BARYCENTER" (e_emit_epoch e) (e_emit e) r /\
    heliocentric_position rel fb (ob_origin b) (ob_epoch b) (ob_state b) q /\ geometry_ok r q = true /\
    (wm && existsb has_params os = true -> e_mag e = magnitude_row o (r, q)) /\ (wa = true -> e_alpha e = Some (phase_angle r q))).
Proof.
  intros c fo fb os bs wm wa es FO FB H i e o b N NO NB.
  pose proof (gen_rows rel itrf atrest mu_ssb jac c fo fb os bs wm wa es FO FB H) as (LE & LB & K).
  destruct (K i e N) as (o' & b' & s & w & NO' & NB' & _ & _ & _ & _ & _ & _ & _ & _ & _ & EO & _).
  unfold generate_ephemeris_2body in H. destruct (Nat.eqb (List.length os) (List.length bs)) eqn:L; [|discriminate]. cbn [negb] in H.
  apply bind_ok in H as ([ps qs] & HB & H). apply bind_ok in H as (r & HR & H). cbn [fst snd] in *.
  assert (PL : forall j x, nth_error r j = Some x -> e_mag x = None /\ e_alpha x = None).
  { intros j x NX. pose proof (mapM_length _ _ _ HR) as LR.
    destruct (nth_len r (combine (combine os ps) (combine bs qs)) j x LR NX) as (y & NY).
    destruct (mapM_nth _ _ _ _ _ HR NY) as (z & RZ & NZ). rewrite NX in NZ. injection NZ as <-.
    destruct y as [[o1 [[? ?] s1]] [b1 [[? ?] w1]]]. unfold row in RZ.
    destruct (kernel _ _ _ _ _) as [[[?|] [?|]] [?|]]; try discriminate. injection RZ as <-. split; reflexivity. }
  assert (LR : List.length r = List.length os).
  { rewrite (mapM_length _ _ _ HR), !combine_length. apply Nat.eqb_eq in L.
    destruct (barycentric_rows rel itrf atrest fo fb (map place_of_orbit os) (map place_of_observer bs) ps qs) as (LP & LQ & _);
      [rewrite !map_length; exact L|exact FO|exact FB|exact HB|]. rewrite map_length in LP, LQ. lia. }
  unfold photometry in H. set (m := wm && existsb has_params os) in *.
  destruct (negb m && negb wa) eqn:Q in H.
  - injection H as <-. destruct (PL _ _ N) as [P1 P2]. split; [auto|]. split; [auto|].
    intros [M|M]; rewrite M in Q; [|rewrite andb_false_r in Q]; discriminate.
  - apply bind_ok in H as (gs & HG & H). destruct (negb _) eqn:G in H; [discriminate|]. apply negb_false_iff in G. injection H as <-.
    rewrite nth_error_map, combine_nth in N. destruct (nth_error r i) as [e0|] eqn:NR; [|discriminate].
    rewrite combine_nth, NO in N. destruct (nth_error gs i) as [g|] eqn:NG; [|discriminate]. injection N as <-.
    cbn [e_mag e_alpha e_emit e_emit_epoch e_emit_origin] in *.
    destruct (PL _ _ NR) as [P1 P2].
    destruct (helio_row fb r bs gs i e0 b FB HG NR NB EO) as (rr & q & NG' & H1 & H2). rewrite NG in NG'. injection NG' as ->.
    rewrite forallb_forall in G. pose proof (G _ (nth_error_In _ _ NG)) as GG. cbn [fst snd] in *.
    split; [intros ->; exact P1|]. split; [intros ->; exact P2|].
    intros _. exists rr, q. split; [exact H1|]. split; [exact H2|]. split; [exact GG|]. split; intros ->; reflexivity.
Qed.
End Photometry.

Lemma ec_lin : forall a b, ecliptic (vplus a (equatorial b)) = vplus (ecliptic a) b.
Proof.
  intros a b. rewrite <- (ec_eq b) at 2. destruct a as [[? ?] ?], (equatorial b) as [[? ?] ?]. unfold ecliptic, vplus. f_equal; [f_equal|]; ring.
Qed.
Lemma angle_shift : forall p s w, angle_at (vplus p (scale (-1) s)) (vplus w (scale (-1) s)) = angle_from p s w.
Proof.
  intros [[p0 p1] p2] [[s0 s1] s2] [[w0 w1] w2]. unfold angle_at, angle_from.
  assert (A : scale (-1) (vplus (p0, p1, p2) (scale (-1) (s0, s1, s2))) = towards (p0, p1, p2) (s0, s1, s2)) by (unfold towards, vplus, scale; f_equal; [f_equal|]; ring).
  assert (B : vplus (vplus (w0, w1, w2) (scale (-1) (s0, s1, s2))) (scale (-1) (vplus (p0, p1, p2) (scale (-1) (s0, s1, s2)))) = towards (p0, p1, p2) (w0, w1, w2)) by (unfold towards, vplus, scale; f_equal; [f_equal|]; ring).
  cbv zeta. rewrite A. fold (scale (-1) (vplus (p0, p1, p2) (scale (-1) (s0, s1, s2)))). rewrite <- B, A. reflexivity.
Qed.
