(* Theorems about magnitudes and phase angles of two-body ephemerides. *)
From Coq Require Import Reals Lra Lia String List Bool.
From Verif Require Import Base ListLemmas SphModel SphSpec SphProofs KepModel KepSpec KepElem UnivModel UnivSpec UnivOrbit UnivTime UnivProofs LightModel LightProofs LightProps FrameModel PhotModel PhotSpec PhotPhase EphModel EphSpec EphProofs EphPhot EphProps EphCov EphProps2.
Import ListNotations.
Open Scope string_scope.
Open Scope list_scope.
Open Scope R_scope.

Definition barycentre : string := "SOLAR_SYSTEM_BARYCENTER".
(* the H-G magnitude of an object at r seen from q, both heliocentric *)
Definition hg_magnitude (h g : R) (r q : vec) : R :=
  let t := tan (angle_at r q / 2) in
  h + 5 * log10 (norm r * norm (towards q r))
  - 5 / 2 * log10 ((1 - g) * exp (- (333 / 100) * power t (63 / 100)) + g * exp (- (187 / 100) * power t (122 / 100))).

Lemma apparent_hg : forall h g r q, geometry_ok r q = true -> 0 <= g <= 1 -> cos (angle_at r q) <> -1 -> apparent_v h r q g = Some (hg_magnitude h g r q).
Proof.
  intros h g r q GO Hg Hcos. unfold apparent_v, hg_magnitude. apply geometry_iff in GO as [P Q]. destruct (cos_phase_dot _ _ P Q) as [E B].
  assert (A : cos (angle_at r q) = cos_phase r q) by (rewrite E; unfold angle_at; rewrite cos_acos by lra; reflexivity).
  assert (A' : acos (cos_phase r q) = angle_at r q) by (rewrite E; reflexivity).
  rewrite <- E in B. rewrite A in Hcos. rewrite correction_value by lra. cbn [option_map]. f_equal.
  rewrite tan_of_cos by lra. rewrite A'. unfold phase_fn, phi1, phi2, towards. lra.
Qed.

(* C201: phase angles and magnitudes are null unless asked for, a row without H or G has no magnitude,
   and every other row has the H-G magnitude and phase angle of the emission state and the observer,
   each relative to the Sun. *)
Theorem C201_photometry : forall rel itrf mu jac c fo fb os bs wm wa es, rest rel -> known_frame fo -> known_frame fb ->
  generate_ephemeris_2body rel itrf mu jac c fo fb os bs wm wa = Ok es ->
  forall i e o b, nth_error es i = Some e -> nth_error os i = Some o -> nth_error bs i = Some b ->
  (wm = false -> e_mag e = None) /\ (wa = false -> e_alpha e = None) /\
  (or_H o = None \/ or_G o = None -> e_mag e = None) /\
  (wa = true -> exists r q, heliocentric_position rel "ecliptic" barycentre (e_emit_epoch e) (e_emit e) r /\
     heliocentric_position rel fb (ob_origin b) (ob_epoch b) (ob_state b) q /\ 0 < norm r /\ 0 < norm (towards q r) /\
     e_alpha e = Some (degrees (angle_at r q))) /\
  (forall h g, wm = true -> or_H o = Some h -> or_G o = Some g -> exists r q,
     heliocentric_position rel "ecliptic" barycentre (e_emit_epoch e) (e_emit e) r /\
     heliocentric_position rel fb (ob_origin b) (ob_epoch b) (ob_state b) q /\ 0 < norm r /\ 0 < norm (towards q r) /\
     (0 <= g <= 1 -> cos (angle_at r q) <> -1 -> e_mag e = Some (hg_magnitude h g r q))).
Proof.
  intros rel itrf mu jac c fo fb os bs wm wa es Z FO FB H i e o b N NO NB.
  destruct (gen_photometry rel itrf Z mu jac c fo fb os bs wm wa es FO FB H i e o b N NO NB) as (A1 & A2 & A3).
  split; [intros ->; apply A1; reflexivity|]. split; [exact A2|]. split; [|split].
  - intro M. destruct (wm && existsb has_params os) eqn:W; [|apply A1; reflexivity].
    destruct A3 as (r & q & _ & _ & _ & B & _); [left; reflexivity|]. rewrite (B eq_refl). unfold magnitude_row.
    destruct M as [->| ->]; [|destruct (or_H o)]; reflexivity.
  - intros ->. destruct A3 as (r & q & H1 & H2 & G & _ & B); [right; reflexivity|]. exists r, q. split; [exact H1|]. split; [exact H2|].
    pose proof G as G'. apply geometry_iff in G' as [G1 G2]. split; [exact G1|]. split; [exact G2|]. rewrite (B eq_refl), phase_is_angle by exact G. reflexivity.
  - intros h g -> Hh Hg. assert (W : existsb has_params os = true).
    { apply existsb_exists. exists o. split; [exact (nth_error_In _ _ NO)|]. unfold has_params. rewrite Hh, Hg. reflexivity. }
    destruct A3 as (r & q & H1 & H2 & G & B & _); [left; exact W|]. exists r, q. split; [exact H1|]. split; [exact H2|].
    pose proof G as G'. apply geometry_iff in G' as [G1 G2]. split; [exact G1|]. split; [exact G2|].
    intros Rg C. rewrite (B W). unfold magnitude_row. rewrite Hh, Hg. cbn [fst snd]. apply apparent_hg; assumption.
Qed.
Print Assumptions C201_photometry.

(* C202: what holds: with the Sun at the same place s at emission and at observation, the phase angle is
   the angle at the object, where the light left, between the Sun and the observer. *)
Theorem C202_phase_partial : forall rel itrf mu jac c fo fb os bs wm es i e o b w s, rest rel -> known_frame fo -> known_frame fb ->
  generate_ephemeris_2body rel itrf mu jac c fo fb os bs wm true = Ok es ->
  nth_error es i = Some e -> nth_error os i = Some o -> nth_error bs i = Some b ->
  barycentric_state rel fb (ob_origin b) (ob_epoch b) (ob_state b) w ->
  (forall x, rel barycentre "SUN" (e_emit_epoch e) "ecliptic" = Some x -> pos x = scale (-1) s) ->
  (forall x y, rel (ob_origin b) "SUN" (ob_epoch b) fb = Some x -> rel (ob_origin b) barycentre (ob_epoch b) fb = Some y ->
     pos x = vplus (pos y) (if String.eqb fb "ecliptic" then scale (-1) s else equatorial (scale (-1) s))) ->
  e_alpha e = Some (degrees (angle_from (pos (e_emit e)) s (pos w))).
Proof.
  intros rel itrf mu jac c fo fb os bs wm es i e o b w s Z FO FB H N NO NB (y & Y & BW) S1 S2.
  destruct (C201_photometry rel itrf mu jac c fo fb os bs wm true es Z FO FB H i e o b N NO NB) as (_ & _ & _ & A & _).
  destruct (A eq_refl) as (r & q & (x1 & X1 & P1) & (x2 & X2 & P2) & _ & _ & E). rewrite E.
  assert (ER : r = vplus (pos (e_emit e)) (scale (-1) s)).
  { destruct P1 as [[_ ->]|[Q _]]; [|discriminate]. rewrite (S1 x1 X1). reflexivity. }
  assert (EQ : q = vplus (pos w) (scale (-1) s)).
  { pose proof (S2 x2 y X2 Y) as S. destruct FB as [->| ->].
    - destruct P2 as [[_ ->]|[Q _]]; [|discriminate]. destruct BW as [(_ & -> & _)|[Q _]]; [|discriminate]. rewrite S. cbn [String.eqb Ascii.eqb Bool.eqb].
      destruct (pos (ob_state b)) as [[? ?] ?], (pos y) as [[? ?] ?], s as [[? ?] ?]. unfold vplus, scale. f_equal. f_equal; ring. ring.
    - destruct P2 as [[Q _]|[_ ->]]; [discriminate|]. destruct BW as [[Q _]|(_ & -> & _)]; [discriminate|]. rewrite S. cbn [String.eqb Ascii.eqb Bool.eqb].
      rewrite <- ec_lin. f_equal. destruct (pos (ob_state b)) as [[? ?] ?], (pos y) as [[? ?] ?], (equatorial _) as [[? ?] ?]. unfold vplus. f_equal; [f_equal|]; ring. }
  rewrite ER, EQ, angle_shift. reflexivity.
Qed.
Print Assumptions C202_phase_partial.

(* a Sun in uniform motion: at place u + t v at epoch t *)
Definition moving (u v : vec) (t : R) : vec := vplus u (scale t v).
Definition moving_rel (u v : vec) : string -> string -> R -> string -> option row6 := fun a b t _ =>
  if String.eqb a "SUN" && String.eqb b barycentre then Some (row_of (moving u v t) v)
  else if String.eqb a barycentre && String.eqb b "SUN" then Some (row_of (scale (-1) (moving u v t)) (scale (-1) v))
  else Some (mk6 0 0 0 0 0 0).
Lemma moving_rest : forall u v, rest (moving_rel u v).
Proof.
  intros u v o t f. unfold moving_rel, barycentre. destruct (String.eqb_spec o "SUN") as [->|].
  - reflexivity.
  - destruct (String.eqb_spec o "SOLAR_SYSTEM_BARYCENTER") as [->|]; reflexivity.
Qed.
Lemma dot_norm : forall x, dot x x = norm x * norm x.
Proof. intro x. rewrite <- norm_sq. ring. Qed.
Lemma norm_pos_dot : forall x, 0 < dot x x -> 0 < norm x.
Proof. intros x H. unfold norm. apply sqrt_lt_R0. exact H. Qed.
Lemma norm_two : forall z, norm (scale 2 z) = 2 * norm z.
Proof.
  intro z. apply KepElem.norm_of; [pose proof (sqrt_pos (dot z z)); unfold norm; lra|].
  replace ((2 * norm z) ^ 2) with (4 * (norm z * norm z)) by ring. rewrite <- dot_norm. destruct z as [[? ?] ?]. unfold dot, scale. ring.
Qed.
Lemma orthogonal : forall p : vec, norm p = 1 -> exists v, norm v = 1 /\ dot v p = 0.
Proof.
  intros [[x y] z] N. assert (D : dot (x, y, z) (x, y, z) = 1) by (rewrite dot_norm, N; ring).
  unfold dot in D. destruct (Req_dec (x * x + y * y) 0) as [E|E].
  - assert (X : x = 0) by nra. assert (Y : y = 0) by nra. exists (1, 0, 0). split; [apply KepElem.norm_of; [lra|]; unfold dot; ring|]. unfold dot. rewrite X. ring.
  - assert (P : 0 < x * x + y * y) by nra. set (k := sqrt (x * x + y * y)). assert (K : 0 < k) by (apply sqrt_lt_R0; exact P).
    assert (KK : k * k = x * x + y * y) by (apply sqrt_def; lra).
    exists (- y / k, x / k, 0). split; [apply KepElem.norm_of; [lra|]; unfold dot|unfold dot; field; lra].
    replace (- y / k * (- y / k) + x / k * (x / k) + 0 * 0) with ((x * x + y * y) / (k * k)) by (field; lra). rewrite KK. field. lra.
Qed.
(* an angle whose directions are not along each other is not zero *)
Lemma angle_not_zero : forall p a b, 0 < norm (towards p a) -> 0 < norm (towards p b) ->
  dot (towards p a) (towards p b) * dot (towards p a) (towards p b) < dot (towards p a) (towards p a) * dot (towards p b) (towards p b) ->
  angle_from p a b <> 0.
Proof.
  intros p a b. unfold angle_from. set (x := towards p a). set (y := towards p b). intros X Y C Z.
  assert (X2 : dot x x = norm x * norm x) by apply dot_norm. assert (Y2 : dot y y = norm y * norm y) by apply dot_norm.
  assert (P : 0 < norm x * norm y) by (apply Rmult_lt_0_compat; assumption).
  set (q := dot x y / (norm x * norm y)) in *. assert (D : dot x y = q * (norm x * norm y)) by (unfold q; field; lra).
  assert (Q : q * q < 1).
  { rewrite X2, Y2, D in C. apply Rmult_lt_reg_r with ((norm x * norm y) * (norm x * norm y)); [apply Rmult_lt_0_compat; exact P|]. lra. }
  assert (B : -1 <= q <= 1) by nra. pose proof (cos_acos q B) as E. rewrite Z, cos_0 in E. subst q. nra.
Qed.

Lemma single_alpha : forall rel itrf mu jac c o b e, or_origin o = barycentre -> ob_origin b = barycentre ->
  row mu jac c (negb (all_missing (or_cov o))) ((o, place_of_orbit o), (b, place_of_observer b)) = Ok e ->
  forall r q, helio rel itrf "ecliptic" [e] [b] = Ok [(r, q)] -> geometry_ok r q = true ->
  exists e', generate_ephemeris_2body rel itrf mu jac c "ecliptic" "ecliptic" [o] [b] false true = Ok [e'] /\
    e_alpha e' = Some (phase_angle r q) /\ e_emit e' = e_emit e /\ e_emit_epoch e' = e_emit_epoch e /\ e_epoch e' = e_epoch e.
Proof.
  intros rel itrf mu jac c o b e O B RE r q HG G. eexists. split.
  - unfold generate_ephemeris_2body. cbn [List.length Nat.eqb negb map].
    unfold place_of_orbit, place_of_observer in RE. rewrite O, B in RE. unfold barycentric, shortcut, place_of_orbit, place_of_observer. rewrite O, B. unfold barycentre in *. cbn [forallb fst snd andb String.eqb Ascii.eqb Bool.eqb].
    unfold transform. cbn [forallb fst snd andb String.eqb Ascii.eqb Bool.eqb bind combine mapM]. rewrite andb_true_r.
    rewrite RE. cbn [bind]. unfold photometry. cbn [andb negb]. rewrite HG. cbn [bind forallb fst snd]. rewrite G. cbn [andb negb combine map]. reflexivity.
  - cbn [e_alpha e_emit e_emit_epoch e_epoch fst snd]. auto.
Qed.

(* C202 refuted: the Sun moves between emission and observation, and the angle reported is neither the
   angle with the Sun where it was at emission nor with the Sun where it is at observation. *)
Theorem C202_phase_refuted : exists u v mu jac c o b e, norm v = 1 /\
  generate_ephemeris_2body (moving_rel u v) no_itrf mu jac c "ecliptic" "ecliptic" [o] [b] false true = Ok [e] /\
  or_origin o = barycentre /\ ob_origin b = barycentre /\ or_epoch o = ob_epoch b /\
  e_alpha e = Some 0 /\ angle_from (pos (e_emit e)) (moving u v (e_emit_epoch e)) (pos (ob_state b)) <> 0 /\
  angle_from (pos (e_emit e)) (moving u v (ob_epoch b)) (pos (ob_state b)) <> 0.
Proof.
  destruct (light_time_last 0 1000 0 1) as (s' & _ & A & D).
  { split; [lra|]. apply pow_lt. lra. }
  { split; [lra|]. apply Rlt_pow_R1; [lra|lia]. }
  pose proof light_pos as LP. set (l := 1 / light) in *. assert (L0 : 0 < l) by (unfold l; apply Rdiv_lt_0_compat; lra).
  assert (N : norm (pos s') = 1).
  { apply (f_equal (fun x => x * light)) in D. unfold l in D. replace (distance (pos s') (0, 0, 0) / light * light) with (distance (pos s') (0, 0, 0)) in D by (field; lra).
    replace (1 / light * light) with 1 in D by (field; lra). rewrite distance_norm in D. rewrite <- D. f_equal.
    destruct (pos s') as [[? ?] ?]. unfold vminus, vplus, scale. apply f_equal2; [apply f_equal2|]; ring. }
  destruct (orthogonal (pos s') N) as (v & V & O).
  set (p := pos s') in *.
  assert (PP : dot p p = 1) by (rewrite dot_norm, N; ring). assert (VV : dot v v = 1) by (rewrite dot_norm, V; ring).
  exists (scale (-1) (vplus p (scale l v))), v, 1, (fun _ _ _ _ => None), (mkset 1 1000 0 false), case_orbit, (case_observer "500" 0).
  assert (K : row 1 (fun _ _ _ _ => None) (mkset 1 1000 0 false) (negb (all_missing (or_cov case_orbit))) ((case_orbit, place_of_orbit case_orbit), (case_observer "500" 0, place_of_observer (case_observer "500" 0)))
     = Ok (mkeph "a" None 0 "500" "equatorial" (cartesian_to_spherical (rotate_ec2eq (sub6 s' (mk6 0 0 0 0 0 0)))) no_cov l s' (0 - l) barycentre "ecliptic" None None)).
  { unfold row, place_of_orbit, place_of_observer, case_orbit, case_observer. cbn [or_origin or_epoch or_state ob_origin ob_epoch ob_state or_cov].
    unfold kernel. cbn [lt_tol max_iter kep_tol stellar]. change (pos (mk6 0 0 0 0 0 0)) with (0, 0, 0). change max_lt_iter with (3 + 7)%nat. rewrite A. reflexivity. }
  set (e0 := mkeph _ _ _ _ _ _ _ _ _ _ _ _ _ _) in K.
  set (u := scale (-1) (vplus p (scale l v))).
  assert (HG : helio (moving_rel u v) no_itrf "ecliptic" [e0] [case_observer "500" 0] = Ok [(scale 2 (vplus p (scale l v)), vplus p (scale l v))]).
  { unfold helio, e0, case_observer, place_of_observer. cbn [map e_emit_origin e_emit_epoch e_emit ob_origin ob_epoch ob_state].
    unfold transform, barycentre. cbn [forallb fst snd andb String.eqb Ascii.eqb Bool.eqb bind mapM to_origin].
    unfold moving_rel, barycentre. cbn [String.eqb Ascii.eqb Bool.eqb andb bind combine map snd]. rewrite !pos_add, !pos_row.
    fold p. apply f_equal. apply f_equal2; [|reflexivity]. apply f_equal2.
    - unfold moving, u. destruct p as [[? ?] ?], v as [[? ?] ?]. unfold vplus, scale. apply f_equal2; [apply f_equal2|]; ring.
    - unfold moving, u. destruct p as [[? ?] ?], v as [[? ?] ?]. unfold vplus, scale, pos. cbn [c_0 c_1 c_2]. apply f_equal2; [apply f_equal2|]; ring. }
  set (z := vplus p (scale l v)) in *.
  assert (ZZ : dot z z = 1 + l * l).
  { unfold z. transitivity (dot p p + 2 * l * dot v p + l * l * dot v v); [|rewrite PP, VV, O; ring].
    clear. destruct p as [[? ?] ?], v as [[? ?] ?]. unfold dot, vplus, scale. ring. }
  assert (LL : 0 < l * l) by (apply Rmult_lt_0_compat; exact L0).
  assert (NZ : 0 < norm z).
  { assert (X : norm z * norm z = 1 + l * l) by (rewrite <- dot_norm; exact ZZ). pose proof (sqrt_pos (dot z z)) as Y. fold (norm z) in Y.
    destruct Y as [Y|Y]; [exact Y|]. rewrite <- Y in X. lra. }
  assert (G : geometry_ok (scale 2 z) z = true).
  { apply geometry_iff. assert (E : vplus (scale 2 z) (scale (-1) z) = z) by (clearbody z; destruct z as [[? ?] ?]; unfold vplus, scale; apply f_equal2; [apply f_equal2|]; ring). rewrite E. split; [|exact NZ].
    rewrite norm_two. lra. }
  destruct (single_alpha (moving_rel u v) no_itrf 1 _ _ case_orbit (case_observer "500" 0) e0 eq_refl eq_refl K _ _ HG G) as (e & E1 & E2 & E3 & E4 & _).
  exists e. split; [exact V|]. split; [exact E1|]. split; [reflexivity|]. split; [reflexivity|]. split; [reflexivity|].
  rewrite E2, E3, E4. cbn [e_emit e_emit_epoch e0 ob_epoch ob_state case_observer]. fold p. change (pos (mk6 0 0 0 0 0 0)) with (0, 0, 0).
  split; [|split].
  - f_equal. rewrite phase_is_angle by exact G. unfold angle_at, degrees.
    assert (E : vplus z (scale (-1) (scale 2 z)) = scale (-1) z) by (clearbody z; destruct z as [[? ?] ?]; unfold vplus, scale; apply f_equal2; [apply f_equal2|]; ring). rewrite E.
    assert (N1 : norm (scale (-1) z) = norm z) by (unfold norm; f_equal; clearbody z; destruct z as [[? ?] ?]; unfold dot, scale; ring).
    assert (N2 : norm (scale (-1) (scale 2 z)) = 2 * norm z).
    { rewrite <- norm_two. unfold norm. f_equal. clearbody z; destruct z as [[? ?] ?]. unfold dot, scale. ring. }
    rewrite N1, N2. replace (dot (scale (-1) (scale 2 z)) (scale (-1) z)) with (2 * dot z z) by (clearbody z; destruct z as [[? ?] ?]; unfold dot, scale; ring).
    rewrite dot_norm. replace (2 * (norm z * norm z) / (2 * norm z * norm z)) with 1 by (field; lra). rewrite acos_1. ring.
  - assert (E : towards p (moving u v (0 - l)) = scale (-2) z).
    { unfold towards, moving, u, z. clearbody p; destruct p as [[? ?] ?], v as [[? ?] ?]. unfold vplus, scale. apply f_equal2; [apply f_equal2|]; ring. }
    assert (F : towards p (0, 0, 0) = scale (-1) p) by (unfold towards; clearbody p; destruct p as [[? ?] ?]; unfold vplus, scale; apply f_equal2; [apply f_equal2|]; ring).
    assert (ZP : dot z p = 1).
    { unfold z. transitivity (dot p p + l * dot v p); [|rewrite PP, O; ring]. clear. clearbody p; destruct p as [[? ?] ?], v as [[? ?] ?]. unfold dot, vplus, scale. ring. }
    apply angle_not_zero; rewrite ?E, ?F.
    + apply norm_pos_dot. replace (dot (scale (-2) z) (scale (-2) z)) with (4 * dot z z) by (clearbody z; clear; destruct z as [[? ?] ?]; unfold dot, scale; ring). lra.
    + apply norm_pos_dot. replace (dot (scale (-1) p) (scale (-1) p)) with (dot p p) by (clearbody p; clear; destruct p as [[? ?] ?]; unfold dot, scale; ring). lra.
    + replace (dot (scale (-2) z) (scale (-2) z)) with (4 * dot z z) by (clearbody z; clear; destruct z as [[? ?] ?]; unfold dot, scale; ring).
      replace (dot (scale (-1) p) (scale (-1) p)) with (dot p p) by (clearbody p; clear; destruct p as [[? ?] ?]; unfold dot, scale; ring).
      replace (dot (scale (-2) z) (scale (-1) p)) with (2 * dot z p) by (clearbody p z; clear; destruct p as [[? ?] ?], z as [[? ?] ?]; unfold dot, scale; ring).
      rewrite ZP, ZZ, PP. lra.
  - assert (E : towards p (moving u v 0) = vplus (scale (-2) p) (scale (- l) v)).
    { unfold towards, moving, u, z. clear. clearbody p; destruct p as [[? ?] ?], v as [[? ?] ?]. unfold vplus, scale. apply f_equal2; [apply f_equal2|]; ring. }
    assert (F : towards p (0, 0, 0) = scale (-1) p) by (unfold towards; clearbody p; clear; destruct p as [[? ?] ?]; unfold vplus, scale; apply f_equal2; [apply f_equal2|]; ring).
    set (y := vplus (scale (-2) p) (scale (- l) v)) in *.
    assert (YY : dot y y = 4 + l * l).
    { unfold y. transitivity (4 * dot p p + 4 * l * dot v p + l * l * dot v v); [|rewrite PP, VV, O; ring]. clear. clearbody p; destruct p as [[? ?] ?], v as [[? ?] ?]. unfold dot, vplus, scale. ring. }
    assert (YP : dot y (scale (-1) p) = 2).
    { unfold y. transitivity (2 * dot p p + l * dot v p); [|rewrite PP, O; ring]. clear. clearbody p; destruct p as [[? ?] ?], v as [[? ?] ?]. unfold dot, vplus, scale. ring. }
    apply angle_not_zero; rewrite ?E, ?F.
    + apply norm_pos_dot. lra.
    + apply norm_pos_dot. replace (dot (scale (-1) p) (scale (-1) p)) with (dot p p) by (clearbody p; clear; destruct p as [[? ?] ?]; unfold dot, scale; ring). lra.
    + replace (dot (scale (-1) p) (scale (-1) p)) with (dot p p) by (clearbody p; clear; destruct p as [[? ?] ?]; unfold dot, scale; ring).
      rewrite YP, YY, PP. lra.
Qed.
Print Assumptions C202_phase_refuted.

(* two objects at opposition, one without absolute magnitude *)
Definition bright (h g : option R) : orbit := mkorbit "a" None 0 barycentre (mk6 2 0 0 0 0 0) no_cov h g.
Lemma opposition : forall h, apparent_v h (2, 0, 0) (1, 0, 0) 0 = Some (h + 5 * log10 2) /\ geometry_ok (2, 0, 0) (1, 0, 0) = true /\ phase_angle (2, 0, 0) (1, 0, 0) = 0.
Proof.
  intro h. assert (N2 : norm (2, 0, 0) = 2) by (apply KepElem.norm_of; [lra|]; unfold dot; ring).
  assert (N1 : norm (1, 0, 0) = 1) by (apply KepElem.norm_of; [lra|]; unfold dot; ring).
  assert (ND : norm (vplus (2, 0, 0) (scale (-1) (1, 0, 0))) = 1) by (apply KepElem.norm_of; [lra|]; unfold dot, vplus, scale; ring).
  assert (G : geometry_ok (2, 0, 0) (1, 0, 0) = true) by (apply geometry_iff; rewrite N2, ND; lra).
  assert (C : angle_at (2, 0, 0) (1, 0, 0) = 0).
  { unfold angle_at. replace (norm (scale (-1) (2, 0, 0))) with 2 by (symmetry; apply KepElem.norm_of; [lra|]; unfold dot, scale; ring).
    replace (norm (vplus (1, 0, 0) (scale (-1) (2, 0, 0)))) with 1 by (symmetry; apply KepElem.norm_of; [lra|]; unfold dot, vplus, scale; ring).
    rewrite <- acos_1. f_equal. unfold dot, vplus, scale. field. }
  split; [|split].
  - rewrite apparent_hg; [|exact G|lra|rewrite C, cos_0; lra]. f_equal. unfold hg_magnitude. rewrite C, N2. unfold towards. rewrite ND.
    replace (0 / 2) with 0 by field. rewrite tan_0. unfold power. destruct (Rlt_dec 0 0); [lra|]. rewrite !Rmult_0_r, exp_0.
    replace ((1 - 0) * 1 + 0 * 1) with 1 by ring. rewrite Rmult_1_r. unfold log10. rewrite ln_1. unfold Rdiv. ring.
  - exact G.
  - rewrite phase_is_angle, C by exact G. unfold degrees. ring.
Qed.
Example C201_case : exists es, generate_ephemeris_2body at_rest_rel no_itrf 1 (fun _ _ _ _ => None) off_settings "ecliptic" "ecliptic"
    [bright (Some 15) (Some 0); bright None (Some 0)] [case_observer "500" 1; case_observer "500" 1] true true = Ok es /\
  map e_mag es = [Some (15 + 5 * log10 2); None] /\ map e_alpha es = [Some 0; Some 0].
Proof.
  eexists. split.
  - unfold generate_ephemeris_2body. cbn [List.length Nat.eqb negb map].
    unfold barycentric, shortcut, place_of_orbit, place_of_observer, case_observer, bright, barycentre. cbn [or_origin or_epoch or_state ob_origin ob_epoch ob_state].
    cbn [forallb fst snd andb String.eqb Ascii.eqb Bool.eqb]. unfold transform at 1 2. cbn [forallb fst snd andb String.eqb Ascii.eqb Bool.eqb bind mapM to_origin combine].
    unfold row at 1 2. cbn [or_epoch]. unfold off_settings. rewrite !kernel_off. cbn [bind]. unfold photometry. cbn [existsb has_params missing or_H or_G negb andb orb].
    unfold helio, place_of_observer, transform. cbn [map e_emit_origin e_emit_epoch e_emit ob_origin ob_epoch ob_state forallb fst snd andb String.eqb Ascii.eqb Bool.eqb bind mapM to_origin].
    unfold at_rest_rel. cbn [bind mapM map combine snd]. rewrite !zero6_add. change (pos (mk6 2 0 0 0 0 0)) with (2, 0, 0). change (pos (mk6 1 0 0 0 0 0)) with (1, 0, 0).
    cbn [forallb fst snd]. destruct (opposition 15) as (_ & G & _). rewrite G. cbn [andb negb map combine fst snd]. reflexivity.
  - destruct (opposition 15) as (A & _ & P). cbn [map e_mag e_alpha magnitude_row or_H or_G fst snd]. rewrite A, P. split; reflexivity.
Qed.
(* the Sun at rest at the barycentre *)
Example C202_partial_case : exists e, generate_ephemeris_2body at_rest_rel no_itrf 1 (fun _ _ _ _ => None) off_settings "ecliptic" "ecliptic"
    [bright None None] [case_observer "500" 1] false true = Ok [e] /\ e_alpha e = Some 0 /\
  e_alpha e = Some (degrees (angle_from (pos (e_emit e)) (0, 0, 0) (1, 0, 0))).
Proof.
  assert (X : exists e, generate_ephemeris_2body at_rest_rel no_itrf 1 (fun _ _ _ _ => None) off_settings "ecliptic" "ecliptic"
    [bright None None] [case_observer "500" 1] false true = Ok [e] /\ e_alpha e = Some 0).
  { destruct (opposition 15) as (_ & G & P).
    destruct (single_alpha at_rest_rel no_itrf 1 (fun _ _ _ _ => None) off_settings (bright None None) (case_observer "500" 1)
      (mkeph "a" None 0 "500" "equatorial" (cartesian_to_spherical (rotate_ec2eq (sub6 (mk6 2 0 0 0 0 0) (mk6 1 0 0 0 0 0)))) no_cov (10 ^ 30) (mk6 2 0 0 0 0 0) (0 - 10 ^ 30) barycentre "ecliptic" None None)
      eq_refl eq_refl) with (r := (2, 0, 0)) (q := (1, 0, 0)) as (e & E1 & E2 & _).
    - unfold row, off_settings. cbn [bright or_epoch place_of_orbit place_of_observer]. rewrite kernel_off. reflexivity.
    - unfold helio, case_observer, place_of_observer, transform, barycentre. cbn [map e_emit_origin e_emit_epoch e_emit ob_origin ob_epoch ob_state forallb fst snd andb String.eqb Ascii.eqb Bool.eqb bind mapM to_origin].
      unfold at_rest_rel. cbn [bind mapM map combine snd]. rewrite !zero6_add. reflexivity.
    - exact G.
    - exists e. split; [exact E1|]. rewrite E2, P. reflexivity. }
  destruct X as (e & E1 & E2). exists e. split; [exact E1|]. split; [exact E2|].
  apply (C202_phase_partial at_rest_rel no_itrf 1 (fun _ _ _ _ => None) off_settings "ecliptic" "ecliptic" _ _ false _ 0 e _ (case_observer "500" 1) (mk6 1 0 0 0 0 0) (0, 0, 0)
    (fun _ _ _ => eq_refl) (or_introl eq_refl) (or_introl eq_refl) E1 eq_refl eq_refl eq_refl).
  - exists (mk6 0 0 0 0 0 0). split; [reflexivity|]. left. split; [reflexivity|]. cbn [case_observer ob_state].
    split; unfold pos, vel, vplus; cbn [c_0 c_1 c_2 c_3 c_4 c_5]; (apply f_equal2; [apply f_equal2|]; ring).
  - intros x X. injection X as <-. unfold pos, scale. cbn [c_0 c_1 c_2]. apply f_equal2; [apply f_equal2|]; ring.
  - intros x y X Y. injection X as <-. injection Y as <-. cbn [String.eqb Ascii.eqb Bool.eqb]. unfold pos, scale, vplus. cbn [c_0 c_1 c_2]. apply f_equal2; [apply f_equal2|]; ring.
Qed.
(* C200: an orbit about the Sun and the same orbit about the barycentre *)
Example C200_case : forall jac, exists e e',
  generate_ephemeris_2body offset_rel no_itrf 1 jac off_settings "ecliptic" "ecliptic" [sun_orbit "SUN"] [case_observer "500" 0] false false = Ok [e] /\
  generate_ephemeris_2body offset_rel no_itrf 1 jac off_settings "ecliptic" "ecliptic"
    [mkorbit "a" None 0 barycentre (mk6 0 1 0 0 0 0) no_cov None None] [case_observer "500" 0] false false = Ok [e'] /\
  barycentric_state offset_rel "ecliptic" "SUN" 0 (mk6 1 0 0 0 0 0) (mk6 0 1 0 0 0 0) /\
  barycentric_state offset_rel "ecliptic" barycentre 0 (mk6 0 1 0 0 0 0) (mk6 0 1 0 0 0 0) /\
  e_coord e = e_coord e' /\ e_emit e = e_emit e'.
Proof.
  intro jac. do 2 eexists. split; [apply sun_row|]. split.
  { rewrite single by reflexivity. unfold row, place_of_orbit, place_of_observer, case_observer. cbn [or_origin or_epoch or_state ob_origin ob_epoch ob_state].
    unfold off_settings. rewrite kernel_off. reflexivity. }
  split; [|split].
  - exists (mk6 (-1) 1 0 0 0 0). split; [reflexivity|]. left. split; [reflexivity|].
    split; unfold pos, vel, vplus; cbn [c_0 c_1 c_2 c_3 c_4 c_5]; (apply f_equal2; [apply f_equal2|]; ring).
  - exists (mk6 0 0 0 0 0 0). split; [reflexivity|]. left. split; [reflexivity|].
    split; unfold pos, vel, vplus; cbn [c_0 c_1 c_2 c_3 c_4 c_5]; (apply f_equal2; [apply f_equal2|]; ring).
  - cbn [e_coord e_emit]. replace (add6 (mk6 1 0 0 0 0 0) (mk6 (-1) 1 0 0 0 0)) with (mk6 0 1 0 0 0 0) by (unfold add6; cbn [c_0 c_1 c_2 c_3 c_4 c_5]; f_equal; ring).
    split; reflexivity.
Qed.
