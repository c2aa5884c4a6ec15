(* Theorems about covariances and photometry of two-body ephemerides. *)
From Coq Require Import Reals Lra Lia String List Bool.
From Coquelicot Require Import Coquelicot.
From Verif Require Import Base ListLemmas SphModel SphSpec SphProofs KepModel KepSpec KepElem UnivModel UnivSpec UnivOrbit UnivTime UnivProofs LightModel LightProofs LightProps FrameModel PhotModel EphModel EphSpec EphProofs EphCov EphProps.
Import ListNotations.
Open Scope string_scope.
Open Scope list_scope.
Open Scope R_scope.

(* C197: what holds: for barycentric ecliptic orbits the covariance reported is D C D', with D the
   derivatives of the reported coordinates with respect to the orbit's state. *)
Theorem C197_covariance_partial : forall rel itrf mu jac c fb os bs wm wa es i e o b D C, rest rel -> known_frame fb -> differentiates jac ->
  generate_ephemeris_2body rel itrf mu jac c "ecliptic" fb os bs wm wa = Ok es ->
  nth_error es i = Some e -> nth_error os i = Some o -> nth_error bs i = Some b -> or_origin o = "SOLAR_SYSTEM_BARYCENTER" ->
  (forall k l, (k < 6)%nat -> (l < 6)%nat -> or_cov o k l = Some (C k l)) ->
  forall a a', (forall j, (j < 6)%nat -> partial_derivative (coordinates_of rel itrf mu jac c "ecliptic" fb o b) (or_state o) a j (D a j) /\
                                       partial_derivative (coordinates_of rel itrf mu jac c "ecliptic" fb o b) (or_state o) a' j (D a' j)) ->
    e_cov e a a' = Some (propagated D C a a').
Proof.
  intros rel itrf mu jac c fb os bs wm wa es i e o b D C Z FB J H N NO NB OR HC a a' PD.
  destruct (gen_rows rel itrf Z mu jac _ _ _ _ _ _ _ _ (or_introl eq_refl) FB H) as (_ & _ & K).
  destruct (K i e N) as (o' & b' & s & w & NO' & NB' & _ & BW & _ & _ & _ & _ & _ & _ & _ & _ & _ & EC).
  rewrite NO in NO'. injection NO' as <-. rewrite NB in NB'. injection NB' as <-.
  assert (M : forallb (fun o => all_missing (or_cov o)) os = false).
  { destruct (forallb _ os) eqn:E; [|reflexivity]. rewrite forallb_forall in E. specialize (E o (nth_error_In _ _ NO)).
    rewrite (all_missing_some _ _ (HC 0%nat 0%nat (Nat.lt_0_succ 5) (Nat.lt_0_succ 5))) in E. discriminate. }
  rewrite EC, M. unfold covariance_row. apply sandwich_some; [|exact HC].
  intros k Hk. destruct (PD k Hk) as [P1 P2].
  split; apply J; [apply partial_incl with (2 := P1)|apply partial_incl with (2 := P2)]; intros z y Y;
    exact (coordinates_kernel rel itrf mu jac c fb o b z y w Z FB OR BW Y).
Qed.
Print Assumptions C197_covariance_partial.

(* an orbit at (1, 0, 0) from the Sun, which is at (-1, 1, 0), seen from the barycentre *)
Definition offset_rel : string -> string -> R -> string -> option row6 := fun a b _ _ =>
  if String.eqb a "SUN" && String.eqb b "SOLAR_SYSTEM_BARYCENTER" then Some (mk6 (-1) 1 0 0 0 0)
  else if String.eqb a "SOLAR_SYSTEM_BARYCENTER" && String.eqb b "SUN" then Some (mk6 1 (-1) 0 0 0 0)
  else Some (mk6 0 0 0 0 0 0).
Definition x_variance (k l : nat) : R := match k, l with 0%nat, 0%nat => 1 | _, _ => 0 end.
Definition sun_orbit (origin : string) : orbit := mkorbit "a" None 0 origin (mk6 1 0 0 0 0 0) (fun k l => Some (x_variance k l)) None None.
Definition off_settings : settings := mkset (10 ^ 30) 1000 (/ 10 ^ 15) false.

Lemma offset_rest : rest offset_rel.
Proof.
  intros o t f. unfold offset_rel. destruct (String.eqb_spec o "SUN") as [->|].
  - reflexivity.
  - destruct (String.eqb_spec o "SOLAR_SYSTEM_BARYCENTER") as [->|]; reflexivity.
Qed.
Lemma sun_row : forall jac x, generate_ephemeris_2body offset_rel no_itrf 1 jac off_settings "ecliptic" "ecliptic"
    [mkorbit "a" None 0 "SUN" x (fun k l => Some (x_variance k l)) None None] [case_observer "500" 0] false false =
  Ok [mkeph "a" None 0 "500" "equatorial" (cartesian_to_spherical (rotate_ec2eq (sub6 (add6 x (mk6 (-1) 1 0 0 0 0)) (mk6 0 0 0 0 0 0))))
        (covariance_row 1 jac off_settings (mkorbit "a" None 0 "SUN" x (fun k l => Some (x_variance k l)) None None) (mk6 0 0 0 0 0 0))
        (10 ^ 30) (add6 x (mk6 (-1) 1 0 0 0 0)) (0 - 10 ^ 30) "SOLAR_SYSTEM_BARYCENTER" "ecliptic" None None].
Proof.
  intros jac x. unfold generate_ephemeris_2body. cbn [List.length Nat.eqb negb map].
  unfold barycentric, shortcut, place_of_orbit, place_of_observer, case_observer. cbn [or_origin or_epoch or_state ob_origin ob_epoch ob_state].
  cbn [forallb fst snd andb String.eqb Ascii.eqb Bool.eqb]. unfold transform. cbn [forallb fst snd andb String.eqb Ascii.eqb Bool.eqb bind mapM to_origin].
  unfold offset_rel at 1. cbn [String.eqb Ascii.eqb Bool.eqb andb bind combine mapM fst snd]. unfold row. cbn [or_epoch].
  unfold off_settings. rewrite kernel_off. cbn [bind]. unfold photometry. cbn [andb negb].
  unfold all_missing at 1. cbn [or_cov forallb missing andb negb]. reflexivity.
Qed.
(* C197 refuted: a heliocentric orbit whose x coordinate has variance 1, all others 0, at a place where
   the distance does not change with x: the variance of the distance is 0, but 1 is reported.  (The
   tolerance of the light time is so large that no light time is applied.) *)
Theorem C197_covariance_refuted : forall jac, differentiates jac ->
  exists rel itrf mu c o b e D C, rest rel /\
  generate_ephemeris_2body rel itrf mu jac c "ecliptic" "ecliptic" [o] [b] false false = Ok [e] /\
  (forall j, (j < 6)%nat -> partial_derivative (coordinates_of rel itrf mu jac c "ecliptic" "ecliptic" o b) (or_state o) 0 j (D 0%nat j)) /\
  (forall k l, or_cov o k l = Some (C k l)) /\ or_origin o = "SUN" /\
  propagated D C 0 0 = 0 /\ e_cov e 0%nat 0%nat = Some 1.
Proof.
  intros jac J. exists offset_rel, no_itrf, 1, off_settings, (sun_orbit "SUN"), (case_observer "500" 0).
  unfold sun_orbit. eexists. exists (fun _ => gradient (0, 1, 0)), x_variance.
  assert (N1 : norm (0, 1, 0) = 1) by (apply KepElem.norm_of; [lra|]; unfold dot; ring).
  assert (N2 : norm (1, 0, 0) = 1) by (apply KepElem.norm_of; [lra|]; unfold dot; ring).
  split; [exact offset_rest|]. split; [apply sun_row|]. split; [|split; [reflexivity|split; [reflexivity|split]]].
  - intros j Hj. cbn [or_state].
    replace (0, 1, 0) with (vplus (pos (mk6 1 0 0 0 0 0)) (-1, 1, 0)) by (unfold pos, vplus; cbn [c_0 c_1 c_2]; f_equal; [f_equal|]; ring).
    apply norm_derive; [exact Hj| |].
    + intro y. unfold coordinates_of. cbn [or_id or_object or_epoch or_origin or_cov or_H or_G]. rewrite sun_row. eexists. split; [reflexivity|].
      cbn [e_coord]. rewrite rho_sub. f_equal. unfold towards, pos, add6, vplus, scale. cbn [c_0 c_1 c_2]. f_equal; [f_equal|]; ring.
    + replace (vplus (pos (mk6 1 0 0 0 0 0)) (-1, 1, 0)) with (0, 1, 0) by (unfold pos, vplus; cbn [c_0 c_1 c_2]; f_equal; [f_equal|]; ring). rewrite N1. lra.
  - unfold propagated, total6, x_variance, gradient. rewrite N1. field.
  - cbn [e_cov]. unfold covariance_row. cbn [or_epoch or_state or_cov].
    assert (P : forall j, (j < 6)%nat -> jac (fun x => fst (fst (kernel off_settings x 0 (mk6 0 0 0 0 0 0) 1))) (mk6 1 0 0 0 0 0) 0%nat j = Some (gradient (1, 0, 0) j)).
    { intros j Hj. apply J.
      replace (1, 0, 0) with (vplus (pos (mk6 1 0 0 0 0 0)) (0, 0, 0)) by (unfold pos, vplus; cbn [c_0 c_1 c_2]; f_equal; [f_equal|]; ring).
      apply norm_derive; [exact Hj| |].
      - intro y. unfold off_settings. rewrite kernel_off. eexists. split; [reflexivity|]. rewrite rho_sub. f_equal.
        unfold towards, pos, vplus, scale. cbn [c_0 c_1 c_2]. f_equal; [f_equal|]; ring.
      - replace (vplus (pos (mk6 1 0 0 0 0 0)) (0, 0, 0)) with (1, 0, 0) by (unfold pos, vplus; cbn [c_0 c_1 c_2]; f_equal; [f_equal|]; ring). rewrite N2. lra. }
    unfold sandwich. rewrite (osum_some _ (fun l => total6 (fun k => gradient (1, 0, 0) k * x_variance k l) * gradient (1, 0, 0) l)).
    + f_equal. unfold total6, x_variance, gradient. rewrite N2. field.
    + intros l Hl. rewrite (osum_some _ (fun k => gradient (1, 0, 0) k * x_variance k l)); [|intros k Hk; rewrite P by exact Hk; reflexivity].
      rewrite P by exact Hl. reflexivity.
Qed.
Print Assumptions C197_covariance_refuted.
(* whatever the settings: the covariance is that of the row with the same six numbers about any other
   origin and in any other frame *)
Theorem C197_origin_ignored_refuted : forall rel itrf mu jac c fo fo' fb o origin' b e e', rest rel -> known_frame fo -> known_frame fo' -> known_frame fb ->
  generate_ephemeris_2body rel itrf mu jac c fo fb [o] [b] false false = Ok [e] ->
  generate_ephemeris_2body rel itrf mu jac c fo' fb
    [mkorbit (or_id o) (or_object o) (or_epoch o) origin' (or_state o) (or_cov o) (or_H o) (or_G o)] [b] false false = Ok [e'] ->
  e_cov e = e_cov e'.
Proof.
  intros rel itrf mu jac c fo fo' fb o origin' b e e' Z F1 F2 F3 H H'.
  destruct (gen_rows rel itrf Z mu jac _ _ _ _ _ _ _ _ F1 F3 H) as (_ & _ & K). destruct (K 0%nat e eq_refl) as (o1 & b1 & s & w & NO & NB & _ & BW & _ & _ & _ & _ & _ & _ & _ & _ & _ & EC).
  destruct (gen_rows rel itrf Z mu jac _ _ _ _ _ _ _ _ F2 F3 H') as (_ & _ & K'). destruct (K' 0%nat e' eq_refl) as (o2 & b2 & s2 & w2 & NO2 & NB2 & _ & BW2 & _ & _ & _ & _ & _ & _ & _ & _ & _ & EC2).
  cbn in NO, NB, NO2, NB2. injection NO as <-. injection NB as <-. injection NO2 as <-. injection NB2 as <-.
  rewrite (barycentric_unique rel _ _ _ _ _ _ BW2 BW) in EC2. rewrite EC, EC2. cbn [forallb or_cov]. destruct (all_missing (or_cov o) && true); reflexivity.
Qed.
Print Assumptions C197_origin_ignored_refuted.
Example C197_case : forall jac, exists e e',
  generate_ephemeris_2body offset_rel no_itrf 1 jac off_settings "ecliptic" "ecliptic" [sun_orbit "SUN"] [case_observer "500" 0] false false = Ok [e] /\
  generate_ephemeris_2body offset_rel no_itrf 1 jac off_settings "ecliptic" "ecliptic" [sun_orbit "SOLAR_SYSTEM_BARYCENTER"] [case_observer "500" 0] false false = Ok [e'] /\
  e_emit e <> e_emit e'.
Proof.
  intro jac. do 2 eexists. split; [apply sun_row|]. split.
  - rewrite single by reflexivity. unfold row, sun_orbit, place_of_orbit, place_of_observer, case_observer. cbn [or_origin or_epoch or_state ob_origin ob_epoch ob_state].
    unfold off_settings. rewrite kernel_off. reflexivity.
  - cbn [e_emit]. unfold add6. cbn [c_0 c_1 c_2 c_3 c_4 c_5]. intro E. apply (f_equal c_0) in E. cbn [c_0] in E. lra.
Qed.
(* a barycentric orbit: the variance of the distance is that of x *)
Example C197_partial_case : forall jac, differentiates jac -> exists e,
  generate_ephemeris_2body offset_rel no_itrf 1 jac off_settings "ecliptic" "ecliptic" [sun_orbit "SOLAR_SYSTEM_BARYCENTER"] [case_observer "500" 0] false false = Ok [e] /\
  e_cov e 0%nat 0%nat = Some 1.
Proof.
  intros jac J.
  assert (N2 : norm (1, 0, 0) = 1) by (apply KepElem.norm_of; [lra|]; unfold dot; ring).
  assert (R : forall x, generate_ephemeris_2body offset_rel no_itrf 1 jac off_settings "ecliptic" "ecliptic"
     [mkorbit "a" None 0 "SOLAR_SYSTEM_BARYCENTER" x (fun k l => Some (x_variance k l)) None None] [case_observer "500" 0] false false =
     Ok [mkeph "a" None 0 "500" "equatorial" (cartesian_to_spherical (rotate_ec2eq (sub6 x (mk6 0 0 0 0 0 0))))
        (covariance_row 1 jac off_settings (mkorbit "a" None 0 "SOLAR_SYSTEM_BARYCENTER" x (fun k l => Some (x_variance k l)) None None) (mk6 0 0 0 0 0 0))
        (10 ^ 30) x (0 - 10 ^ 30) "SOLAR_SYSTEM_BARYCENTER" "ecliptic" None None]).
  { intro x. rewrite single by reflexivity. unfold row, place_of_orbit, place_of_observer, case_observer. cbn [or_origin or_epoch or_state ob_origin ob_epoch ob_state].
    unfold off_settings. rewrite kernel_off. reflexivity. }
  eexists. split; [apply R|].
  rewrite (C197_covariance_partial offset_rel no_itrf 1 jac off_settings "ecliptic" [sun_orbit "SOLAR_SYSTEM_BARYCENTER"] [case_observer "500" 0] false false
    _ 0 _ (sun_orbit "SOLAR_SYSTEM_BARYCENTER") (case_observer "500" 0) (fun _ => gradient (1, 0, 0)) x_variance
    offset_rest (or_introl eq_refl) J (R (mk6 1 0 0 0 0 0)) eq_refl eq_refl eq_refl eq_refl (fun _ _ _ _ => eq_refl) 0 0).
  - f_equal. unfold propagated, total6, x_variance, gradient. rewrite N2. field.
  - assert (P : forall j, (j < 6)%nat -> partial_derivative (coordinates_of offset_rel no_itrf 1 jac off_settings "ecliptic" "ecliptic" (sun_orbit "SOLAR_SYSTEM_BARYCENTER") (case_observer "500" 0))
        (or_state (sun_orbit "SOLAR_SYSTEM_BARYCENTER")) 0 j (gradient (1, 0, 0) j)).
    { intros j Hj. cbn [or_state sun_orbit].
      replace (1, 0, 0) with (vplus (pos (mk6 1 0 0 0 0 0)) (0, 0, 0)) by (unfold pos, vplus; cbn [c_0 c_1 c_2]; f_equal; [f_equal|]; ring).
      apply norm_derive; [exact Hj| |].
      - intro y. unfold coordinates_of, sun_orbit. cbn [or_id or_object or_epoch or_origin or_cov or_H or_G]. rewrite R. eexists. split; [reflexivity|].
        cbn [e_coord]. rewrite rho_sub. f_equal. unfold towards, pos, vplus, scale. cbn [c_0 c_1 c_2]. f_equal; [f_equal|]; ring.
      - replace (vplus (pos (mk6 1 0 0 0 0 0)) (0, 0, 0)) with (1, 0, 0) by (unfold pos, vplus; cbn [c_0 c_1 c_2]; f_equal; [f_equal|]; ring). rewrite N2. lra. }
    intros j Hj. split; apply P; exact Hj.
Qed.
