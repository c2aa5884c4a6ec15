From Coq Require Import Reals Lra Lia String List Bool.
From Verif Require Import Base ListLemmas SphModel SphSpec SphProofs KepModel KepSpec KepElem UnivModel LightModel LightProofs FrameModel PhotModel EphModel EphSpec.
Import ListNotations.
Open Scope string_scope.
Open Scope list_scope.
Open Scope R_scope.

Lemma obliquity_eq : obliquity = obliquity_j2000.
Proof. unfold obliquity, obliquity_j2000. field. Qed.
Lemma row6_eq : forall a b, pos a = pos b -> vel a = vel b -> a = b.
Proof. intros [? ? ? ? ? ?] [? ? ? ? ? ?]. unfold pos, vel. cbn. intros H K. injection H. injection K. intros. subst. reflexivity. Qed.
Lemma row_back : forall s, row_of (pos s) (vel s) = s.
Proof. intros [? ? ? ? ? ?]. reflexivity. Qed.
Lemma mat_equatorial : forall v, mat3 (fun i j => rot3 j i) v = equatorial v.
Proof. intros [[x y] z]. unfold mat3, equatorial, rot3. rewrite obliquity_eq. f_equal; [f_equal|]; ring. Qed.
Lemma mat_ecliptic : forall v, mat3 rot3 v = ecliptic v.
Proof. intros [[x y] z]. unfold mat3, ecliptic, rot3. rewrite obliquity_eq. f_equal; [f_equal|]; ring. Qed.
Lemma eq_ec : forall v, equatorial (ecliptic v) = v.
Proof.
  intros [[x y] z]. unfold equatorial, ecliptic. pose proof (sin2_cos2 obliquity_j2000) as H. unfold Rsqr in H.
  set (s := sin obliquity_j2000) in *. set (c := cos obliquity_j2000) in *.
  f_equal; [f_equal|]; [transitivity ((s * s + c * c) * y)|transitivity ((s * s + c * c) * z)]; [ring|rewrite H; ring|ring|rewrite H; ring].
Qed.
Lemma ec_eq : forall v, ecliptic (equatorial v) = v.
Proof.
  intros [[x y] z]. unfold equatorial, ecliptic. pose proof (sin2_cos2 obliquity_j2000) as H. unfold Rsqr in H.
  set (s := sin obliquity_j2000) in *. set (c := cos obliquity_j2000) in *.
  f_equal; [f_equal|]; [transitivity ((s * s + c * c) * y)|transitivity ((s * s + c * c) * z)]; [ring|rewrite H; ring|ring|rewrite H; ring].
Qed.
Lemma equatorial_norm : forall v, norm (equatorial v) = norm v.
Proof.
  intros [[x y] z]. unfold norm. f_equal. unfold equatorial, dot. pose proof (sin2_cos2 obliquity_j2000) as H. unfold Rsqr in H.
  set (s := sin obliquity_j2000) in *. set (c := cos obliquity_j2000) in *.
  transitivity (x * x + (s * s + c * c) * (y * y) + (s * s + c * c) * (z * z)); [ring|rewrite H; ring].
Qed.
Lemma pos_sub : forall a b, pos (sub6 a b) = towards (pos b) (pos a).
Proof. intros. unfold sub6, towards, pos, vplus, scale. cbn [c_0 c_1 c_2]. f_equal; [f_equal|]; ring. Qed.
Lemma vel_sub : forall a b, vel (sub6 a b) = towards (vel b) (vel a).
Proof. intros. unfold sub6, towards, vel, vplus, scale. cbn [c_3 c_4 c_5]. f_equal; [f_equal|]; ring. Qed.
Lemma pos_add : forall a b, pos (add6 a b) = vplus (pos a) (pos b).
Proof. intros. unfold add6, pos, vplus. reflexivity. Qed.
Lemma vel_add : forall a b, vel (add6 a b) = vplus (vel a) (vel b).
Proof. intros. unfold add6, vel, vplus. reflexivity. Qed.
Lemma pos_rot : forall m s, pos (rotate6 m s) = mat3 m (pos s).
Proof. intros. unfold rotate6. apply pos_row. Qed.
Lemma vel_rot : forall m s, vel (rotate6 m s) = mat3 m (vel s).
Proof. intros. unfold rotate6. apply vel_row. Qed.

(* ---- the coordinates of a state on the sky ---- *)
Lemma sky_spherical : forall s, sky (c_0 (cartesian_to_spherical s)) (c_1 (cartesian_to_spherical s)) (c_2 (cartesian_to_spherical s)) = pos s.
Proof.
  intro s. destruct (spherical_back_position s) as (A & B & C). set (r := cartesian_to_spherical s) in *.
  unfold spherical_to_cartesian in A, B, C. cbn [c_0 c_1 c_2] in A, B, C. unfold radians in *.
  unfold sky, pos. rewrite <- A, <- B, <- C. f_equal. f_equal; ring.
Qed.
Lemma rho_norm : forall s, c_0 (cartesian_to_spherical s) = norm (pos s).
Proof. intros [x y z ? ? ?]. unfold norm, pos, dot. cbn [cartesian_to_spherical c_0 c_1 c_2]. f_equal. ring. Qed.
Lemma towards_distance : forall a b, norm (towards b a) = distance a b.
Proof. intros [[? ?] ?] [[? ?] ?]. rewrite distance_norm. reflexivity. Qed.

Lemma on_sky_plain : forall ab obs sph, on_sky false ab obs = Some sph ->
  equatorial (towards (pos obs) (pos ab)) = sky (c_0 sph) (c_1 sph) (c_2 sph) /\
  c_0 sph = distance (pos ab) (pos obs) /\ spherical_ranges sph /\
  (off_axis (row_of (equatorial (towards (pos obs) (pos ab))) (0, 0, 0)) ->
   vel (spherical_to_cartesian sph) = equatorial (towards (vel obs) (vel ab))).
Proof.
  intros ab obs sph H. unfold on_sky in H.
  assert (E : sph = cartesian_to_spherical (rotate_ec2eq (sub6 ab obs))) by congruence. clear H. subst sph.
  rewrite sky_spherical, rho_norm. unfold rotate_ec2eq.
  rewrite pos_rot, mat_equatorial, pos_sub. split; [reflexivity|].
  split; [rewrite equatorial_norm; apply towards_distance|]. split; [apply spherical_in_range|].
  intro O. rewrite spherical_back.
  - rewrite vel_rot, mat_equatorial, vel_sub. reflexivity.
  - unfold rotate6, off_axis in *. rewrite mat_equatorial, pos_sub. destruct (equatorial _) as [[? ?] ?]. cbn [row_of c_0 c_1] in *. exact O.
Qed.
Lemma on_sky_stellar : forall ab obs sph, on_sky true ab obs = Some sph ->
  exists u, aberrate ab obs = Some u /\ equatorial u = sky (c_0 sph) (c_1 sph) (c_2 sph) /\ spherical_ranges sph.
Proof.
  intros ab obs sph H. unfold on_sky in H. destruct (aberrate ab obs) as [u|]; [|discriminate]. cbn [option_map] in H.
  assert (E : sph = cartesian_to_spherical (rotate_ec2eq (row_of u (vel (sub6 ab obs))))) by congruence. clear H. subst sph.
  exists u. split; [reflexivity|]. rewrite sky_spherical. unfold rotate_ec2eq. rewrite pos_rot, mat_equatorial, pos_row.
  split; [reflexivity|apply spherical_in_range].
Qed.

(* ---- tables ---- *)
Lemma combine_nth : forall {A B} (l : list A) (m : list B) i,
  nth_error (combine l m) i = match nth_error l i, nth_error m i with Some a, Some b => Some (a, b) | _, _ => None end.
Proof.
  induction l as [|a l IH]; intros [|b m] [|i]; cbn; try reflexivity.
  - destruct (nth_error l i); reflexivity.
  - apply IH.
Qed.
Lemma bind_ok : forall {A B} (r : result A) (f : A -> result B) b, bind r f = Ok b -> exists a, r = Ok a /\ f a = Ok b.
Proof. intros A B [a|e] f b H; [exists a; auto|discriminate]. Qed.
Lemma nth_len : forall {A B} (l : list A) (m : list B) i x, List.length l = List.length m -> nth_error l i = Some x -> exists y, nth_error m i = Some y.
Proof.
  intros A B l m i x L H. destruct (nth_error m i) eqn:E; [eexists; reflexivity|]. apply nth_error_None in E.
  assert (nth_error l i <> None) as N by congruence. apply nth_error_Some in N. lia.
Qed.

Ltac cases_all H E := match type of H with context [@forallb ?T ?f ?l] => destruct (@forallb T f l) eqn:E end.
Section Tables.
Variable rel : string -> string -> R -> string -> option row6.
Variable itrf : string -> place -> result row6.
Hypothesis atrest : rest rel.
Notation SSB := "SOLAR_SYSTEM_BARYCENTER".

Lemma zero6_add : forall s, add6 s (mk6 0 0 0 0 0 0) = s.
Proof. intros [? ? ? ? ? ?]. unfold add6. cbn. f_equal; ring. Qed.

(* one row through the two steps of a transformation *)
Lemma to_origin_spec : forall frame out o t s p, to_origin rel frame out (o, t, s) = Ok p ->
  exists w, rel o out t frame = Some w /\ p = (out, t, add6 s w).
Proof. intros frame out o t s p H. cbn in H. destruct (rel o out t frame) as [w|]; [|discriminate]. injection H as <-. eauto. Qed.
Lemma to_frame_spec : forall frame o t s p, frame = "equatorial" -> to_frame itrf frame "ecliptic" (o, t, s) = Ok p ->
  p = (o, t, rotate6 rot3 s).
Proof. intros frame o t s p -> H. cbn in H. congruence. Qed.

Lemma transform_length : forall frame out_frame out l r, transform rel itrf frame out_frame out l = Ok r -> List.length r = List.length l.
Proof.
  intros frame out_frame out l r H. unfold transform in H.
  destruct (_ && _) in H; [congruence|]. apply bind_ok in H as (l1 & H1 & H2).
  assert (L1 : List.length l1 = List.length l) by (cases_all H1 EA; [congruence|exact (mapM_length _ _ _ H1)]).
  destruct (String.eqb frame out_frame); [congruence|]. rewrite (mapM_length _ _ _ H2). exact L1.
Qed.
Lemma transform_row : forall frame out l r i o t s, (frame = "ecliptic" \/ frame = "equatorial") ->
  transform rel itrf frame "ecliptic" out l = Ok r -> nth_error l i = Some (o, t, s) ->
  exists w, rel o out t frame = Some w /\
    nth_error r i = Some (out, t, if String.eqb frame "ecliptic" then add6 s w else rotate6 rot3 (add6 s w)).
Proof.
  intros frame out l r i o t s F H N. unfold transform in H.
  destruct (String.eqb frame "ecliptic") eqn:EF; cbn [andb] in H.
  - cases_all H EA.
    + injection H as <-. rewrite forallb_forall in EA. pose proof (EA _ (nth_error_In _ _ N)) as Q. cbn in Q. apply String.eqb_eq in Q. subst o.
      exists (mk6 0 0 0 0 0 0). split; [apply atrest|]. rewrite zero6_add. exact N.
    + apply bind_ok in H as (l1 & H1 & H2). injection H2 as <-.
      destruct (mapM_nth _ _ _ _ _ H1 N) as (p & A & B). apply to_origin_spec in A as (w & W & ->). exists w. split; [exact W|exact B].
  - assert (FE : frame = "equatorial") by (destruct F as [F|F]; [subst; discriminate|exact F]).
    apply bind_ok in H as (l1 & H1 & H2). cases_all H1 EA.
    + injection H1 as <-. rewrite forallb_forall in EA. pose proof (EA _ (nth_error_In _ _ N)) as Q. cbn in Q. apply String.eqb_eq in Q. subst o.
      destruct (mapM_nth _ _ _ _ _ H2 N) as (p & A & B). apply to_frame_spec in A; [|exact FE]. subst p.
      exists (mk6 0 0 0 0 0 0). split; [apply atrest|]. rewrite zero6_add. exact B.
    + destruct (mapM_nth _ _ _ _ _ H1 N) as (p & A & B). apply to_origin_spec in A as (w & W & ->).
      destruct (mapM_nth _ _ _ _ _ H2 B) as (p & A & C). apply to_frame_spec in A; [|exact FE]. subst p.
      exists w. split; [exact W|exact C].
Qed.
Definition bary_place (frame : string) (p q : place) : Prop :=
  exists w, rel (fst (fst p)) SSB (snd (fst p)) frame = Some w /\
    q = (SSB, snd (fst p), if String.eqb frame "ecliptic" then add6 (snd p) w else rotate6 rot3 (add6 (snd p) w)).

Lemma shortcut_rows : forall fo fb os bs os' bs', List.length os = List.length bs ->
  shortcut rel fo fb os bs = Some (os', bs') ->
  List.length os' = List.length os /\ List.length bs' = List.length bs /\
  (forall i p, nth_error os i = Some p -> exists q, nth_error os' i = Some q /\ bary_place fo p q) /\
  (forall i p, nth_error bs i = Some p -> exists q, nth_error bs' i = Some q /\ bary_place fb p q).
Proof.
  intros fo fb os bs os' bs' L H. unfold shortcut in H.
  destruct (_ && _) eqn:E in H; [|discriminate].
  apply andb_prop in E as [E E5]. apply andb_prop in E as [E E4]. apply andb_prop in E as [E E3]. apply andb_prop in E as [E1 E2].
  apply String.eqb_eq in E1, E2. subst fo fb. rewrite forallb_forall in E3, E4, E5.
  destruct (mapM _ os) as [ws|] eqn:M in H; [|discriminate]. injection H as <- <-.
  pose proof (mapM_length _ _ _ M) as LW.
  rewrite !map_length, !combine_length. split; [lia|]. split; [lia|].
  assert (K : forall (l : list place) i (p : place), (forall x : place, In x l -> (fst (fst x) =? "SUN")%string = true) -> List.length l = List.length os ->
    (forall j (a b : place), nth_error l j = Some a -> nth_error os j = Some b -> snd (fst a) = snd (fst b)) ->
    nth_error l i = Some p -> exists q, nth_error (map (fun q : place * row6 => (SSB, snd (fst (fst q)), add6 (snd (fst q)) (snd q))) (combine l ws)) i = Some q /\ bary_place "ecliptic" p q).
  { intros l i p S LL T N. destruct (nth_len l os i p LL N) as (b & NB).
    destruct (mapM_nth _ _ _ _ _ M NB) as (w & W & NW).
    destruct (rel "SUN" SSB (snd (fst b)) "ecliptic") as [w0|] eqn:R; [|discriminate]. injection W as ->.
    eexists. split; [apply map_nth_error; rewrite combine_nth, N, NW; reflexivity|].
    exists w. cbn [fst snd String.eqb Ascii.eqb Bool.eqb]. pose proof (S _ (nth_error_In _ _ N)) as Q. apply String.eqb_eq in Q. rewrite Q, (T i p b N NB). split; [exact R|reflexivity]. }
  split; intros i p N.
  - apply K; [exact E3|reflexivity| |exact N]. intros j a b A B. congruence.
  - apply K; [exact E4|symmetry; exact L| |exact N]. intros j a b A B.
    assert (I : In (b, a) (combine os bs)) by (apply nth_error_In with j; rewrite combine_nth, A, B; reflexivity).
    specialize (E5 _ I). cbn in E5. destruct (Req_EM_T _ _) as [X|] in E5; [symmetry; exact X|discriminate].
Qed.
Lemma barycentric_rows : forall fo fb os bs os' bs', List.length os = List.length bs ->
  (fo = "ecliptic" \/ fo = "equatorial") -> (fb = "ecliptic" \/ fb = "equatorial") ->
  barycentric rel itrf fo fb os bs = Ok (os', bs') ->
  List.length os' = List.length os /\ List.length bs' = List.length bs /\
  (forall i p, nth_error os i = Some p -> exists q, nth_error os' i = Some q /\ bary_place fo p q) /\
  (forall i p, nth_error bs i = Some p -> exists q, nth_error bs' i = Some q /\ bary_place fb p q).
Proof.
  intros fo fb os bs os' bs' L FO FB H. unfold barycentric in H.
  destruct (shortcut rel fo fb os bs) as [[a b]|] eqn:S.
  - injection H as -> ->. exact (shortcut_rows _ _ _ _ _ _ L S).
  - apply bind_ok in H as (a & HA & H). apply bind_ok in H as (b & HB & H). injection H as <- <-.
    split; [exact (transform_length _ _ _ _ _ HA)|]. split; [exact (transform_length _ _ _ _ _ HB)|].
    split; intros i [[o t] s] N.
    + destruct (transform_row _ _ _ _ _ _ _ _ FO HA N) as (w & W & Q). eexists. split; [exact Q|]. exists w. split; [exact W|reflexivity].
    + destruct (transform_row _ _ _ _ _ _ _ _ FB HB N) as (w & W & Q). eexists. split; [exact Q|]. exists w. split; [exact W|reflexivity].
Qed.
Lemma bary_place_state : forall frame o t s q, (frame = "ecliptic" \/ frame = "equatorial") -> bary_place frame (o, t, s) q ->
  exists b, q = (SSB, t, b) /\ barycentric_state rel frame o t s b.
Proof.
  intros frame o t s q F (w & W & ->). cbn [fst snd] in *. eexists. split; [reflexivity|]. exists w. split; [exact W|].
  destruct F as [->| ->].
  - left. cbn [String.eqb Ascii.eqb Bool.eqb]. rewrite pos_add, vel_add. auto.
  - right. cbn [String.eqb Ascii.eqb Bool.eqb]. rewrite pos_rot, vel_rot, !mat_ecliptic, pos_add, vel_add. auto.
Qed.
Lemma barycentric_unique : forall frame o t s a b, barycentric_state rel frame o t s a -> barycentric_state rel frame o t s b -> a = b.
Proof.
  intros frame o t s a b (w & W & A) (w' & W' & B). rewrite W in W'. injection W' as <-.
  destruct A as [(F & A1 & A2)|(F & A1 & A2)], B as [(G & B1 & B2)|(G & B1 & B2)]; try (exfalso; subst; discriminate); apply row6_eq; congruence.
Qed.

Variable mu_ssb : R.
Variable jac : (row6 -> option row6) -> row6 -> nat -> nat -> option R.
Notation gen := (generate_ephemeris_2body rel itrf mu_ssb jac).

(* photometry does not touch the other columns *)
Definition same_but_light (e e' : eph) : Prop :=
  e_id e = e_id e' /\ e_object e = e_object e' /\ e_epoch e = e_epoch e' /\ e_code e = e_code e' /\ e_frame e = e_frame e' /\
  e_coord e = e_coord e' /\ e_cov e = e_cov e' /\ e_light e = e_light e' /\ e_emit e = e_emit e' /\ e_emit_epoch e = e_emit_epoch e' /\
  e_emit_origin e = e_emit_origin e' /\ e_emit_frame e = e_emit_frame e'.
Lemma helio_length : forall fb es bs gs, helio rel itrf fb es bs = Ok gs -> List.length gs = Nat.min (List.length es) (List.length bs).
Proof.
  intros fb es bs gs H. unfold helio in H. apply bind_ok in H as (a & HA & H). apply bind_ok in H as (b & HB & H). injection H as <-.
  rewrite combine_length, !map_length, (transform_length _ _ _ _ _ HA), (transform_length _ _ _ _ _ HB), !map_length. reflexivity.
Qed.
Lemma photometry_rows : forall fb wm wa os bs es r, List.length es = List.length os -> List.length bs = List.length os ->
  photometry rel itrf fb wm wa os bs es = Ok r ->
  List.length r = List.length es /\ forall i e', nth_error r i = Some e' -> exists e, nth_error es i = Some e /\ same_but_light e e'.
Proof.
  intros fb wm wa os bs es r L1 L2 H. unfold photometry in H.
  destruct (negb _ && negb wa) eqn:Q in H.
  - injection H as <-. split; [reflexivity|]. intros i e N. exists e. split; [exact N|]. repeat split.
  - apply bind_ok in H as (gs & HG & H). destruct (negb _) eqn:G in H; [discriminate|]. injection H as <-.
    pose proof (helio_length _ _ _ _ HG) as LG.
    rewrite map_length, !combine_length. split; [lia|]. intros i e' N.
    rewrite nth_error_map in N. rewrite combine_nth in N. destruct (nth_error es i) as [e|]; [|discriminate].
    destruct (nth_error (combine os gs) i) as [[o g]|]; [|discriminate]. injection N as <-. exists e. split; [reflexivity|]. repeat split.
Qed.

(* everything about one row of the result *)
Lemma gen_rows : forall c fo fb os bs wm wa es, (fo = "ecliptic" \/ fo = "equatorial") -> (fb = "ecliptic" \/ fb = "equatorial") ->
  gen c fo fb os bs wm wa = Ok es ->
  List.length es = List.length os /\ List.length bs = List.length os /\
  forall i e, nth_error es i = Some e -> exists o b s w,
    nth_error os i = Some o /\ nth_error bs i = Some b /\
    barycentric_state rel fo (or_origin o) (or_epoch o) (or_state o) s /\
    barycentric_state rel fb (ob_origin b) (ob_epoch b) (ob_state b) w /\
    kernel c s (or_epoch o) w mu_ssb = (Some (e_coord e), Some (e_light e), Some (e_emit e)) /\
    e_id e = or_id o /\ e_object e = or_object o /\ e_epoch e = or_epoch o /\ e_code e = ob_code b /\ e_frame e = "equatorial" /\
    e_emit_epoch e = or_epoch o - e_light e /\ e_emit_origin e = SSB /\ e_emit_frame e = "ecliptic" /\
    e_cov e = if forallb (fun o => all_missing (or_cov o)) os then (fun _ _ => None) else covariance_row mu_ssb jac c o w.
Proof.
  intros c fo fb os bs wm wa es FO FB H. unfold generate_ephemeris_2body in H.
  destruct (Nat.eqb (List.length os) (List.length bs)) eqn:L; [|discriminate]. cbn [negb] in H. apply Nat.eqb_eq in L.
  apply bind_ok in H as ([ps qs] & HB & H). apply bind_ok in H as (r & HR & H). cbn [fst snd] in *.
  assert (L' : List.length (map place_of_orbit os) = List.length (map place_of_observer bs)) by (rewrite !map_length; exact L).
  destruct (barycentric_rows _ _ _ _ _ _ L' FO FB HB) as (LP & LQ & BP & BQ). rewrite map_length in LP, LQ.
  pose proof (mapM_length _ _ _ HR) as LR. rewrite !combine_length in LR.
  destruct (photometry_rows fb wm wa os bs r es) as (LE & PE); [lia|lia|exact H|].
  split; [lia|]. split; [lia|]. intros i e N. destruct (PE _ _ N) as (e0 & N0 & SB).
  assert (exists o, nth_error os i = Some o) as (o & NO) by (apply (nth_len es os i e); [lia|exact N]).
  assert (exists b, nth_error bs i = Some b) as (b & NB) by (apply (nth_len os bs i o); [lia|exact NO]).
  destruct (BP i (place_of_orbit o)) as (p & NP & QP); [apply map_nth_error; exact NO|].
  destruct (BQ i (place_of_observer b)) as (q & NQ & QQ); [apply map_nth_error; exact NB|].
  apply bary_place_state in QP as (s & -> & BS); [|exact FO]. apply bary_place_state in QQ as (w & -> & BW); [|exact FB].
  assert (NC : nth_error (combine (combine os ps) (combine bs qs)) i = Some ((o, (SSB, or_epoch o, s)), (b, (SSB, ob_epoch b, w)))).
  { rewrite combine_nth, !combine_nth, NO, NP, NB, NQ. reflexivity. }
  destruct (mapM_nth _ _ _ _ _ HR NC) as (e1 & RE & NE). rewrite N0 in NE. injection NE as <-.
  unfold row in RE. destruct (kernel c s (or_epoch o) w mu_ssb) as [[[sph|] [l|]] [ab|]] eqn:K; try discriminate. injection RE as <-.
  unfold same_but_light in SB. cbn in SB. destruct SB as (<- & <- & <- & <- & <- & <- & EC & <- & <- & <- & <- & <-).
  exists o, b, s, w. repeat (split; [first [reflexivity|assumption]|]). rewrite <- EC. destruct (forallb _ os); reflexivity.
Qed.
End Tables.
