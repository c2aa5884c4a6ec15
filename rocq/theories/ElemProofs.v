From Coq Require Import Reals QArith String Lra.
From Verif Require Import Base SphModel SphSpec SphProofs KepModel KepSpec KepProofs KepNewton KepElem KepHyp ElemModel ElemSpec.
Open Scope string_scope.
Open Scope list_scope.

(* ---- the loop of Origin.mu ---- *)
(* what one code is worth *)
Definition worth (c : string) : option Q :=
  if String.eqb c "SOLAR_SYSTEM_BARYCENTER" then Some ssb_mu else member c.
Lemma write_length : forall code v codes mu, List.length (masked_write code v codes mu) = List.length mu.
Proof. intros code v codes. induction codes as [|c cs IH]; intros [|m ms]; cbn; auto. Qed.
Lemma write_nth : forall code v codes mu k c, nth_error codes k = Some c -> (k < List.length mu)%nat ->
  nth_error (masked_write code v codes mu) k = if String.eqb c code then Some v else nth_error mu k.
Proof.
  intros code v codes. induction codes as [|x cs IH]; intros [|m ms] k c H L; cbn in *; try lia.
  - destruct k; discriminate.
  - destruct k as [|k]; cbn in *.
    + injection H as ->. destruct (String.eqb c code); reflexivity.
    + apply IH; [exact H|lia].
Qed.
Lemma loop_step : forall code r codes mu, mu_loop (code :: r) codes mu =
  match worth code with Some v => mu_loop r codes (masked_write code v codes mu) | None => Err ValueError end.
Proof. intros. cbn [mu_loop]. unfold worth. destruct (String.eqb code "SOLAR_SYSTEM_BARYCENTER"); reflexivity. Qed.
Lemma loop_ok : forall todo codes mu, (forall c, In c todo -> worth c <> None) ->
  exists l, mu_loop todo codes mu = Ok l /\ List.length l = List.length mu /\
  forall k c, nth_error codes k = Some c -> (k < List.length mu)%nat ->
    nth_error l k = if memb String.eqb c todo then worth c else nth_error mu k.
Proof.
  induction todo as [|code r IH]; intros codes mu H.
  - exists mu. split; [reflexivity|]. split; [reflexivity|]. intros. reflexivity.
  - rewrite loop_step. destruct (worth code) as [v|] eqn:W; [|exfalso; apply (H code); [left; reflexivity|exact W]].
    destruct (IH codes (masked_write code v codes mu)) as (l & E & L & N).
    { intros c I. apply H. right. exact I. }
    rewrite write_length in *. exists l. split; [exact E|]. split; [exact L|].
    intros k c K B. rewrite (N k c K B). rewrite (write_nth _ _ _ _ _ _ K B). unfold memb. cbn [existsb].
    destruct (String.eqb c code) eqn:S; cbn [orb].
    + apply String.eqb_eq in S. subst. destruct (existsb (String.eqb code) r); congruence.
    + reflexivity.
Qed.
Lemma loop_bad : forall todo codes mu c, In c todo -> worth c = None -> mu_loop todo codes mu = Err ValueError.
Proof.
  induction todo as [|code r IH]; intros codes mu c I W; [destruct I|]. rewrite loop_step.
  destruct I as [->|I]; [rewrite W; reflexivity|]. destruct (worth code); [apply IH with c; assumption|reflexivity].
Qed.
Lemma worth_dec : forall l, (forall c, In c l -> worth c <> None) \/ (exists c, In c l /\ worth c = None).
Proof.
  induction l as [|x r [IH|(c & I & W)]]; [left; intros c []| |right; exists c; split; [right|]; assumption].
  destruct (worth x) eqn:W; [|right; exists x; split; [left; reflexivity|exact W]].
  left. intros c [<-|I]; [congruence|auto].
Qed.
Lemma uniq_same : forall l c, In c (uniq String.eqb l) <-> In c l.
Proof. intros. apply uniq_In. apply String.eqb_eq. Qed.
Lemma mu_ok : forall memory codes, List.length memory = List.length codes -> (forall c, In c codes -> worth c <> None) ->
  exists l, origin_mu memory codes = Ok l /\ List.length l = List.length codes /\
  forall k c, nth_error codes k = Some c -> nth_error l k = worth c.
Proof.
  intros memory codes L H. destruct (loop_ok (uniq String.eqb codes) codes memory) as (l & E & L2 & N).
  { intros c I. apply H. apply uniq_same. exact I. }
  exists l. split; [exact E|]. split; [congruence|]. intros k c K.
  assert (B : (k < List.length codes)%nat) by (apply nth_error_Some; congruence).
  rewrite (N k c K) by lia.
  assert (M : memb String.eqb c (uniq String.eqb codes) = true).
  { apply (memb_In String.eqb String.eqb_eq). apply uniq_same. eapply nth_error_In; exact K. }
  rewrite M. reflexivity.
Qed.
Lemma mu_bad : forall memory codes c, In c codes -> worth c = None -> origin_mu memory codes = Err ValueError.
Proof. intros. apply loop_bad with c; [apply uniq_same|]; assumption. Qed.
Lemma mu_one : forall m c, origin_mu [m] [c] = match worth c with Some v => Ok [v] | None => Err ValueError end.
Proof.
  intros. unfold origin_mu. cbn [uniq uniq_aux memb existsb]. rewrite loop_step. destruct (worth c); [|reflexivity].
  cbn [mu_loop masked_write]. rewrite String.eqb_refl. reflexivity.
Qed.

(* ---- one code per table ---- *)
Lemma uniq_repeat : forall c n, uniq String.eqb (repeat c (Datatypes.S n)) = [c].
Proof.
  intros. unfold uniq. cbn [repeat uniq_aux memb existsb]. f_equal. induction n as [|n IH]; [reflexivity|].
  cbn [repeat uniq_aux]. unfold memb. cbn [existsb]. rewrite String.eqb_refl. exact IH.
Qed.
Lemma one_code : forall codes c, uniq String.eqb codes = [c] -> codes <> [] /\ forall x, In x codes -> x = c.
Proof.
  intros codes c U. split; [intros ->; discriminate|]. intros x I. apply uniq_same in I. rewrite U in I. destruct I as [<-|[]]. reflexivity.
Qed.
Lemma all_one : forall codes c, codes <> [] -> (forall x, In x codes -> x = c) -> uniq String.eqb codes = [c].
Proof.
  intros codes c N H. assert (R : codes = repeat c (List.length codes)).
  { clear N. induction codes as [|x r IH]; [reflexivity|]. cbn. f_equal; [apply H; left; reflexivity|apply IH; intros; apply H; right; assumption]. }
  rewrite R. destruct codes; [congruence|]. apply uniq_repeat.
Qed.
Lemma lookup_In : forall A k (d : list (string * A)) v, lookup k d = Some v -> In (k, v) d.
Proof.
  induction d as [|[x w] r IH]; intros v H; cbn in H; [discriminate|]. destruct (String.eqb k x) eqn:E.
  - apply String.eqb_eq in E. left. congruence.
  - right. auto.
Qed.
Lemma code_lookup : forall code, In code origin_codes -> lookup (fst code) origin_codes = Some (snd code).
Proof.
  intros code H.
  assert (F : forallb (fun c => match lookup (fst c) origin_codes with Some n => Z.eqb n (snd c) | None => false end) origin_codes = true) by reflexivity.
  rewrite forallb_forall in F. specialize (F code H). destruct (lookup (fst code) origin_codes); [|discriminate].
  apply Z.eqb_eq in F. congruence.
Qed.

(* ---- states ---- *)
Open Scope R_scope.
Lemma range_norm : forall s, range s = norm (pos s).
Proof. intros. unfold range, norm, pos, dot. f_equal. ring. Qed.
Lemma speed_norm : forall s, speed2 s = norm (vel s) ^ 2.
Proof. intros. rewrite norm_sq. unfold speed2, vel, dot. ring. Qed.
Lemma momentum_norm : forall s, momentum2 s = norm (cross (pos s) (vel s)) ^ 2.
Proof. intros. rewrite norm_sq. unfold momentum2, pos, vel, cross, dot. ring. Qed.
Lemma ellipse_conic : forall a e, ellipse a e -> 0 < a /\ 0 <= e < 1 /\ parabolic e = false.
Proof.
  intros a e (A & B & C). pose proof tol_pos as T. unfold float_tol in T. split; [exact A|]. split; [lra|].
  unfold parabolic, float_tol. destruct (Rlt_dec (1 - / 10 ^ 15) e); [lra|reflexivity].
Qed.
Lemma hyperbola_conic : forall a e, hyperbola a e -> a < 0 /\ 1 < e /\ parabolic e = false.
Proof.
  intros a e (A & B). pose proof tol_pos as T. unfold float_tol in T. split; [exact A|]. split; [lra|].
  unfold parabolic, float_tol. destruct (Rlt_dec (1 - / 10 ^ 15) e); [|reflexivity]. destruct (Rlt_dec e (1 + / 10 ^ 15)); [lra|reflexivity].
Qed.
Lemma p_positive : forall a e, ellipse a e \/ hyperbola a e -> 0 < a * (1 - e ^ 2).
Proof.
  intros a e [H|H]; [destruct (ellipse_conic _ _ H) as (A & B & _)|destruct (hyperbola_conic _ _ H) as (A & B & _)].
  - apply Rmult_lt_0_compat; [exact A|]. replace (1 - e ^ 2) with ((1 - e) * (1 + e)) by ring. apply Rmult_lt_0_compat; lra.
  - replace (a * (1 - e ^ 2)) with (- a * ((e - 1) * (1 + e))) by ring. repeat apply Rmult_lt_0_compat; lra.
Qed.
(* the true anomaly of the conversion is on the conic *)
Lemma anomaly_conic : forall a e M n tol, ellipse a e \/ hyperbola a e -> 0 < 1 + e * cos (true_anomaly e M n tol).
Proof.
  intros a e M n tol [H|H]; [destruct (ellipse_conic _ _ H) as (A & B & C)|destruct (hyperbola_conic _ _ H) as (A & B & C)].
  - apply den_nu. exact B.
  - unfold true_anomaly. rewrite C. unfold solve_kepler. destruct (Rlt_dec e 1); [lra|]. destruct (Rlt_dec 1 e); [|lra].
    set (F := fst (kepler_loop e M n tol)). pose proof (nu_H_range e F) as R. destruct (normalise_spec (hyperbolic_nu e F)) as [_ S].
    { unfold turn. pose proof PI_RGT_0. lra. }
    rewrite (same_cos _ _ S). apply (ch_of_nu e B F).
Qed.
Lemma kep_state : forall a e i raan ap M mu n tol, ellipse a e \/ hyperbola a e ->
  keplerian_to_cartesian_a a e i raan ap M mu n tol =
  Some (perifocal (a * (1 - e ^ 2)) e (radians i) (radians raan) (radians ap) (true_anomaly e (radians M) n tol) mu).
Proof.
  intros a e i raan ap M mu n tol H. unfold keplerian_to_cartesian_a, keplerian_to_cartesian_p.
  assert (C : parabolic e = false) by (destruct H as [H|H]; [apply (ellipse_conic _ _ H)|apply (hyperbola_conic _ _ H)]).
  rewrite C. reflexivity.
Qed.
Lemma e_nonneg_of : forall a e, ellipse a e \/ hyperbola a e -> 0 <= e.
Proof. intros a e [H|H]; [destruct (ellipse_conic _ _ H)|destruct (hyperbola_conic _ _ H)]; lra. Qed.
Lemma kep_range : forall a e i raan ap M mu n tol s, ellipse a e \/ hyperbola a e -> 0 < mu ->
  keplerian_to_cartesian_a a e i raan ap M mu n tol = Some s ->
  range s = a * (1 - e ^ 2) / (1 + e * cos (true_anomaly e (radians M) n tol)).
Proof.
  intros a e i raan ap M mu n tol s H U E. rewrite (kep_state _ _ _ _ _ _ _ _ _ H) in E. injection E as <-.
  rewrite range_norm. apply r_norm.
  - apply p_positive. exact H.
  - apply anomaly_conic with a. exact H.
Qed.
Lemma kep_energy : forall a e i raan ap M mu n tol s, ellipse a e \/ hyperbola a e -> 0 < mu ->
  keplerian_to_cartesian_a a e i raan ap M mu n tol = Some s ->
  momentum2 s = mu * (a * (1 - e ^ 2)) /\ speed2 s / 2 - mu / range s = - mu / (2 * a).
Proof.
  intros a e i raan ap M mu n tol s H U E. rewrite (kep_state _ _ _ _ _ _ _ _ _ H) in E. injection E as <-.
  pose proof (p_positive _ _ H) as P. pose proof (anomaly_conic a e (radians M) n tol H) as C.
  rewrite momentum_norm, speed_norm, range_norm. split.
  - rewrite h_vec by assumption. rewrite h_norm by assumption. apply sqrt_sq2. nra.
  - rewrite sme_is by assumption. assert (A0 : a <> 0) by (intros Z; rewrite Z in P; lra).
    assert (E0 : 1 - e ^ 2 <> 0) by (intros Z; rewrite Z in P; lra).
    replace (- mu / (2 * a)) with (- (mu * ((1 - e ^ 2) / (1 - e ^ 2)) / (2 * a))) by (unfold Rdiv at 2; rewrite Rinv_r by exact E0; field; exact A0).
    change (e * (e * 1)) with (e ^ 2). set (w := 1 - e ^ 2) in *. field. split; assumption.
Qed.

(* ---- apsides ---- *)
Lemma newton_fixed : forall ratio tol fuel E q, ratio E = 0 -> fst (newton ratio tol fuel E q) = E.
Proof.
  intros. apply (newton_inv (fun x => x = E)); [|reflexivity]. intros x ->. rewrite H. ring.
Qed.
Lemma anomaly_at : forall a e M n tol, ellipse a e -> sin M = 0 -> e * sin M = 0 ->
  cos (true_anomaly e M n tol) = (cos M - e) / (1 - e * cos M).
Proof.
  intros a e M n tol H Z _. destruct (ellipse_conic _ _ H) as (A & B & C). unfold true_anomaly. rewrite C. unfold solve_kepler, kepler_loop.
  destruct (Rlt_dec e 1); [|lra]. rewrite newton_fixed.
  - pose proof (nu_range e M) as R. destruct (normalise_spec (elliptical_nu e M)) as [_ S]; [lra|]. rewrite (same_cos _ _ S).
    apply (nu_of_E e B M).
  - unfold elliptical_ratio. rewrite Z. replace (M - e * 0 - M) with 0 by ring. unfold Rdiv. ring.
Qed.
Lemma hyp_anomaly_0 : forall a e n tol, hyperbola a e -> cos (true_anomaly e 0 n tol) = 1.
Proof.
  intros a e n tol H. destruct (hyperbola_conic _ _ H) as (A & B & C). unfold true_anomaly. rewrite C. unfold solve_kepler, kepler_loop.
  destruct (Rlt_dec e 1); [lra|]. destruct (Rlt_dec 1 e); [|lra]. rewrite newton_fixed.
  - unfold hyperbolic_nu. replace (0 / 2) with 0 by field. rewrite sinh_0.
    replace (sqrt (e + 1) * 0 / (sqrt (e - 1) * cosh 0)) with 0 by (unfold Rdiv; ring). rewrite atan_0.
    unfold normalise, turn. pose proof PI_RGT_0. destruct (Rlt_dec (2 * 0) 0); [lra|]. destruct (Rle_dec (2 * PI) (2 * 0)); [lra|].
    replace (2 * 0) with 0 by ring. apply cos_0.
  - unfold hyperbolic_ratio. rewrite sinh_0. unfold Rdiv. ring.
Qed.

(* ---- periodicity ---- *)
Lemma newton_shift : forall e M d tol fuel E q, cos d = 1 -> sin d = 0 ->
  newton (elliptical_ratio e (M + d)) tol fuel (E + d) q =
  (fst (newton (elliptical_ratio e M) tol fuel E q) + d, snd (newton (elliptical_ratio e M) tol fuel E q)).
Proof.
  intros e M d tol fuel. induction fuel as [|k IH]; intros E q C S; cbn [newton fst snd]; [reflexivity|].
  destruct (Rlt_dec tol (Rabs q)); [|reflexivity].
  assert (R : elliptical_ratio e (M + d) (E + d) = elliptical_ratio e M E).
  { unfold elliptical_ratio. rewrite sin_plus, cos_plus, C, S. f_equal; [ring|]. f_equal. ring. }
  cbv zeta. rewrite R. replace (E + d - elliptical_ratio e M E) with (E - elliptical_ratio e M E + d) by ring. apply IH; assumption.
Qed.
Lemma anomaly_turns : forall a e M k n tol, ellipse a e ->
  true_anomaly e (M + IZR k * (2 * PI)) n tol = true_anomaly e M n tol.
Proof.
  intros a e M k n tol H. destruct (ellipse_conic _ _ H) as (A & B & C). unfold true_anomaly. rewrite C. unfold solve_kepler, kepler_loop.
  destruct (Rlt_dec e 1); [|lra]. set (d := IZR k * (2 * PI)).
  assert (Cd : cos d = 1) by (unfold d; rewrite <- (Rplus_0_l (IZR k * (2 * PI))), cos_turns; apply cos_0).
  assert (Sd : sin d = 0) by (unfold d; rewrite <- (Rplus_0_l (IZR k * (2 * PI))), sin_turns; apply sin_0).
  rewrite newton_shift by assumption. cbn [fst]. set (E := fst (newton _ _ _ _ _)).
  assert (N : forall x, 0 <= normalise (elliptical_nu e x) < turn /\ cos (normalise (elliptical_nu e x)) = (cos x - e) / (1 - e * cos x) /\
     sin (normalise (elliptical_nu e x)) = sqrt (1 - e ^ 2) * sin x / (1 - e * cos x)).
  { intros x. pose proof (nu_range e x). destruct (normalise_spec (elliptical_nu e x)) as [R S]; [lra|]. split; [exact R|].
    rewrite (same_cos _ _ S), (same_sin _ _ S). apply (nu_of_E e B x). }
  destruct (N (E + d)) as (R1 & C1 & S1). destruct (N E) as (R2 & C2 & S2). apply angle_unique_turn; [exact R1|exact R2| |].
  - rewrite C1, C2, cos_plus, Cd, Sd. f_equal; [ring|]. f_equal. ring.
  - rewrite S1, S2, cos_plus, sin_plus, Cd, Sd. f_equal; [ring|]. f_equal. ring.
Qed.
Lemma period_motion : forall a mu, 0 < a -> 0 < mu -> sqrt (mu / Rabs a ^ 3) * (2 * PI * sqrt (a ^ 3 / mu)) = 2 * PI.
Proof.
  intros a mu A U. rewrite Rabs_right by lra. assert (0 < a ^ 3) by (apply pow_lt; lra).
  replace (sqrt (mu / a ^ 3) * (2 * PI * sqrt (a ^ 3 / mu))) with (2 * PI * (sqrt (mu / a ^ 3) * sqrt (a ^ 3 / mu))) by ring.
  rewrite <- sqrt_mult; try (left; apply Rdiv_lt_0_compat; lra).
  replace (mu / a ^ 3 * (a ^ 3 / mu)) with 1 by (field; lra). rewrite sqrt_1. ring.
Qed.
Lemma com_M_turns : forall q e tp t0 mu, exists k : Z, cometary_M q e tp t0 mu = (t0 - tp) * cometary_n q e mu + IZR k * (2 * PI).
Proof.
  intros. unfold cometary_M. destruct (Rlt_dec 0 (tp - t0)); [exists 1%Z|exists 0%Z]; ring.
Qed.
Lemma com_axis : forall q e, 0 < q -> 0 <= e <= 1 - / 10 ^ 15 -> ellipse (q / (1 - e)) e.
Proof.
  intros q e Q E. pose proof tol_pos as T. unfold float_tol in T. split; [apply Rdiv_lt_0_compat; lra|exact E].
Qed.
Lemma rad_deg : forall x, radians (degrees x) = x.
Proof. intros. unfold radians, degrees. field. apply PI_neq0. Qed.
Lemma com_state : forall q e i raan ap tp t0 mu n tol, 0 < q -> 0 <= e <= 1 - / 10 ^ 15 ->
  cometary_to_cartesian q e i raan ap tp t0 mu n tol =
  perifocal (q / (1 - e) * (1 - e ^ 2)) e (radians i) (radians raan) (radians ap)
    (true_anomaly e ((t0 - tp) * sqrt (mu / Rabs (q / (1 - e)) ^ 3)) n tol) mu.
Proof.
  intros q e i raan ap tp t0 mu n tol Q E. pose proof (com_axis q e Q E) as X. destruct (ellipse_conic _ _ X) as (A & B & C).
  unfold cometary_to_cartesian, keplerian_to_cartesian_q, keplerian_to_cartesian_p. rewrite rad_deg, C.
  destruct (com_M_turns q e tp t0 mu) as [k K]. rewrite K. rewrite (anomaly_turns _ _ _ _ _ _ X).
  unfold cometary_n. rewrite C. reflexivity.
Qed.
