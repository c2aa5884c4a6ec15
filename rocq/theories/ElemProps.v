(* C254-C259: origins and derived orbital elements. *)
From Coq Require Import Reals QArith String Lra.
From Verif Require Import Base SphModel SphProofs KepModel KepProofs KepNewton KepElem ElemModel ElemSpec ElemProofs.
Open Scope string_scope.
Open Scope list_scope.

(* C254: the gravitational parameter of a row is that of a one-row table with its code, whatever the
   other rows and whatever the uninitialised memory; the call fails exactly when a row alone fails. *)
Theorem C254_rows : forall memory codes, List.length memory = List.length codes ->
  (exists l, origin_mu memory codes = Ok l /\ List.length l = List.length codes /\
     forall k c, nth_error codes k = Some c -> exists v, nth_error l k = Some v /\ forall cell, origin_mu [cell] [c] = Ok [v])
  \/ (origin_mu memory codes = Err ValueError /\ exists c, In c codes /\ forall cell, origin_mu [cell] [c] = Err ValueError).
Proof.
  intros memory codes L. destruct (worth_dec codes) as [H|(c & I & W)].
  - left. destruct (mu_ok memory codes L H) as (l & E & N & K). exists l. split; [exact E|]. split; [exact N|].
    intros k c X. specialize (K k c X). destruct (worth c) as [v|] eqn:W.
    + exists v. split; [exact K|]. intros. rewrite mu_one, W. reflexivity.
    + exfalso. apply (H c); [eapply nth_error_In; exact X|exact W].
  - right. split; [apply mu_bad with c; assumption|]. exists c. split; [exact I|]. intros. rewrite mu_one, W. reflexivity.
Qed.
(* the values: the Sun agrees with the constant used elsewhere in the library, the barycenter with
   Horizons and with the sum of its parts *)
Theorem C254_values : forall cell, exists sun ssb,
  origin_mu [cell] ["SUN"] = Ok [sun] /\ within (1 # 10 ^ 15) sun DE440_sun /\
  origin_mu [cell] ["SOLAR_SYSTEM_BARYCENTER"] = Ok [ssb] /\
  within (2 # 10 ^ 9) ssb (horizons_ssb / (149597870700 # 1000) ^ 3 * 86400 ^ 2)%Q /\
  exists parts, origin_mu (repeat cell 11)
     ["SUN"; "MERCURY_BARYCENTER"; "VENUS_BARYCENTER"; "EARTH"; "MOON"; "MARS_BARYCENTER"; "JUPITER_BARYCENTER";
      "SATURN_BARYCENTER"; "URANUS_BARYCENTER"; "NEPTUNE_BARYCENTER"; "PLUTO_BARYCENTER"] = Ok parts /\
     (ssb == fold_right Qplus 0 parts)%Q.
Proof.
  intros cell. eexists. eexists. split; [reflexivity|]. split; [split; vm_compute; discriminate|]. split; [reflexivity|].
  split; [split; vm_compute; discriminate|]. eexists. split; [reflexivity|]. vm_compute. reflexivity.
Qed.
(* two origins and a repeated one *)
Example C254_case : exists a b, origin_mu [7%Q; 8%Q; 9%Q] ["EARTH"; "SUN"; "EARTH"] = Ok [a; b; a] /\ (0 < a < b)%Q.
Proof. eexists. eexists. split; [reflexivity|]. split; reflexivity. Qed.

(* C255: every member of OriginCodes has a gravitational parameter: false. *)
Theorem C255_refuted : ~ (forall code cell, In code origin_codes -> exists v, origin_mu [cell] (from_codes code 1) = Ok [v]).
Proof.
  intros H. destruct (H ("JUPITER", 599%Z) 0%Q) as [v E]; [cbn; tauto|]. discriminate.
Qed.
(* exactly six members have none; the others are positive, and the barycenter exceeds them all *)
Theorem C255_partial : forall code cell, In code origin_codes ->
  (In (fst code) ["EARTH_MOON_BARYCENTER"; "MARS"; "JUPITER"; "SATURN"; "URANUS"; "NEPTUNE"] /\
   origin_mu [cell] (from_codes code 1) = Err ValueError) \/
  (~ In (fst code) ["EARTH_MOON_BARYCENTER"; "MARS"; "JUPITER"; "SATURN"; "URANUS"; "NEPTUNE"] /\
   exists v ssb, origin_mu [cell] (from_codes code 1) = Ok [v] /\ origin_mu [cell] ["SOLAR_SYSTEM_BARYCENTER"] = Ok [ssb] /\
     (0 < v <= ssb)%Q).
Proof.
  intros code cell H. cbn in H.
  repeat (destruct H as [<-|H]; [first [left; split; [cbn; tauto|reflexivity]
    |right; split; [intros K; cbn in K; repeat destruct K as [K|K]; try discriminate K; exact K
       |eexists; eexists; split; [reflexivity|]; split; [reflexivity|]; split; vm_compute; [reflexivity|discriminate]]]|]).
  destruct H.
Qed.

(* C256: a table made of one member is read back as that member; a table is read exactly when it is
   not empty and all its rows name the same member. *)
Theorem C256_back : forall code n, In code origin_codes -> as_codes (from_codes code (Datatypes.S n)) = Ok code.
Proof.
  intros code n H. unfold as_codes, from_codes. rewrite uniq_repeat, (code_lookup _ H). destruct code; reflexivity.
Qed.
Theorem C256_read : forall codes, match as_codes codes with
  | Ok code => In code origin_codes /\ codes = from_codes code (List.length codes) /\ codes <> []
  | Err KeyError => codes <> [] /\ exists c, codes = repeat c (List.length codes) /\ forall n, ~ In (c, n) origin_codes
  | Err e => e = AssertionError /\ forall c, codes = repeat c (List.length codes) -> codes = []
  end.
Proof.
  intros codes. unfold as_codes, from_codes. destruct (uniq String.eqb codes) as [|c [|d r]] eqn:U.
  - split; [reflexivity|]. intros _ _. destruct codes as [|x r]; [reflexivity|].
    exfalso. assert (I : In x (uniq String.eqb (x :: r))) by (apply uniq_same; left; reflexivity). rewrite U in I. destruct I.
  - destruct (one_code _ _ U) as [N O].
    assert (R : codes = repeat c (List.length codes)).
    { clear - O. induction codes as [|x r IH]; [reflexivity|]. cbn. f_equal; [apply O; left; reflexivity|apply IH; intros; apply O; right; assumption]. }
    destruct (lookup c origin_codes) as [n|] eqn:K.
    + split; [apply lookup_In; exact K|]. split; [exact R|exact N].
    + split; [exact N|]. exists c. split; [exact R|]. intros n I. apply code_lookup in I. cbn [fst] in I. congruence.
  - split; [reflexivity|]. intros x X. destruct codes as [|y t]; [reflexivity|]. exfalso.
    cbn [List.length] in X. rewrite X in U. rewrite uniq_repeat in U. discriminate.
Qed.
Example C256_case : as_codes ["SUN"; "SUN"] = Ok ("SUN", 10%Z) /\ as_codes ["SUN"; "EARTH"] = Err AssertionError /\
  as_codes ["PLUTO_BARYCENTER"] = Err KeyError /\ as_codes [] = Err AssertionError.
Proof. repeat split. Qed.

Open Scope R_scope.
(* C257: q and Q of a Keplerian row are the extreme distances of the states it is converted to, over
   all mean anomalies, and both are reached. *)
Theorem C257_ellipse : forall a e i raan ap mu n tol, ellipse a e -> 0 < mu ->
  exists q Q, kep_q a e = Num q /\ kep_Q a e = Num Q /\ 0 < q <= Q /\
  (forall M s, keplerian_to_cartesian_a a e i raan ap M mu n tol = Some s -> q <= range s <= Q) /\
  (exists s, keplerian_to_cartesian_a a e i raan ap 0 mu n tol = Some s /\ range s = q) /\
  (exists s, keplerian_to_cartesian_a a e i raan ap 180 mu n tol = Some s /\ range s = Q).
Proof.
  intros a e i raan ap mu n tol H U. destruct (ellipse_conic _ _ H) as (A & B & C).
  exists (a * (1 - e)), (a * (1 + e)). split; [reflexivity|].
  split; [unfold kep_Q, calc_apoapsis_distance; destruct (Rle_dec 1 e); [lra|reflexivity]|].
  split; [split; [apply Rmult_lt_0_compat; lra|apply Rmult_le_compat_l; lra]|]. split; [|split].
  - intros M s E. rewrite (kep_range _ _ _ _ _ _ _ _ _ _ (or_introl H) U E). set (t := true_anomaly _ _ _ _).
    pose proof (COS_bound t) as CB. assert (D : 0 < 1 + e * cos t) by (apply den_nu; exact B).
    split.
    + apply Rmult_le_reg_r with (1 + e * cos t); [exact D|]. unfold Rdiv. rewrite (Rmult_assoc (a * (1 - e ^ 2))), Rinv_l by lra.
      replace (a * (1 - e ^ 2) * 1) with (a * (1 - e) * (1 + e)) by ring. apply Rmult_le_compat_l; [apply Rmult_le_pos; lra|].
      apply Rplus_le_compat_l. rewrite <- (Rmult_1_r e) at 2. apply Rmult_le_compat_l; lra.
    + apply Rmult_le_reg_r with (1 + e * cos t); [exact D|]. unfold Rdiv. rewrite (Rmult_assoc (a * (1 - e ^ 2))), Rinv_l by lra.
      replace (a * (1 - e ^ 2) * 1) with (a * (1 + e) * (1 - e)) by ring. apply Rmult_le_compat_l; [apply Rmult_le_pos; lra|].
      assert (e * -1 <= e * cos t) by (apply Rmult_le_compat_l; lra). lra.
  - eexists. split; [apply kep_state; left; exact H|].
    rewrite (kep_range _ _ _ _ _ _ _ _ _ _ (or_introl H) U (kep_state a e i raan ap 0 mu n tol (or_introl H))).
    replace (radians 0) with 0 by (unfold radians; ring).
    rewrite (anomaly_at a e 0 n tol H) by (rewrite ?sin_0; ring). rewrite cos_0. replace ((1 - e) / (1 - e * 1)) with 1 by (field; lra). field. lra.
  - eexists. split; [apply kep_state; left; exact H|].
    rewrite (kep_range _ _ _ _ _ _ _ _ _ _ (or_introl H) U (kep_state a e i raan ap 180 mu n tol (or_introl H))).
    replace (radians 180) with PI by (unfold radians; field).
    rewrite (anomaly_at a e PI n tol H) by (rewrite ?sin_PI; ring). rewrite cos_PI. replace ((-1 - e) / (1 - e * -1)) with (-1) by (field; lra). field. lra.
Qed.
Theorem C257_hyperbola : forall a e i raan ap mu n tol, hyperbola a e -> 0 < mu ->
  exists q, kep_q a e = Num q /\ kep_Q a e = PInf /\ kep_P a mu = PInf /\ 0 < q /\
  (forall M s, keplerian_to_cartesian_a a e i raan ap M mu n tol = Some s -> q <= range s) /\
  (exists s, keplerian_to_cartesian_a a e i raan ap 0 mu n tol = Some s /\ range s = q).
Proof.
  intros a e i raan ap mu n tol H U. destruct (hyperbola_conic _ _ H) as (A & B & C).
  assert (QP : 0 < a * (1 - e)) by (replace (a * (1 - e)) with (- a * (e - 1)) by ring; apply Rmult_lt_0_compat; lra).
  exists (a * (1 - e)). split; [reflexivity|].
  split; [unfold kep_Q, calc_apoapsis_distance; destruct (Rle_dec 1 e); [reflexivity|lra]|].
  split; [unfold kep_P, calc_period; destruct (Rlt_dec a 0); [reflexivity|lra]|]. split; [exact QP|]. split.
  - intros M s E. rewrite (kep_range _ _ _ _ _ _ _ _ _ _ (or_intror H) U E).
    assert (D := anomaly_conic a e (radians M) n tol (or_intror H)). set (t := true_anomaly _ _ _ _) in *.
    pose proof (COS_bound t) as CB.
    apply Rmult_le_reg_r with (1 + e * cos t); [exact D|]. unfold Rdiv. rewrite (Rmult_assoc (a * (1 - e ^ 2))), Rinv_l by lra.
    replace (a * (1 - e ^ 2) * 1) with (a * (1 - e) * (1 + e)) by ring. apply Rmult_le_compat_l; [lra|].
    apply Rplus_le_compat_l. rewrite <- (Rmult_1_r e) at 2. apply Rmult_le_compat_l; lra.
  - eexists. split; [apply kep_state; right; exact H|].
    rewrite (kep_range _ _ _ _ _ _ _ _ _ _ (or_intror H) U (kep_state a e i raan ap 0 mu n tol (or_intror H))).
    replace (radians 0) with 0 by (unfold radians; ring). rewrite (hyp_anomaly_0 a e n tol H). field. lra.
Qed.
(* p is the squared angular momentum over mu, and a gives the energy *)
Theorem C257_momentum : forall a e i raan ap M mu n tol s, ellipse a e \/ hyperbola a e -> 0 < mu ->
  keplerian_to_cartesian_a a e i raan ap M mu n tol = Some s ->
  kep_p a e = Num (momentum2 s / mu) /\ speed2 s / 2 - mu / range s = - mu / (2 * a).
Proof.
  intros a e i raan ap M mu n tol s H U E. destruct (kep_energy _ _ _ _ _ _ _ _ _ _ H U E) as [A B]. split; [|exact B].
  rewrite A. unfold kep_p, calc_semi_latus_rectum, x_scale. f_equal. field. lra.
Qed.
Example C257_case : ellipse 2 (1 / 2) /\ hyperbola (-2) 3 /\ kep_q 2 (1 / 2) = Num 1 /\ kep_Q 2 (1 / 2) = Num 3.
Proof.
  assert (0 < / 10 ^ 15) by (apply Rinv_0_lt_compat, pow_lt; lra).
  assert (/ 10 ^ 15 < 1 / 1000) by (cbn; lra).
  split; [split; lra|]. split; [split; lra|]. split; [unfold kep_q, calc_periapsis_distance; f_equal; lra|].
  unfold kep_Q, calc_apoapsis_distance. destruct (Rle_dec 1 (1 / 2)); [lra|]. unfold x_scale. f_equal. lra.
Qed.

(* C258: P is the period: the converted state comes back after P days, for every number of solver
   steps and every tolerance, and n is the angle per day of the mean anomaly. *)
Theorem C258_keplerian : forall a e i raan ap M mu n tol, ellipse a e -> 0 < mu ->
  exists P m, kep_P a mu = Num P /\ kep_n a mu = Num m /\ 0 < P /\ m * P = 360 /\
  forall k : Z, keplerian_to_cartesian_a a e i raan ap (M + m * (IZR k * P)) mu n tol = keplerian_to_cartesian_a a e i raan ap M mu n tol.
Proof.
  intros a e i raan ap M mu n tol H U. destruct (ellipse_conic _ _ H) as (A & B & C).
  assert (A3 : 0 < a ^ 3) by (apply pow_lt; lra). pose proof PI_RGT_0 as PI0.
  pose proof (period_motion a mu A U) as PM.
  exists (2 * PI * sqrt (a ^ 3 / mu)), (degrees (sqrt (mu / Rabs a ^ 3))).
  split; [unfold kep_P, calc_period; destruct (Rlt_dec a 0); [lra|reflexivity]|].
  split; [unfold kep_n, calc_mean_motion; destruct (Req_EM_T a 0); [lra|reflexivity]|].
  split; [apply Rmult_lt_0_compat; [lra|apply sqrt_lt_R0, Rdiv_lt_0_compat; lra]|].
  assert (T : degrees (sqrt (mu / Rabs a ^ 3)) * (2 * PI * sqrt (a ^ 3 / mu)) = 360).
  { unfold degrees. transitivity (sqrt (mu / Rabs a ^ 3) * (2 * PI * sqrt (a ^ 3 / mu)) * (180 / PI)); [ring|]. rewrite PM. field. lra. }
  split; [exact T|]. intros k. rewrite !kep_state by (left; exact H). do 2 f_equal.
  replace (radians (M + degrees (sqrt (mu / Rabs a ^ 3)) * (IZR k * (2 * PI * sqrt (a ^ 3 / mu)))))
    with (radians M + IZR k * (2 * PI)).
  - apply (anomaly_turns _ _ _ _ _ _ H).
  - transitivity (radians (M + IZR k * (degrees (sqrt (mu / Rabs a ^ 3)) * (2 * PI * sqrt (a ^ 3 / mu))))).
    + rewrite T. unfold radians. field.
    + f_equal. ring.
Qed.
(* a cometary row: the state at t0 + k P is the state at t0; half a period from periapsis the object is at
   apoapsis *)
Theorem C258_cometary : forall q e i raan ap tp mu n tol, 0 < q -> 0 <= e <= 1 - / 10 ^ 15 -> 0 < mu ->
  exists P Q, com_P q e mu = Num P /\ com_Q q e = Num Q /\ 0 < P /\
  (forall t0 (k : Z), cometary_to_cartesian q e i raan ap tp (t0 + IZR k * P) mu n tol = cometary_to_cartesian q e i raan ap tp t0 mu n tol) /\
  (forall k : Z, range (cometary_to_cartesian q e i raan ap tp (tp + IZR k * P) mu n tol) = q) /\
  (forall k : Z, range (cometary_to_cartesian q e i raan ap tp (tp + P / 2 + IZR k * P) mu n tol) = Q) /\
  (forall t0, q <= range (cometary_to_cartesian q e i raan ap tp t0 mu n tol) <= Q).
Proof.
  intros q e i raan ap tp mu n tol Hq He U. pose proof (com_axis q e Hq He) as H. destruct (ellipse_conic _ _ H) as (A & B & C).
  set (a := q / (1 - e)) in *. assert (A3 : 0 < a ^ 3) by (apply pow_lt; lra). pose proof PI_RGT_0 as PI0.
  pose proof (period_motion a mu A U) as PM. set (w := sqrt (mu / Rabs a ^ 3)) in *.
  set (P := 2 * PI * sqrt (a ^ 3 / mu)) in *. exists P, (a * (1 + e)).
  assert (CA : com_a q e = Num a) by (unfold com_a, calc_semi_major_axis; destruct (Req_EM_T e 1); [lra|reflexivity]).
  split; [unfold com_P; rewrite CA; unfold calc_period; destruct (Rlt_dec a 0); [lra|reflexivity]|].
  split; [unfold com_Q; rewrite CA; unfold calc_apoapsis_distance; destruct (Rle_dec 1 e); [lra|reflexivity]|].
  split; [unfold P; apply Rmult_lt_0_compat; [lra|apply sqrt_lt_R0, Rdiv_lt_0_compat; lra]|].
  assert (PP : forall t0 (k : Z), cometary_to_cartesian q e i raan ap tp (t0 + IZR k * P) mu n tol = cometary_to_cartesian q e i raan ap tp t0 mu n tol).
  { intros t0 k. rewrite !com_state by assumption. f_equal. fold a. fold w.
    replace ((t0 + IZR k * P - tp) * w) with ((t0 - tp) * w + IZR k * (w * P)) by ring. rewrite PM. apply (anomaly_turns _ _ _ _ _ _ H). }
  (* the state of the row with the same elements in Keplerian form *)
  assert (KK : forall t0, keplerian_to_cartesian_a a e i raan ap (degrees ((t0 - tp) * w)) mu n tol =
     Some (cometary_to_cartesian q e i raan ap tp t0 mu n tol)).
  { intros t0. rewrite kep_state by (left; exact H). rewrite rad_deg. rewrite com_state by assumption. reflexivity. }
  assert (KR : forall t0, range (cometary_to_cartesian q e i raan ap tp t0 mu n tol) = a * (1 - e ^ 2) / (1 + e * cos (true_anomaly e ((t0 - tp) * w) n tol))).
  { intros t0. rewrite (kep_range _ _ _ _ _ _ _ _ _ _ (or_introl H) U (KK t0)). rewrite rad_deg. reflexivity. }
  assert (QA : a * (1 - e) = q) by (unfold a; field; lra).
  split; [exact PP|]. split; [|split].
  - intros k. rewrite PP, KR. replace ((tp - tp) * w) with 0 by ring.
    rewrite (anomaly_at a e 0 n tol H) by (rewrite ?sin_0; ring). rewrite cos_0. replace ((1 - e) / (1 - e * 1)) with 1 by (field; lra). rewrite <- QA. field. lra.
  - intros k. rewrite PP, KR. replace ((tp + P / 2 - tp) * w) with (w * P / 2) by field. rewrite PM.
    replace (2 * PI / 2) with PI by field.
    rewrite (anomaly_at a e PI n tol H) by (rewrite ?sin_PI; ring). rewrite cos_PI. replace ((-1 - e) / (1 - e * -1)) with (-1) by (field; lra). field. lra.
  - intros t0. destruct (C257_ellipse a e i raan ap mu n tol H U) as (q' & Q' & E1 & E2 & _ & BB & _).
    specialize (BB _ _ (KK t0)). injection E1 as <-. unfold kep_Q, calc_apoapsis_distance in E2.
    destruct (Rle_dec 1 e); [lra|]. injection E2 as <-. rewrite QA in BB. exact BB.
Qed.
(* a row that meets the hypotheses: period 2 pi, apoapsis 3 *)
Example C258_case : 0 < 1 /\ 0 <= 1 / 2 <= 1 - / 10 ^ 15 /\ com_P 1 (1 / 2) 8 = Num (2 * PI) /\ com_Q 1 (1 / 2) = Num 3.
Proof.
  assert (/ 10 ^ 15 < 1 / 1000) by (cbn; lra).
  split; [lra|]. split; [lra|]. unfold com_P, com_Q, com_a, calc_semi_major_axis. destruct (Req_EM_T (1 / 2) 1); [lra|].
  replace (1 / (1 - 1 / 2)) with 2 by field. unfold calc_period, calc_apoapsis_distance. destruct (Rlt_dec 2 0); [lra|]. destruct (Rle_dec 1 (1 / 2)); [lra|].
  split; [replace (2 ^ 3 / 8) with 1 by field; rewrite sqrt_1; f_equal; ring|]. unfold x_scale. f_equal. lra.
Qed.

(* C259: the derived columns of a cometary row describe the orbit it is converted to. *)
(* the full statement, p = q (1 + e) for every orbit, is false of the parabola *)
Theorem C259_refuted : exists q e, 0 < q /\ 0 <= e /\ com_p q e = NaN /\ com_p q e <> Num (q * (1 + e)) /\
  forall i raan ap tp t0 mu n tol, 0 < mu ->
    momentum2 (cometary_to_cartesian q e i raan ap tp t0 mu n tol) / mu = q * (1 + e).
Proof.
  exists 1, 1. assert (N : com_p 1 1 = NaN).
  { unfold com_p, com_a, calc_semi_major_axis, calc_semi_latus_rectum. destruct (Req_EM_T 1 1); [|congruence].
    destruct (Rlt_dec 0 1); [|lra]. unfold x_scale. destruct (Rlt_dec 0 (1 - 1 ^ 2)); [lra|]. destruct (Rlt_dec (1 - 1 ^ 2) 0); [lra|reflexivity]. }
  split; [lra|]. split; [lra|]. split; [exact N|]. split; [rewrite N; discriminate|].
  intros i raan ap tp t0 mu n tol U. unfold cometary_to_cartesian, keplerian_to_cartesian_q, keplerian_to_cartesian_p.
  assert (T : 0 < / 10 ^ 15) by (apply Rinv_0_lt_compat, pow_lt; lra).
  assert (Pb : parabolic 1 = true) by (unfold parabolic, float_tol; destruct (Rlt_dec (1 - / 10 ^ 15) 1); [|lra]; destruct (Rlt_dec 1 (1 + / 10 ^ 15)); [reflexivity|lra]).
  rewrite Pb. unfold true_anomaly. rewrite Pb. set (M := radians (degrees _)).
  assert (D : 0 < 1 + 1 * cos (solve_barker M)).
  { unfold solve_barker. set (x := Rpower _ _ - _). rewrite cos_2a_cos, cos_atan.
    assert (0 < 1 + x ^ 2) by nra. unfold Rsqr. replace (1 + x * x) with (1 + x ^ 2) by ring.
    assert (0 < / sqrt (1 + x ^ 2)) by (apply Rinv_0_lt_compat, sqrt_lt_R0; lra). unfold Rdiv. nra. }
  rewrite momentum_norm, h_vec by (try lra; exact D). rewrite h_norm by lra. rewrite sqrt_sq2 by lra. field. lra.
Qed.
(* away from e = 1 the columns are those of the same orbit in Keplerian form *)
Theorem C259_partial : forall q e mu, 0 < q -> 0 <= e -> e <> 1 -> 0 < mu ->
  exists a, com_a q e = Num a /\ a <> 0 /\ (0 < a <-> e < 1) /\ kep_q a e = Num q /\ com_Q q e = kep_Q a e /\
  com_p q e = kep_p a e /\ com_p q e = Num (q * (1 + e)) /\ com_P q e mu = kep_P a mu /\ com_n q e mu = kep_n a mu /\
  (com_P q e mu = PInf <-> 1 < e) /\ (com_Q q e = PInf <-> 1 < e).
Proof.
  intros q e mu Q E N U. exists (q / (1 - e)).
  assert (CA : com_a q e = Num (q / (1 - e))) by (unfold com_a, calc_semi_major_axis; destruct (Req_EM_T e 1); [congruence|reflexivity]).
  assert (S : (0 < q / (1 - e) /\ e < 1) \/ (q / (1 - e) < 0 /\ 1 < e)).
  { destruct (Rlt_dec e 1) as [L|L].
    - left. split; [apply Rdiv_lt_0_compat; lra|exact L].
    - right. split; [|lra]. replace (q / (1 - e)) with (- (q / (e - 1))) by (field; lra).
      assert (0 < q / (e - 1)) by (apply Rdiv_lt_0_compat; lra). lra. }
  split; [exact CA|]. split; [lra|]. split; [lra|].
  split; [unfold kep_q, calc_periapsis_distance; f_equal; field; lra|].
  unfold com_Q, com_p, com_P, com_n. rewrite CA. split; [reflexivity|]. split; [reflexivity|].
  split; [unfold calc_semi_latus_rectum, x_scale; f_equal; field; lra|]. split; [reflexivity|]. split; [reflexivity|].
  unfold calc_period, calc_apoapsis_distance. split.
  - destruct (Rlt_dec (q / (1 - e)) 0); split; intros X; try reflexivity; try lra. discriminate.
  - destruct (Rle_dec 1 e); split; intros X; try reflexivity; try lra. discriminate.
Qed.
(* at the parabola a, Q and P are infinite and n is 0 *)
Theorem C259_parabola_partial : forall q mu, 0 < q -> com_a q 1 = PInf /\ com_Q q 1 = PInf /\ com_P q 1 mu = PInf /\ com_n q 1 mu = Num 0.
Proof.
  intros q mu Q. assert (CA : com_a q 1 = PInf).
  { unfold com_a, calc_semi_major_axis. destruct (Req_EM_T 1 1); [|congruence]. destruct (Rlt_dec 0 q); [reflexivity|lra]. }
  unfold com_Q, com_P, com_n. rewrite CA. split; [reflexivity|]. split; [unfold calc_apoapsis_distance; destruct (Rle_dec 1 1); [reflexivity|lra]|].
  split; [reflexivity|]. unfold calc_mean_motion, x_degrees, degrees. f_equal. ring.
Qed.
Example C259_case : 0 < 3 /\ 0 <= 2 /\ 2 <> 1 /\ com_a 3 2 = Num (-3) /\ com_p 3 2 = Num 9.
Proof.
  split; [lra|]. split; [lra|]. split; [lra|]. unfold com_p, com_a, calc_semi_major_axis, calc_semi_latus_rectum.
  destruct (Req_EM_T 2 1); [lra|]. split; [f_equal; field|]. unfold x_scale. f_equal. field.
Qed.

Print Assumptions C254_rows.
Print Assumptions C254_values.
Print Assumptions C255_refuted.
Print Assumptions C255_partial.
Print Assumptions C256_back.
Print Assumptions C256_read.
Print Assumptions C257_ellipse.
Print Assumptions C257_hyperbola.
Print Assumptions C257_momentum.
Print Assumptions C258_keplerian.
Print Assumptions C258_cometary.
Print Assumptions C259_refuted.
Print Assumptions C259_partial.
Print Assumptions C259_parabola_partial.
