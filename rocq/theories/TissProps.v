(* Properties of the Tisserand parameter. *)
From Coq Require Import Reals Lra Lia ZArith String List Bool.
From Verif Require Import Base SphModel KepModel KepSpec KepElem TissModel.
Import ListNotations.
Open Scope string_scope.
Open Scope list_scope.
Open Scope R_scope.

Lemma body_pos : forall b ap, In (b, ap) major_bodies -> 0 < ap.
Proof. intros b ap H. unfold major_bodies in H. cbn [In] in H. repeat (destruct H as [H|H]; [injection H as <- <-; lra|]). destruct H. Qed.
Lemma body_find : forall b ap, In (b, ap) major_bodies -> find (fun p => String.eqb (fst p) b) major_bodies = Some (b, ap).
Proof. intros b ap H. unfold major_bodies in *. cbn [In] in H. repeat (destruct H as [H|H]; [injection H as <- <-; reflexivity|]). destruct H. Qed.
Lemma rad_deg : forall x, radians (degrees x) = x.
Proof. intro x. unfold radians, degrees. field. apply PI_neq0. Qed.

(* ---- C209: what the parameter says about a state ---- *)
Theorem C209_state : forall s t0 mu kk a i body ap, 0 < mu -> In (body, ap) major_bodies ->
  cartesian_to_keplerian s t0 mu = Some kk -> k_a kk = Some a -> k_i kk = Some i ->
  tisserand a (k_e kk) i body =
    Ok (Some (2 * ap / norm (pos s) - ap * norm (vel s) ^ 2 / mu + 2 * vz (cross (pos s) (vel s)) / sqrt (mu * ap))).
Proof.
  intros s t0 mu kk a i body ap MU B K KA KI. pose proof (body_pos body ap B) as AP. unfold cartesian_to_keplerian in K.
  destruct (Req_EM_T (norm (pos s)) 0) as [|R0]; [discriminate|].
  match type of K with Some ?x = _ => assert (EK : kk = x) by congruence end. clear K. subst kk. cbn [k_a k_i k_e] in *.
  set (r := pos s) in *. set (v := vel s) in *. set (h := cross r v) in *. set (E := scale (/ mu) _) in *.
  assert (RP : 0 < norm r) by (pose proof (sqrt_pos (dot r r)); unfold norm in *; lra).
  destruct (parabolic (norm E)); [discriminate|]. unfold odiv at 1 in KA. destruct (Req_EM_T (-2 * (norm v ^ 2 / 2 - mu / norm r)) 0) as [|S0]; [discriminate|].
  assert (A' : a = mu / (-2 * (norm v ^ 2 / 2 - mu / norm r))) by congruence. clear KA.
  unfold odiv in KI. destruct (Req_EM_T (norm h) 0) as [|H0]; [discriminate|]. cbn [obind] in KI. unfold oacos in KI.
  destruct (Rle_dec (-1) (vz h / norm h)) as [L1|]; [|discriminate]. destruct (Rle_dec (vz h / norm h) 1) as [L2|]; [|discriminate]. cbn [option_map] in KI.
  assert (I' : i = degrees (acos (vz h / norm h))) by congruence. clear KI.
  assert (HP : 0 < norm h) by (pose proof (sqrt_pos (dot h h)); unfold norm in *; lra).
  assert (LG : dot h h = dot r r * dot v v - dot r v * dot r v) by (unfold h; destruct r as [[r1 r2] r3], v as [[v1 v2] v3]; cbn; ring).
  assert (FE : mu ^ 2 * norm E ^ 2 = mu ^ 2 + norm h ^ 2 * (norm v ^ 2 - 2 * (mu / norm r))).
  { unfold E. change (vplus (scale (norm v ^ 2 - mu / norm r) r) (scale (- dot r v) v)) with (lin (norm v ^ 2 - mu / norm r) (- dot r v) r v).
    rewrite !norm_sq, dot_scale, dot_lin, LG. rewrite <- (norm_sq r). field. split; lra. }
  set (rho := norm r) in *. set (v2 := norm v ^ 2) in *. set (e := norm E) in *. set (hm := norm h) in *. clearbody rho v2 e hm. clear E LG.
  set (D := -2 * (v2 / 2 - mu / rho)) in *. assert (DD : D = 2 * mu / rho - v2) by (unfold D; field; lra). clearbody D.
  assert (P' : a * (1 - e ^ 2) = hm ^ 2 / mu).
  { assert (Q : mu ^ 2 * (1 - e ^ 2) = hm ^ 2 * D) by (rewrite DD; lra). rewrite A'.
    apply Rmult_eq_reg_l with (mu ^ 2); [|apply pow_nonzero; lra]. replace (mu ^ 2 * (mu / D * (1 - e ^ 2))) with (mu / D * (mu ^ 2 * (1 - e ^ 2))) by ring.
    rewrite Q. field. split; [lra|exact S0]. }
  assert (AN : a <> 0). { intro Z. assert (Y : mu / D * D = mu) by (field; exact S0). rewrite <- A', Z in Y. lra. }
  assert (IA : ap / a = 2 * ap / rho - ap * v2 / mu). { transitivity (ap * D / mu); [rewrite A'; field; repeat split; first [exact S0|lra]|]. rewrite DD. field. split; lra. }
  assert (W : a / ap * (1 - e ^ 2) = (hm / sqrt (mu * ap)) ^ 2).
  { assert (MA : 0 < mu * ap) by (apply Rmult_lt_0_compat; lra). assert (SQ : 0 < sqrt (mu * ap)) by (apply sqrt_lt_R0; lra).
    replace ((hm / sqrt (mu * ap)) ^ 2) with (hm ^ 2 / (sqrt (mu * ap) * sqrt (mu * ap))) by (field; lra). rewrite sqrt_def by lra.
    replace (a / ap * (1 - e ^ 2)) with (a * (1 - e ^ 2) / ap) by (field; lra). rewrite P'. field. split; lra. }
  assert (SQ : 0 < sqrt (mu * ap)) by (apply sqrt_lt_R0, Rmult_lt_0_compat; lra).
  unfold tisserand. rewrite (body_find _ _ B). destruct (Req_EM_T a 0); [contradiction|]. rewrite W.
  assert (HN : 0 <= hm / sqrt (mu * ap)) by (apply Rlt_le, Rdiv_lt_0_compat; lra).
  destruct (Rlt_dec _ 0) as [N|N]; [exfalso; pose proof (pow2_ge_0 (hm / sqrt (mu * ap))); lra|]. rewrite sqrt_pow2 by exact HN.
  rewrite I', rad_deg, cos_acos by lra. rewrite IA. do 2 f_equal. field. split; lra.
Qed.
Print Assumptions C209_state.

(* at the orbit of the planet, in its plane, moving at U relative to a planet there on a circular orbit *)
Definition at_planet (ap th : R) : vec := (ap * cos th, ap * sin th, 0).
Definition planet_velocity (ap mu th : R) : vec := (- (sqrt (mu / ap) * sin th), sqrt (mu / ap) * cos th, 0).
Theorem C209_encounter : forall s t0 mu kk a i body ap th, 0 < mu -> In (body, ap) major_bodies ->
  cartesian_to_keplerian s t0 mu = Some kk -> k_a kk = Some a -> k_i kk = Some i -> pos s = at_planet ap th ->
  tisserand a (k_e kk) i body = Ok (Some (3 - norm (vplus (vel s) (scale (-1) (planet_velocity ap mu th))) ^ 2 / (mu / ap))).
Proof.
  intros s t0 mu kk a i body ap th MU B K KA KI PS. pose proof (body_pos body ap B) as AP.
  rewrite (C209_state s t0 mu kk a i body ap MU B K KA KI), PS. do 2 f_equal.
  assert (NR : norm (at_planet ap th) = ap). { apply KepElem.norm_of; [lra|]. unfold at_planet. cbn [dot]. pose proof (sin2_cos2 th) as T. unfold Rsqr in T. replace (ap * cos th * (ap * cos th) + ap * sin th * (ap * sin th) + 0 * 0) with (ap * ap * (sin th * sin th + cos th * cos th)) by ring. rewrite T. ring. }
  rewrite NR, !norm_sq. destruct (vel s) as [[v1 v2] v3]. unfold at_planet, planet_velocity. cbn [dot vplus scale cross vz snd].
  assert (MA : 0 < mu * ap) by (apply Rmult_lt_0_compat; lra).
  assert (Q : sqrt (mu / ap) = sqrt (mu * ap) / ap). { replace (mu / ap) with (mu * ap / (ap * ap)) by (field; lra). rewrite sqrt_div_alt by (apply Rmult_lt_0_compat; lra). rewrite sqrt_square by lra. reflexivity. }
  rewrite Q. set (q := sqrt (mu * ap)) in *. assert (QQ : q * q = mu * ap) by (unfold q; apply sqrt_def; lra). assert (QP : 0 < q) by (apply sqrt_lt_R0; exact MA). clearbody q.
  pose proof (sin2_cos2 th) as T. unfold Rsqr in T. set (c := cos th) in *. set (d := sin th) in *. clearbody c d.
  replace ((v1 + -1 * - (q / ap * d)) * (v1 + -1 * - (q / ap * d)) + (v2 + -1 * (q / ap * c)) * (v2 + -1 * (q / ap * c)) + (v3 + -1 * 0) * (v3 + -1 * 0))
    with ((v1 * v1 + v2 * v2 + v3 * v3) + 2 * (q / ap) * (v1 * d - v2 * c) + (q * q) / (ap * ap) * (d * d + c * c)) by (field; lra).
  rewrite T, QQ. replace (2 * (ap * c * v2 - ap * d * v1) / q) with (2 * (ap * c * v2 - ap * d * v1) * q / (q * q)) by (field; lra). rewrite QQ. field. split; lra.
Qed.
Print Assumptions C209_encounter.
(* an encounter that changes the direction of the relative velocity and not its size keeps the parameter *)
Theorem C209_invariant : forall s s' t0 t0' mu kk kk' a a' i i' body ap th, 0 < mu -> In (body, ap) major_bodies ->
  cartesian_to_keplerian s t0 mu = Some kk -> k_a kk = Some a -> k_i kk = Some i -> pos s = at_planet ap th ->
  cartesian_to_keplerian s' t0' mu = Some kk' -> k_a kk' = Some a' -> k_i kk' = Some i' -> pos s' = at_planet ap th ->
  norm (vplus (vel s) (scale (-1) (planet_velocity ap mu th))) = norm (vplus (vel s') (scale (-1) (planet_velocity ap mu th))) ->
  tisserand a (k_e kk) i body = tisserand a' (k_e kk') i' body.
Proof.
  intros. erewrite !C209_encounter by eassumption. congruence.
Qed.
Print Assumptions C209_invariant.

(* ---- C210: orbits with a parameter above three do not reach the planet ---- *)
Theorem C210_no_crossing : forall a e i body ap T, In (body, ap) major_bodies -> 0 <= e ->
  (0 < a /\ e < 1) \/ (a < 0 /\ 1 < e) ->
  tisserand a e i body = Ok (Some T) -> 3 < T ->
  (* perihelion outside the planet, or aphelion inside *)
  ap < a * (1 - e) \/ (e < 1 /\ a * (1 + e) < ap).
Proof.
  intros a e i body ap T B E D H T3. pose proof (body_pos body ap B) as AP. unfold tisserand in H. rewrite (body_find _ _ B) in H.
  destruct (Req_EM_T a 0) as [|A0]; [discriminate|]. destruct (Rlt_dec _ 0) as [|W]; [discriminate|]. assert (HT : T = ap / a + 2 * cos (radians i) * sqrt (a / ap * (1 - e ^ 2))) by congruence. clear H.
  destruct (Rlt_dec ap (a * (1 - e))) as [|N1]; [left; assumption|]. right.
  destruct D as [[A1 E1]|[A1 E1]].
  - split; [exact E1|]. destruct (Rlt_dec (a * (1 + e)) ap) as [|N2]; [assumption|]. exfalso.
    set (y := ap / a) in *. assert (Y : 0 < y) by (apply Rdiv_lt_0_compat; lra). assert (AY : a * y = ap) by (unfold y; field; lra).
    assert (Y1 : 1 - e <= y). { apply Rmult_le_reg_l with a; [exact A1|]. rewrite AY. lra. }
    assert (Y2 : y <= 1 + e). { apply Rmult_le_reg_l with a; [exact A1|]. rewrite AY. lra. }
    assert (WY : a / ap * (1 - e ^ 2) = (1 - e ^ 2) / y) by (unfold y; field; lra). rewrite WY in *.
    assert (LE : (1 - e ^ 2) / y <= 2 - y). { apply Rmult_le_reg_r with y; [exact Y|]. unfold Rdiv. rewrite Rmult_assoc, Rinv_l by lra. nra. }
    set (w := (1 - e ^ 2) / y) in *. set (q := sqrt w) in *. assert (QQ : q * q = w) by (unfold q; apply sqrt_def; lra). assert (Q0 : 0 <= q) by apply sqrt_pos.
    pose proof (COS_bound (radians i)) as [_ C1]. assert (T <= 3); [|lra]. rewrite HT. pose proof (Rle_0_sqr (q - 1)) as SQ. unfold Rsqr in SQ. nra.
  - exfalso. set (y := ap / a) in *. assert (AY : a * y = ap) by (unfold y; field; lra).
    assert (Y : y < 0). { apply Rmult_lt_reg_l with (- a); [lra|]. nra. }
    assert (Y1 : y <= 1 - e). { apply Rmult_le_reg_l with (- a); [lra|]. nra. }
    assert (WY : a / ap * (1 - e ^ 2) = (1 - e ^ 2) / y) by (unfold y; field; lra). rewrite WY in *.
    assert (LE : (1 - e ^ 2) / y <= 2 - y).
    { apply Rmult_le_reg_r with (- y); [lra|]. replace ((1 - e ^ 2) / y * - y) with (- (1 - e ^ 2)) by (field; lra). nra. }
    set (w := (1 - e ^ 2) / y) in *. set (q := sqrt w) in *. assert (QQ : q * q = w) by (unfold q; apply sqrt_def; lra). assert (Q0 : 0 <= q) by apply sqrt_pos.
    pose proof (COS_bound (radians i)) as [_ C1]. assert (T <= 3); [|lra]. rewrite HT. pose proof (Rle_0_sqr (q - 1)) as SQ. unfold Rsqr in SQ. nra.
Qed.
Print Assumptions C210_no_crossing.
(* the planet's own orbit has the value three; other names are refused *)
Theorem C210_planet : forall body ap, In (body, ap) major_bodies -> tisserand ap 0 0 body = Ok (Some 3).
Proof.
  intros body ap B. pose proof (body_pos body ap B) as AP. unfold tisserand. rewrite (body_find _ _ B). destruct (Req_EM_T ap 0); [lra|].
  replace (ap / ap * (1 - 0 ^ 2)) with 1 by (field; lra). destruct (Rlt_dec 1 0); [lra|]. unfold radians. rewrite Rmult_0_l, cos_0, sqrt_1. do 2 f_equal. field. lra.
Qed.
Print Assumptions C210_planet.
(* the semi-major axes themselves, in au *)
Theorem C210_axes : Forall (fun p => tisserand (snd p) 0 0 (fst p) = Ok (Some 3))
  [("mercury", 0.3870970330236769); ("venus", 0.723341974974844); ("earth", 0.9997889954736553); ("mars", 1.523803685638066);
   ("jupiter", 5.203719697535582); ("saturn", 9.579110220472034); ("uranus", 19.18646168457971); ("neptune", 30.22486701698071)].
Proof.
  assert (E : forall b x, (exists y, In (b, y) major_bodies /\ x = y) -> tisserand x 0 0 b = Ok (Some 3)) by (intros b x (y & I & ->); apply C210_planet; exact I).
  repeat constructor; cbn [fst snd]; apply E; eexists; (split; [unfold major_bodies; cbn [In]; repeat (first [left; reflexivity|right])|lra]).
Qed.
Print Assumptions C210_axes.
Theorem C210_names : forall a e i body, tisserand a e i body = Err ValueError <->
  ~ In body ["mercury"; "venus"; "earth"; "mars"; "jupiter"; "saturn"; "uranus"; "neptune"].
Proof.
  intros a e i body. split.
  - intros H I. assert (Q : exists ap, In (body, ap) major_bodies). { cbn [In] in I. unfold major_bodies. decompose [or] I; subst; try contradiction; eexists; cbn [In]; eauto 12. }
    destruct Q as (ap & Q). unfold tisserand in H. rewrite (body_find _ _ Q) in H. destruct (Req_EM_T a 0); [discriminate|]. destruct (Rlt_dec _ 0); discriminate.
  - intro N. unfold tisserand. destruct (find _ major_bodies) as [[b ap]|] eqn:F; [|reflexivity]. exfalso. apply N. apply find_some in F as [F1 F2]. cbn [fst] in F2. apply String.eqb_eq in F2. subst b.
    apply (in_map fst) in F1. exact F1.
Qed.
Print Assumptions C210_names.

(* ---- concrete cases ---- *)
Definition ap_j : R := 5203719697535582 / 10 ^ 15.
(* straight up through the orbit of Jupiter at 1/sqrt 2 of its speed *)
Definition up : row6 := mk6 ap_j 0 0 0 0 (sqrt (/ (2 * ap_j))).
Example C209_case : exists kk, cartesian_to_keplerian up 0 1 = Some kk /\ k_a kk = Some (2 * ap_j / 3) /\ k_i kk = Some (degrees (acos 0)) /\ pos up = at_planet ap_j 0 /\ In ("jupiter", ap_j) major_bodies.
Proof.
  assert (AP : 0 < ap_j) by (unfold ap_j; lra). set (k := sqrt (/ (2 * ap_j))). assert (KK : k * k = / (2 * ap_j)) by (apply sqrt_def; left; apply Rinv_0_lt_compat; lra).
  assert (KP : 0 < k) by (apply sqrt_lt_R0, Rinv_0_lt_compat; lra).
  assert (NR : norm (pos up) = ap_j) by (apply KepElem.norm_of; [lra|unfold up, pos; cbn; ring]).
  assert (NV : norm (vel up) = k) by (apply KepElem.norm_of; [lra|unfold up, vel; cbn [dot c_3 c_4 c_5]; fold k; ring]).
  assert (NH : norm (cross (pos up) (vel up)) = ap_j * k) by (apply KepElem.norm_of; [nra|unfold up, pos, vel; cbn [cross dot c_0 c_1 c_2 c_3 c_4 c_5]; fold k; ring]).
  assert (NE : norm (scale (/ 1) (vplus (scale (norm (vel up) ^ 2 - 1 / norm (pos up)) (pos up)) (scale (- dot (pos up) (vel up)) (vel up)))) = 1 / 2).
  { rewrite NR, NV. apply KepElem.norm_of; [lra|]. unfold up, pos, vel. cbn [dot scale vplus c_0 c_1 c_2 c_3 c_4 c_5]. fold k. replace (k ^ 2) with (/ (2 * ap_j)) by (rewrite <- KK; ring). field. lra. }
  unfold cartesian_to_keplerian. rewrite NE, NH, NV, NR. destruct (Req_EM_T ap_j 0); [lra|]. eexists. split; [reflexivity|]. cbn [k_a k_i]. split; [|split; [|split]].
  - assert (PB : parabolic (1 / 2) = false). { unfold parabolic. pose proof tol_small. destruct (Rlt_dec _ _); [|reflexivity]. destruct (Rlt_dec _ _); [lra|reflexivity]. }
    rewrite PB. unfold odiv. replace (-2 * (k ^ 2 / 2 - 1 / ap_j)) with (3 / (2 * ap_j)) by (replace (k ^ 2) with (/ (2 * ap_j)) by (rewrite <- KK; ring); field; lra).
    destruct (Req_EM_T (3 / (2 * ap_j)) 0) as [Z|Z]; [exfalso; assert (0 < 3 / (2 * ap_j)) by (apply Rdiv_lt_0_compat; lra); lra|]. f_equal. field. lra.
  - unfold odiv. destruct (Req_EM_T (ap_j * k) 0) as [Z|Z]; [exfalso; assert (0 < ap_j * k) by (apply Rmult_lt_0_compat; lra); lra|]. cbn [obind].
    replace (vz (cross (pos up) (vel up)) / (ap_j * k)) with 0 by (unfold up, pos, vel; cbn [cross vz snd c_0 c_1 c_2 c_3 c_4 c_5]; field; split; lra).
    unfold oacos. destruct (Rle_dec (-1) 0); [|lra]. destruct (Rle_dec 0 1); [|lra]. reflexivity.
  - unfold at_planet, up, pos. cbn [c_0 c_1 c_2]. rewrite cos_0, sin_0. apply f_equal2; [apply f_equal2|]; ring.
  - unfold major_bodies, ap_j. cbn [In]. auto 10.
Qed.
(* a circular orbit at 1 au: above three, and inside Jupiter *)
Example C210_case : exists T, tisserand 1 0 0 "jupiter" = Ok (Some T) /\ 3 < T /\ 1 * (1 + 0) < ap_j.
Proof.
  assert (B : In ("jupiter", ap_j) major_bodies) by (unfold major_bodies, ap_j; cbn [In]; auto 10). unfold tisserand. rewrite (body_find _ _ B). destruct (Req_EM_T 1 0); [lra|].
  destruct (Rlt_dec _ 0) as [N|N]; [exfalso; unfold ap_j in N; lra|]. eexists. split; [reflexivity|]. unfold radians. rewrite Rmult_0_l, cos_0. pose proof (sqrt_pos (1 / ap_j * (1 - 0 ^ 2))). unfold ap_j in *. split; lra.
Qed.
