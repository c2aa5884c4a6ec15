From Coq Require Import Reals Lra Lia List String Nsatz Field.
From Verif Require Import Base StrOrder SphModel SphSpec SphProofs KepModel KepSpec KepElem LightModel FrameModel FrameProofs OdModel GaussModel GaussSpec.
Import ListNotations.
Open Scope R_scope.

Ltac vdestr := repeat match goal with v : vec |- _ => destruct v as [[? ?] ?] | v : (R * R * R)%type |- _ => destruct v as [[? ?] ?] end.
Lemma cramer : forall u1 u2 u3 w, scale (calc_V u1 u2 u3) w =
  vplus (vminus (scale (dot w (cross u2 u3)) u1) (scale (dot w (cross u1 u3)) u2)) (scale (dot w (cross u1 u2)) u3).
Proof. intros. vdestr. cbn. vring. Qed.
Lemma dot_plus_l : forall u v w, dot (vplus u v) w = dot u w + dot v w.
Proof. intros. vdestr. cbn. ring. Qed.
Lemma dot_plus_r : forall u v w, dot w (vplus u v) = dot w u + dot w v.
Proof. intros. vdestr. cbn. ring. Qed.
Lemma dot_cross_same : forall u v, dot u (cross u v) = 0 /\ dot v (cross u v) = 0.
Proof. intros. vdestr. cbn. split; ring. Qed.
Lemma V_perm : forall u1 u2 u3, calc_V u1 u2 u3 = dot u1 (cross u2 u3) /\ calc_V u1 u2 u3 = - dot u2 (cross u1 u3) /\ calc_V u1 u2 u3 = dot u3 (cross u1 u2).
Proof. intros. unfold calc_V. vdestr. cbn. repeat split; ring. Qed.

Lemma comb_unscale : forall V a b c u1 u2 u3 w, V <> 0 ->
  scale V w = vplus (vminus (scale (V * a) u1) (scale (V * b) u2)) (scale (V * c) u3) -> vplus (vminus (scale a u1) (scale b u2)) (scale c u3) = w.
Proof.
  intros V a b c [[? ?] ?] [[? ?] ?] [[? ?] ?] [[? ?] ?] HV. cbn. intro C. inversion C.
  apply f_equal2; [apply f_equal2|]; apply (Rmult_eq_reg_l V); auto; lra.
Qed.
Lemma comb_along : forall l1 l3 a b c q1 q2 q3 u1 u2 u3,
  vplus (vminus (scale (l1 * a) u1) (scale b u2)) (scale (l3 * c) u3) = vminus (vplus (scale (- l1) q1) q2) (scale l3 q3) <->
  vplus (scale l1 (along q1 u1 a)) (scale l3 (along q3 u3 c)) = along q2 u2 b.
Proof.
  intros l1 l3 a b c [[? ?] ?] [[? ?] ?] [[? ?] ?] [[? ?] ?] [[? ?] ?] [[? ?] ?]. unfold along, vminus. cbn.
  split; intro C; inversion C; apply f_equal2; [apply f_equal2| |apply f_equal2|]; lra.
Qed.

Section Rhos.
  Variables (l1 l3 : R) (q1 q2 q3 u1 u2 u3 : vec).
  Let V := calc_V u1 u2 u3.
  Let num := vminus (vplus (scale (- l1) q1) q2) (scale l3 q3).
  Hypothesis (L1 : l1 <> 0) (L3 : l3 <> 0) (HV : V <> 0).
  Let k1 := dot num (cross u2 u3) / (l1 * V).
  Let k2 := dot num (cross u1 u3) / V.
  Let k3 := dot num (cross u1 u2) / (l3 * V).

  Lemma rhos_value : calc_rhos l1 l3 q1 q2 q3 u1 u2 u3 V = Ok (scale k1 u1, scale k2 u2, scale k3 u3).
  Proof.
    unfold calc_rhos. assert (l1 * V <> 0) by (apply Rmult_integral_contrapositive_currified; assumption).
    assert (l3 * V <> 0) by (apply Rmult_integral_contrapositive_currified; assumption).
    destruct (Req_EM_T (l1 * V) 0); [contradiction|]. destruct (Req_EM_T V 0); [contradiction|]. destruct (Req_EM_T (l3 * V) 0); [contradiction|]. reflexivity.
  Qed.
  Lemma coplanar : vplus (scale l1 (along q1 u1 k1)) (scale l3 (along q3 u3 k3)) = along q2 u2 k2.
  Proof.
    assert (E : vplus (vminus (scale (l1 * k1) u1) (scale k2 u2)) (scale (l3 * k3) u3) = num).
    { pose proof (cramer u1 u2 u3 num) as C. fold V in C.
      assert (E1 : V * (l1 * k1) = dot num (cross u2 u3)) by (unfold k1; field; auto).
      assert (E2 : V * k2 = dot num (cross u1 u3)) by (unfold k2; field; auto).
      assert (E3 : V * (l3 * k3) = dot num (cross u1 u2)) by (unfold k3; field; auto).
      rewrite <- E1, <- E2, <- E3 in C. exact (comb_unscale _ _ _ _ _ _ _ _ HV C). }
    apply comb_along. exact E.
  Qed.
  Lemma coplanar_unique : forall a b c, vplus (scale l1 (along q1 u1 a)) (scale l3 (along q3 u3 c)) = along q2 u2 b -> a = k1 /\ b = k2 /\ c = k3.
  Proof.
    intros a b c H. destruct (V_perm u1 u2 u3) as (P1 & P2 & P3). fold V in P1, P2, P3.
    assert (E : vplus (vminus (scale (l1 * a) u1) (scale b u2)) (scale (l3 * c) u3) = num).
    { apply comb_along. exact H. }
    assert (F : forall w, dot num w = l1 * a * dot u1 w - b * dot u2 w + l3 * c * dot u3 w).
    { intro w. rewrite <- E. unfold vminus. rewrite !dot_plus_l, !dot_scale_l. ring. }
    destruct (dot_cross_same u2 u3) as [A1 A2]. destruct (dot_cross_same u1 u3) as [B1 B2]. destruct (dot_cross_same u1 u2) as [C1 C2].
    unfold k1, k2, k3. rewrite !F, A1, A2, B1, B2, C1, C2. repeat split.
    - rewrite <- P1. field. auto.
    - replace (dot u2 (cross u1 u3)) with (- V) by lra. field. auto.
    - rewrite <- P3. field. auto.
  Qed.
End Rhos.

Section Middle.
  Variables (q1 q2 q3 u1 u2 u3 : vec) (t1 t2 t3 mu r : R).
  Let t31 := t3 - t1. Let t21 := t2 - t1. Let t32 := t3 - t2.
  Let V := calc_V u1 u2 u3.
  Let A := calc_A q1 q2 q3 u1 u3 t31 t32 t21.
  Let B := calc_B q1 q3 u1 u3 t31 t32 t21 mu.
  Let q := norm q2.
  Let C0 := gauss_C0 q1 q2 q3 u1 u2 u3 t1 t2 t3 mu.
  Let h0 := gauss_h0 q1 q2 q3 u1 u2 u3 t1 t2 t3 mu.
  Let l1 := t32 / t31 * (1 + mu / (6 * r ^ 3) * (t31 ^ 2 - t32 ^ 2)).
  Let l3 := t21 / t31 * (1 + mu / (6 * r ^ 3) * (t31 ^ 2 - t21 ^ 2)).
  Let num := vminus (vplus (scale (- l1) q1) q2) (scale l3 q3).
  Hypothesis (HT : t31 <> 0) (HV : V <> 0) (HB : B <> 0) (HQ : q <> 0) (HR : r <> 0) (HU : unit_vec u2).

  (* equation 22 of Milani et al. 2008, gauss.py:276-277 *)
  Lemma middle_range : dot num (cross u1 u3) / V = (h0 - q ^ 3 / r ^ 3) * q / C0.
  Proof.
    set (X := cross u1 u3). set (a := dot q1 X). set (b := dot q2 X). set (c := dot q3 X).
    assert (EA : A = q ^ 3 * (t32 * a - t31 * b + t21 * c)).
    { unfold A, calc_A. fold q X. unfold vminus. rewrite !dot_plus_r, !dot_scale_r, (dot_sym X), (dot_sym X q2), (dot_sym X q3). fold a b c. ring. }
    assert (EB : B = mu / 6 * t32 * t21 * ((t31 + t32) * a + (t31 + t21) * c)).
    { unfold B, calc_B. fold X. rewrite !dot_plus_r, !dot_scale_r, (dot_sym X), (dot_sym X q3). fold a c. ring. }
    assert (EN : dot num X = - l1 * a + b - l3 * c).
    { unfold num, vminus. rewrite !dot_plus_l, !dot_scale_l. fold a b c. ring. }
    assert (C : C0 = V * t31 * q ^ 4 / B) by reflexivity.
    assert (H : h0 = - A / B) by reflexivity.
    assert (T : t32 = t31 - t21) by (unfold t31, t32, t21; ring).
    rewrite EN, C, H.
    assert (N : - l1 * a + b - l3 * c = - (A / q ^ 3 + B / r ^ 3) / t31).
    { rewrite EA, EB. unfold l1, l3. rewrite T. field. auto. }
    rewrite N. field. auto.
  Qed.
  Lemma root_distance : 0 < r -> peval (gauss_poly q1 q2 q3 u1 u2 u3 t1 t2 t3 mu) r = 0 ->
    norm (along q2 u2 (dot num (cross u1 u3) / V)) = r.
  Proof.
    intros RP P. apply norm_of; [lra|]. rewrite middle_range. set (k := (h0 - q ^ 3 / r ^ 3) * q / C0).
    assert (QQ : dot q2 q2 = q ^ 2) by (unfold q; rewrite norm_sq; reflexivity).
    assert (C0n : C0 <> 0).
    { unfold C0, gauss_C0. fold V t31 t32 t21 B q. unfold Rdiv. repeat apply Rmult_integral_contrapositive_currified; auto using pow_nonzero, Rinv_neq_0_compat. }
    assert (D : dot (along q2 u2 k) (along q2 u2 k) = q ^ 2 + 2 * k * dot q2 u2 + k ^ 2).
    { unfold along. rewrite !dot_plus_l, !dot_plus_r, !dot_scale_l, !dot_scale_r, HU, QQ, (dot_sym u2 q2). ring. }
    rewrite D. unfold gauss_poly, peval in P. fold C0 h0 q in P. cbn [fold_left] in P.
    set (c := dot q2 u2) in *. 
    assert (P' : C0 ^ 2 * r ^ 8 - q ^ 2 * (h0 ^ 2 + 2 * C0 * h0 * (c / q) + C0 ^ 2) * r ^ 6 + 2 * q ^ 5 * (h0 + C0 * (c / q)) * r ^ 3 - q ^ 8 = 0).
    { rewrite <- P. ring. }
    apply (Rmult_eq_reg_l (C0 ^ 2 * r ^ 6)); [|apply Rmult_integral_contrapositive_currified; apply pow_nonzero; assumption].
    assert (K : C0 ^ 2 * r ^ 6 * (q ^ 2 + 2 * k * c + k ^ 2) = C0 ^ 2 * r ^ 6 * r ^ 2 - (C0 ^ 2 * r ^ 8 - q ^ 2 * (h0 ^ 2 + 2 * C0 * h0 * (c / q) + C0 ^ 2) * r ^ 6 + 2 * q ^ 5 * (h0 + C0 * (c / q)) * r ^ 3 - q ^ 8)).
    { unfold k. clear - C0n HQ HR. clearbody C0 h0 q c. field. auto. }
    rewrite K, P'. ring.
  Qed.
End Middle.

(* ---- the lines of sight ---- *)
Lemma sight_unit : forall s, unit_vec (sight s).
Proof.
  intros [lon lat]. unfold unit_vec, sight. set (s := spherical_to_cartesian _). cbn zeta.
  set (u := (c_0 s, _, _)).
  assert (U : dot u u = 1).
  { unfold u, s, spherical_to_cartesian. cbn -[cos sin obliquity radians]. pose proof trig_one as T.
    pose proof (sc1 (radians lon)) as A. pose proof (sc1 (radians lat)) as B.
    set (x := cos (radians lat)) in *. set (y := sin (radians lat)) in *. set (z := cos (radians lon)) in *. set (w := sin (radians lon)) in *.
    set (c := cos obliquity) in *. set (d := sin obliquity) in *. clearbody x y z w c d. clear - T A B. nsatz. }
  rewrite dot_scale_l, dot_scale_r. rewrite U. unfold norm. rewrite U, sqrt_1. field.
Qed.
Lemma sight_onto : forall u, unit_vec u -> exists s, sight s = u.
Proof.
  intros [[x y] z] U. unfold unit_vec in U. cbn in U. pose proof trig_one as T.
  set (c := cos obliquity) in *. set (d := sin obliquity) in *.
  (* the equatorial vector *)
  set (w := (x, c * y - d * z, d * y + c * z)).
  destruct (spherical_back_position (row_of w (0, 0, 0))) as (E0 & E1 & E2).
  cbn [row_of c_0 c_1 c_2 vx vy vz fst snd w] in E0, E1, E2.
  set (b := cartesian_to_spherical (row_of w (0, 0, 0))) in *.
  assert (R1 : c_0 b = 1).
  { unfold b, cartesian_to_spherical, row_of, w. cbn [c_0 c_1 c_2 vx vy vz fst snd]. replace (x ^ 2 + (c * y - d * z) ^ 2 + (d * y + c * z) ^ 2) with 1.
    - apply sqrt_1.
    - transitivity (x * x + (c * c + d * d) * (y * y + z * z)); [rewrite T; lra|ring]. }
  exists (c_1 b, c_2 b). unfold sight. cbn [fst snd].
  assert (P : forall a, c_0 (spherical_to_cartesian (mk6 1 (c_1 b) (c_2 b) 0 0 0)) = c_0 (spherical_to_cartesian b) /\
     c_1 (spherical_to_cartesian (mk6 1 (c_1 b) (c_2 b) 0 0 0)) = c_1 (spherical_to_cartesian b) /\
     c_2 (spherical_to_cartesian (mk6 1 (c_1 b) (c_2 b) 0 0 0)) = c_2 (spherical_to_cartesian b) + 0 * a).
  { intro a. unfold spherical_to_cartesian. cbn [c_0 c_1 c_2]. rewrite R1. repeat split; ring. }
  destruct (P 0) as (P0 & P1 & P2). rewrite P0, P1, P2, E0, E1, E2. fold c d.
  assert (Q : (x, c * (c * y - d * z) + d * (d * y + c * z + 0 * 0), - d * (c * y - d * z) + c * (d * y + c * z + 0 * 0)) = (x, y, z)).
  { apply f_equal2; [apply f_equal2|]; [reflexivity| |]; clear - T; clearbody c d; nsatz. }
  rewrite Q. unfold norm. cbn [dot]. rewrite U, sqrt_1. cbn. apply f_equal2; [apply f_equal2|]; field.
Qed.

(* ---- the rows ---- *)
Lemma each_in : forall {A B} (f : A -> result (option B)) l ys y, each f l = Ok ys -> In y ys -> exists x, In x l /\ f x = Ok (Some y).
Proof.
  intros A B f. induction l as [|x xs IH]; intros ys y H I; cbn in H.
  - injection H as <-. contradiction.
  - destruct (f x) as [o|e] eqn:F; [|discriminate]. cbn in H. destruct (each f xs) as [zs|e]; [|discriminate]. cbn in H. injection H as <-.
    destruct o as [b|].
    + destruct I as [<-|I]; [exists x; split; [left; reflexivity|exact F]|]. destruct (IH _ _ eq_refl I) as (a & J & K). exists a. split; [right|]; assumption.
    + destruct (IH _ _ eq_refl I) as (a & J & K). exists a. split; [right|]; assumption.
Qed.
Lemma each_all : forall {A B} (f g : A -> result (option B)) l, (forall x, In x l -> f x = g x) -> each f l = each g l.
Proof. intros A B f g. induction l as [|x xs IH]; intro H; [reflexivity|]. cbn. rewrite H by (left; reflexivity). rewrite IH by (intros; apply H; right; assumption). reflexivity. Qed.

Lemma lambdas_ok : forall r t31 t32 t21 mu l, calc_lambdas r t31 t32 t21 mu = Ok l ->
  t31 <> 0 /\ r <> 0 /\ fst l = t32 / t31 * (1 + mu / (6 * r ^ 3) * (t31 ^ 2 - t32 ^ 2)) /\ snd l = t21 / t31 * (1 + mu / (6 * r ^ 3) * (t31 ^ 2 - t21 ^ 2)).
Proof.
  intros r t31 t32 t21 mu l. unfold calc_lambdas. destruct (Req_EM_T t31 0) as [|T]; [discriminate|]. destruct (Req_EM_T (6 * r ^ 3) 0) as [|K]; [discriminate|].
  intro H. injection H as <-. repeat split; auto. intros ->. apply K. ring.
Qed.
Lemma rhos_ok : forall l1 l3 q1 q2 q3 u1 u2 u3 V p, calc_rhos l1 l3 q1 q2 q3 u1 u2 u3 V = Ok p -> l1 <> 0 /\ l3 <> 0 /\ V <> 0.
Proof.
  intros until p. unfold calc_rhos. destruct (Req_EM_T (l1 * V) 0) as [|K1]; [discriminate|]. destruct (Req_EM_T V 0) as [|K]; [discriminate|].
  destruct (Req_EM_T (l3 * V) 0) as [|K3]; [discriminate|]. intros _. repeat split; auto; intros ->; [apply K1|apply K3]; ring.
Qed.

(* what a successful root says *)
Lemma root_row : forall m lt mu q1 q2 q3 u1 u2 u3 t1 t2 t3 r o, unit_vec u2 ->
  gauss_root m lt mu q1 q2 q3 u1 u2 u3 t1 t2 t3 r = Ok (Some o) ->
  exists l1 l3 k1 k2 k3,
    t3 - t1 <> 0 /\ r <> 0 /\ calc_V u1 u2 u3 <> 0 /\ l1 <> 0 /\ l3 <> 0 /\
    l1 = (t3 - t2) / (t3 - t1) * (1 + mu / (6 * r ^ 3) * ((t3 - t1) ^ 2 - (t3 - t2) ^ 2)) /\
    l3 = (t2 - t1) / (t3 - t1) * (1 + mu / (6 * r ^ 3) * ((t3 - t1) ^ 2 - (t2 - t1) ^ 2)) /\
    k2 = dot (vminus (vplus (scale (- l1) q1) q2) (scale l3 q3)) (cross u1 u3) / calc_V u1 u2 u3 /\
    vplus (scale l1 (along q1 u1 k1)) (scale l3 (along q3 u3 k3)) = along q2 u2 k2 /\
    0 <= k2 /\ o_r o = along q2 u2 k2 /\ o_epoch o = (if lt then t2 - k2 / light else t2) /\
    velocity m (along q1 u1 k1) (along q2 u2 k2) (along q3 u3 k3) t1 t2 t3 = Ok (Some (o_v o)) /\
    norm (o_r o) <= 300 /\ norm (o_v o) <= 1.
Proof.
  intros m lt mu q1 q2 q3 u1 u2 u3 t1 t2 t3 r o U. unfold gauss_root.
  destruct (calc_lambdas _ _ _ _ _) as [l|] eqn:L; [|discriminate]. cbn [bind]. apply lambdas_ok in L as (T & RN & L1 & L3).
  destruct (calc_rhos _ _ _ _ _ _ _ _ _) as [p|] eqn:P; [|discriminate]. cbn [bind].
  destruct (rhos_ok _ _ _ _ _ _ _ _ _ _ P) as (N1 & N3 & NV). rewrite rhos_value in P by assumption. injection P as <-. cbn [fst snd].
  set (k1 := dot _ (cross u2 u3) / _). set (k2 := dot _ (cross u1 u3) / _). set (k3 := dot _ (cross u1 u2) / _).
  rewrite dot_scale_l, U, Rmult_1_r. destruct (Rlt_dec k2 0) as [|K]; [discriminate|].
  change (vplus q1 (scale k1 u1)) with (along q1 u1 k1). change (vplus q2 (scale k2 u2)) with (along q2 u2 k2). change (vplus q3 (scale k3 u3)) with (along q3 u3 k3).
  destruct (velocity _ _ _ _ _ _ _) as [[v|]|] eqn:W; cbn [bind]; try discriminate.
  destruct (Rle_dec light (norm v)); [discriminate|]. destruct (Rlt_dec 300 (norm (along q2 u2 k2))) as [|A]; [discriminate|]. destruct (Rlt_dec 1 (norm v)) as [|B]; [discriminate|].
  intro H. injection H as <-. cbn [o_epoch o_r o_v].
  assert (NK : norm (vminus (along q2 u2 k2) q2) = k2).
  { apply norm_of; [lra|]. replace (vminus (along q2 u2 k2) q2) with (scale k2 u2).
    - rewrite dot_scale_l, dot_scale_r, U. ring.
    - unfold along, vminus. clearbody k2. clear. destruct q2 as [[? ?] ?], u2 as [[? ?] ?]. cbn. vring. }
  exists (fst l), (snd l), k1, k2, k3. rewrite NK. repeat (split; [first [assumption|reflexivity|lra]|]).
  split. { exact (coplanar (fst l) (snd l) q1 q2 q3 u1 u2 u3 N1 N3 NV). }
  repeat split; auto; lra.
Qed.
