(* Theorems about preliminary orbit determination. *)
From Coq Require Import Reals Lra Lia List String Field Sorted.
From Coquelicot Require Import Coquelicot.
From Verif Require Import Base StrOrder SphModel SphSpec SphProofs KepModel KepSpec KepElem LightModel FrameModel FrameProofs OdModel GaussModel GaussSpec GaussProofs GaussVel GaussToy GaussRun.
Import ListNotations.
Open Scope R_scope.

(* C70: the slant ranges solve the coplanarity equation, and are its only solution *)
Theorem C70_coplanar : forall l1 l3 q1 q2 q3 u1 u2 u3, l1 <> 0 -> l3 <> 0 -> dot (cross u1 u2) u3 <> 0 ->
  exists k1 k2 k3,
    calc_rhos l1 l3 q1 q2 q3 u1 u2 u3 (calc_V u1 u2 u3) = Ok (scale k1 u1, scale k2 u2, scale k3 u3) /\
    vplus (scale l1 (along q1 u1 k1)) (scale l3 (along q3 u3 k3)) = along q2 u2 k2 /\
    (forall a b c, vplus (scale l1 (along q1 u1 a)) (scale l3 (along q3 u3 c)) = along q2 u2 b -> a = k1 /\ b = k2 /\ c = k3).
Proof.
  intros l1 l3 q1 q2 q3 u1 u2 u3 L1 L3 V. do 3 eexists. split; [apply rhos_value; assumption|]. split; [apply coplanar; assumption|].
  intros a b c H. apply coplanar_unique; assumption.
Qed.
Print Assumptions C70_coplanar.
Example C70_case : dot (cross (toy_u1 1) toy_u2) toy_u3 = 1 /\ 5 / 8 <> 0. Proof. unfold toy_u1, toy_u2, toy_u3. cbn. lra. Qed.

(* C149: what each returned orbit satisfies *)
Theorem C149_rows : forall roots m lt mu s1 s2 s3 t1 t2 t3 q1 q2 q3 rows o, finds_roots roots ->
  gauss_iod roots m lt mu s1 s2 s3 t1 t2 t3 q1 q2 q3 = Ok rows -> In o rows ->
  let ratio t := t / (t3 - t1) * (1 + mu / (6 * norm (o_r o) ^ 3) * ((t3 - t1) ^ 2 - t ^ 2)) in
  exists k1 k2 k3, 0 <= k2 /\
    o_r o = along q2 (sight s2) k2 /\
    o_epoch o = (if lt then t2 - k2 / light else t2) /\
    o_r o = vplus (scale (ratio (t3 - t2)) (along q1 (sight s1) k1)) (scale (ratio (t2 - t1)) (along q3 (sight s3) k3)) /\
    velocity m (along q1 (sight s1) k1) (o_r o) (along q3 (sight s3) k3) t1 t2 t3 = Ok (Some (o_v o)) /\
    norm (o_r o) <= 300 /\ norm (o_v o) <= 1.
Proof.
  intros roots m lt mu s1 s2 s3 t1 t2 t3 q1 q2 q3 rows o F H I ratio. unfold gauss_iod in H.
  destruct (Req_EM_T _ 0) as [|HB]; [discriminate|]. destruct (Req_EM_T (norm q2) 0) as [|HQ]; [discriminate|].
  destruct (each_in _ _ _ _ H I) as (r & J & G). destruct (F _ _ J) as [R0 P].
  apply root_row in G; [|apply sight_unit]. destruct G as (l1 & l3 & k1 & k2 & k3 & T & RN & V & N1 & N3 & L1 & L3 & K2 & C & KP & OR & OE & W & B1 & B2).
  assert (RD : norm (o_r o) = r).
  { rewrite OR, K2, L1, L3. apply root_distance; auto using sight_unit. lra. }
  exists k1, k2, k3. unfold ratio. rewrite RD, <- L1, <- L3. rewrite OR in *. repeat (split; [assumption || reflexivity|]). split; [symmetry; exact C|]. rewrite <- RD. auto.
Qed.
Print Assumptions C149_rows.
Example C149_case : exists s1 s2 s3, finds_roots one_root /\
  gauss_iod one_root Gibbs true (1 / 2) s1 s2 s3 (-1) 0 1 toy_q1 toy_q2 toy_q3 = Ok [mkorb (0 - 1 / 2 / light) (1, 0, 0) (0, sqrt MU, 0)].
Proof.
  destruct (toy_sights 1 (or_introl eq_refl)) as (s1 & s2 & s3 & E1 & E2 & E3). exists s1, s2, s3. split; [apply one_root_finds|].
  apply (toy_run 1 (or_introl eq_refl) true); assumption.
Qed.

(* C150: Gibbs recovers the velocity of every conic *)
Theorem C150_gibbs_exact : forall p e i raan ap n1 n2 n3, 0 < p ->
  n1 < n2 -> n2 < n3 -> n3 < n1 + 2 * PI -> 0 < 1 + e * cos n1 -> 0 < 1 + e * cos n2 -> 0 < 1 + e * cos n3 ->
  calc_gibbs (pos (conic_state p e i raan ap n1 MU)) (pos (conic_state p e i raan ap n2 MU)) (pos (conic_state p e i raan ap n3 MU)) =
  Some (vel (conic_state p e i raan ap n2 MU)).
Proof. exact gibbs_exact. Qed.
Print Assumptions C150_gibbs_exact.
Example C150_case : 0 < 2 /\ - 1 < 0 /\ 0 < 1 /\ 1 < - 1 + 2 * PI /\ 0 < 1 + 1 / 2 * cos (-1) /\ 0 < 1 + 1 / 2 * cos 0 /\ 0 < 1 + 1 / 2 * cos 1.
Proof. pose proof PI2_1. pose proof PI_RGT_0. pose proof (COS_bound (-1)). pose proof (COS_bound 1). pose proof (COS_bound 0). unfold PI2 in *. repeat split; lra. Qed.

(* C151: Gauss's f and g series on a circular orbit of radius r and mean motion n *)
Theorem C151_series_refuted : exists r n, 0 < r /\ 0 < n /\
  forall K d, 0 < K -> 0 < d -> exists dt, 0 < dt < d /\ K * dt ^ 3 < Rabs (lagrange_g r dt (n ^ 2 * r ^ 3) - sin (n * dt) / n).
Proof. exists 1, 1. split; [lra|]. split; [lra|]. intros. apply g_not_third; lra. Qed.
Theorem C151_series_partial : forall r n dt, 0 < r -> 0 < n ->
  Rabs (lagrange_f r dt (n ^ 2 * r ^ 3) - cos (n * dt)) <= (n * dt) ^ 4 / 24 /\
  Rabs (lagrange_g r dt (n ^ 2 * r ^ 3) - sin (n * dt) / n) <= n ^ 2 * dt ^ 2 * (1 + Rabs dt) / 6.
Proof. intros. split; [apply f_series|apply g_series]; assumption. Qed.
Print Assumptions C151_series_refuted.
Print Assumptions C151_series_partial.

(* C152: reversing the motion reverses the velocity *)
Theorem C152_reversal_refuted : exists r1 r2 r3 t1 t2 t3 v w, t1 < t2 < t3 /\
  calc_gauss r1 r2 r3 t1 t2 t3 = Ok v /\ calc_gauss r3 r2 r1 (- t3) (- t2) (- t1) = Ok w /\ w <> scale (-1) v.
Proof.
  exists (1, 0, 0), (0, 1, 0), (0, 1, 1), (-1), 0, 2. unfold calc_gauss.
  assert (N : norm (0, 1, 0) = 1) by (apply norm_of; [lra|cbn; ring]). rewrite N. destruct (Req_EM_T (1 ^ 3) 0); [lra|].
  assert (F1 : lagrange_f 1 (-1 - 0) MU = 1 - MU / 2) by (unfold lagrange_f; field).
  assert (G1 : lagrange_g 1 (-1 - 0) MU = - 1 - MU / 6) by (unfold lagrange_g; field).
  assert (F3 : lagrange_f 1 (2 - 0) MU = 1 - 2 * MU) by (unfold lagrange_f; field).
  assert (G3 : lagrange_g 1 (2 - 0) MU = 2 - 4 * MU / 6) by (unfold lagrange_g; field).
  assert (f1 : lagrange_f 1 (-2 - - 0) MU = 1 - 2 * MU) by (unfold lagrange_f; field).
  assert (g1 : lagrange_g 1 (-2 - - 0) MU = - 2 - 4 * MU / 6) by (unfold lagrange_g; field).
  assert (f3 : lagrange_f 1 (- -1 - - 0) MU = 1 - MU / 2) by (unfold lagrange_f; field).
  assert (g3 : lagrange_g 1 (- -1 - - 0) MU = 1 - MU / 6) by (unfold lagrange_g; field).
  change (IZR (-2)) with (-2) in f1, g1. replace (-(2)) with (-2) by lra.
  rewrite F1, G1, F3, G3, f1, g1, f3, g3. pose proof MU_pos as M. assert (S : MU < 1 / 100) by (unfold MU; lra).
  set (D := (1 - MU / 2) * (2 - 4 * MU / 6) - (1 - 2 * MU) * (- 1 - MU / 6)). set (E := (1 - 2 * MU) * (1 - MU / 6) - (1 - MU / 2) * (- 2 - 4 * MU / 6)).
  assert (HD : D > 0) by (unfold D; nra). assert (HE : E > 0) by (unfold E; nra). assert (HN : D < E) by (unfold D, E; nra).
  destruct (Req_EM_T D 0); [lra|]. destruct (Req_EM_T E 0); [lra|]. do 2 eexists. split; [lra|]. split; [reflexivity|]. split; [reflexivity|].
  intro H. assert (Z : vz (vplus (scale (1 / E) (vplus (scale (- (1 - MU / 2)) (0, 1, 1)) (scale (1 - 2 * MU) (1, 0, 0)))) (0, 0, 0)) = vz (vplus (scale (-1) (scale (1 / D) (vplus (scale (- (1 - 2 * MU)) (1, 0, 0)) (scale (1 - MU / 2) (0, 1, 1))))) (0, 0, 0))) by (rewrite <- H; reflexivity).
  cbn in Z. assert (Y : 1 / E = 1 / D) by (apply (Rmult_eq_reg_r (1 - MU / 2)); [|lra]; lra).
  assert (D = E); [|lra]. apply (f_equal (fun x => / x)) in Y. unfold Rdiv in Y. rewrite !Rmult_1_l, !Rinv_involutive in Y by lra. lra.
Qed.
Theorem C152_reversal_partial :
  (forall r1 r2 r3, calc_gibbs r3 r2 r1 = option_map (scale (-1)) (calc_gibbs r1 r2 r3)) /\
  (forall r1 r2 r3 t1 t2 t3, calc_herrick_gibbs r3 r2 r1 (- t3) (- t2) (- t1) = option_map (scale (-1)) (calc_herrick_gibbs r1 r2 r3 t1 t2 t3)) /\
  (forall r1 r2 r3 t1 t2 t3 v, t2 - t1 = t3 - t2 -> calc_gauss r1 r2 r3 t1 t2 t3 = Ok v -> calc_gauss r3 r2 r1 (- t3) (- t2) (- t1) = Ok (scale (-1) v)).
Proof.
  split; [exact gibbs_reversed|]. split.
  - intros r1 r2 r3 t1 t2 t3. unfold calc_herrick_gibbs.
    replace (- t1 - - t3) with (t3 - t1) by ring. replace (- t1 - - t2) with (t2 - t1) by ring. replace (- t2 - - t3) with (t3 - t2) by ring.
    rewrite (Rmult_comm (t3 - t2) (t2 - t1)).
    destruct (Req_EM_T ((t3 - t2) * (t3 - t1)) 0).
    { destruct (Req_EM_T ((t2 - t1) * (t3 - t1)) 0), (Req_EM_T ((t2 - t1) * (t3 - t2)) 0); reflexivity. }
    destruct (Req_EM_T ((t2 - t1) * (t3 - t2)) 0). { destruct (Req_EM_T ((t2 - t1) * (t3 - t1)) 0); reflexivity. }
    destruct (Req_EM_T ((t2 - t1) * (t3 - t1)) 0); [reflexivity|].
    destruct (Req_EM_T (norm r3) 0). { destruct (Req_EM_T (norm r1) 0), (Req_EM_T (norm r2) 0); reflexivity. }
    destruct (Req_EM_T (norm r2) 0). { destruct (Req_EM_T (norm r1) 0); reflexivity. }
    destruct (Req_EM_T (norm r1) 0); [reflexivity|]. cbn [option_map]. f_equal.
    set (a := 1 / _ + MU / (12 * norm r1 ^ 3)). set (b := 1 / _ + MU / (12 * norm r2 ^ 3)). set (c := 1 / _ + MU / (12 * norm r3 ^ 3)). clearbody a b c.
    destruct r1 as [[? ?] ?], r2 as [[? ?] ?], r3 as [[? ?] ?]. cbn. vring.
  - intros r1 r2 r3 t1 t2 t3 v E. unfold calc_gauss. destruct (Req_EM_T (norm r2 ^ 3) 0); [discriminate|].
    replace (- t3 - - t2) with (t1 - t2) by lra. replace (- t1 - - t2) with (t3 - t2) by lra.
    replace (t1 - t2) with (- (t3 - t2)) by lra. set (h := t3 - t2). set (r := norm r2) in *.
    replace (lagrange_f r (- h) MU) with (lagrange_f r h MU) by (unfold lagrange_f; ring).
    destruct (Req_EM_T _ 0); [discriminate|]. intro H. injection H as <-. f_equal. set (f := lagrange_f r h MU). set (z := 1 / _). clearbody f z.
    destruct r1 as [[? ?] ?], r3 as [[? ?] ?]. cbn. vring.
Qed.
Print Assumptions C152_reversal_refuted.
Print Assumptions C152_reversal_partial.

(* C153: the same observations in another unit of time *)
Theorem C153_mu_refuted : exists k mu s1 s2 s3 t1 t2 t3 q1 q2 q3 o o', 0 < k /\ 0 < mu /\ t1 < t2 < t3 /\
  gauss_iod one_root Gibbs false mu s1 s2 s3 t1 t2 t3 q1 q2 q3 = Ok [o] /\
  gauss_iod one_root Gibbs false (mu / k ^ 2) s1 s2 s3 (k * t1) (k * t2) (k * t3) q1 q2 q3 = Ok [o'] /\
  o_v o' <> scale (/ k) (o_v o).
Proof.
  destruct (toy_sights 1 (or_introl eq_refl)) as (s1 & s2 & s3 & E1 & E2 & E3).
  pose proof (toy_run 1 (or_introl eq_refl) false s1 s2 s3 E1 E2 E3) as T.
  exists 2, (1 / 2), s1, s2, s3, (-1), 0, 1, toy_q1, toy_q2, toy_q3. do 2 eexists. repeat (split; [lra|]). split; [exact T|]. split.
  - rewrite run_scaled by lra. rewrite T. cbn [map_ok map]. reflexivity.
  - cbn [at_epoch o_v]. pose proof sqrt_MU as SM. intro H. assert (Z : vy (0, sqrt MU, 0) = vy (scale (/ 2) (0, sqrt MU, 0))) by (rewrite <- H; reflexivity). cbn in Z. lra.
Qed.
(* the positions are right, whatever the unit *)
Theorem C153_mu_partial : forall roots k mu s1 s2 s3 t1 t2 t3 q1 q2 q3 rows, 0 < k ->
  gauss_iod roots Gibbs false mu s1 s2 s3 t1 t2 t3 q1 q2 q3 = Ok rows ->
  exists rows', gauss_iod roots Gibbs false (mu / k ^ 2) s1 s2 s3 (k * t1) (k * t2) (k * t3) q1 q2 q3 = Ok rows' /\
    map o_r rows' = map o_r rows /\ map o_epoch rows' = map (fun o => k * o_epoch o) rows.
Proof.
  intros roots k mu s1 s2 s3 t1 t2 t3 q1 q2 q3 rows K H. eexists. rewrite run_scaled by exact K. rewrite H. split; [reflexivity|]. rewrite !map_map. split; reflexivity.
Qed.
Print Assumptions C153_mu_refuted.
Print Assumptions C153_mu_partial.

(* C154: the error of the Herrick-Gibbs velocity; X, Y, Z k is the k-th derivative of a coordinate *)
Definition chain5 (X : nat -> R -> R) (t1 t3 K : R) : Prop :=
  (forall k t, (k < 5)%nat -> t1 <= t <= t3 -> is_derive (X k) t (X (S k) t)) /\ (forall t, t1 <= t <= t3 -> Rabs (X 5%nat t) <= K).
Theorem C154_herrick_gibbs : forall X Y Z t1 t2 t3 K, t1 < t2 -> t2 < t3 ->
  chain5 X t1 t3 K -> chain5 Y t1 t3 K -> chain5 Z t1 t3 K ->
  let at_ k t := (X k t, Y k t, Z k t) in
  (forall t, t = t1 \/ t = t2 \/ t = t3 -> norm (at_ 0%nat t) <> 0 /\ at_ 2%nat t = scale (- MU / norm (at_ 0%nat t) ^ 3) (at_ 0%nat t)) ->
  exists v, calc_herrick_gibbs (at_ 0%nat t1) (at_ 0%nat t2) (at_ 0%nat t3) t1 t2 t3 = Some v /\
    let bound := K * ((t2 - t1) * (t3 - t2) * ((t2 - t1) ^ 2 + (t3 - t2) ^ 2)) / 45 in
    Rabs (vx v - X 1%nat t2) <= bound /\ Rabs (vy v - Y 1%nat t2) <= bound /\ Rabs (vz v - Z 1%nat t2) <= bound.
Proof.
  intros X Y Z t1 t2 t3 K A B [X1 X2] [Y1 Y2] [Z1 Z2] at_ H.
  destruct (H t1 (or_introl eq_refl)) as [N1 A1]. destruct (H t2 (or_intror (or_introl eq_refl))) as [N2 A2]. destruct (H t3 (or_intror (or_intror eq_refl))) as [N3 A3].
  unfold calc_herrick_gibbs.
  assert (P1 : (t2 - t1) * (t3 - t1) <> 0) by (apply Rmult_integral_contrapositive_currified; lra).
  assert (P2 : (t2 - t1) * (t3 - t2) <> 0) by (apply Rmult_integral_contrapositive_currified; lra).
  assert (P3 : (t3 - t2) * (t3 - t1) <> 0) by (apply Rmult_integral_contrapositive_currified; lra).
  destruct (Req_EM_T _ 0); [contradiction|]. destruct (Req_EM_T ((t2 - t1) * (t3 - t2)) 0); [contradiction|]. destruct (Req_EM_T ((t3 - t2) * (t3 - t1)) 0); [contradiction|].
  destruct (Req_EM_T (norm (at_ 0%nat t1)) 0); [contradiction|]. destruct (Req_EM_T (norm (at_ 0%nat t2)) 0); [contradiction|]. destruct (Req_EM_T (norm (at_ 0%nat t3)) 0); [contradiction|].
  eexists. split; [reflexivity|].
  unfold at_ in A1, A2, A3. cbn [scale] in A1, A2, A3.
  set (m1 := norm (at_ 0%nat t1)) in *. set (m2 := norm (at_ 0%nat t2)) in *. set (m3 := norm (at_ 0%nat t3)) in *.
  change (norm (X 0%nat t1, Y 0%nat t1, Z 0%nat t1)) with m1 in A1. change (norm (X 0%nat t2, Y 0%nat t2, Z 0%nat t2)) with m2 in A2. change (norm (X 0%nat t3, Y 0%nat t3, Z 0%nat t3)) with m3 in A3.
  clearbody m1 m2 m3. injection A1 as AX1 AY1 AZ1. injection A2 as AX2 AY2 AZ2. injection A3 as AX3 AY3 AZ3.
  assert (G : forall F : nat -> R -> R, (forall k t, (k < 5)%nat -> t1 <= t <= t3 -> is_derive (F k) t (F (S k) t)) -> (forall t, t1 <= t <= t3 -> Rabs (F 5%nat t) <= K) ->
     F 2%nat t1 = - MU / m1 ^ 3 * F 0%nat t1 -> F 2%nat t2 = - MU / m2 ^ 3 * F 0%nat t2 -> F 2%nat t3 = - MU / m3 ^ 3 * F 0%nat t3 ->
     Rabs (- (t3 - t2) * (1 / ((t2 - t1) * (t3 - t1)) + MU / (12 * m1 ^ 3)) * F 0%nat t1 + (t3 - t2 - (t2 - t1)) * (1 / ((t2 - t1) * (t3 - t2)) + MU / (12 * m2 ^ 3)) * F 0%nat t2 + (t2 - t1) * (1 / ((t3 - t2) * (t3 - t1)) + MU / (12 * m3 ^ 3)) * F 0%nat t3 - F 1%nat t2)
     <= K * ((t2 - t1) * (t3 - t2) * ((t2 - t1) ^ 2 + (t3 - t2) ^ 2)) / 45).
  { intros F F1 F2 E1 E2 E3. pose proof (herrick_component F t1 t2 t3 K A B F1 F2) as L. cbv zeta in L.
    rewrite E1, E2, E3 in L. eapply Rle_trans; [|exact L]. right. f_equal. field. repeat split; lra. }
  cbv zeta. split; [|split]; [pose proof (G X X1 X2 AX1 AX2 AX3) as L|pose proof (G Y Y1 Y2 AY1 AY2 AY3) as L|pose proof (G Z Z1 Z2 AZ1 AZ2 AZ3) as L]; exact L.
Qed.
Print Assumptions C154_herrick_gibbs.
(* a circular motion of radius 1 *)
Example C154_case : let n := sqrt MU in exists X Y Z, chain5 X (-1) 2 1 /\ chain5 Y (-1) 2 1 /\ chain5 Z (-1) 2 1 /\
  forall t, norm (X 0%nat t, Y 0%nat t, Z 0%nat t) = 1 /\ (X 2%nat t, Y 2%nat t, Z 2%nat t) = scale (- MU / 1 ^ 3) (X 0%nat t, Y 0%nat t, Z 0%nat t).
Proof.
  intro n. pose proof MU_pos as M. pose proof sqrt_MU as S. fold n in S. assert (NN : n * n = MU) by (unfold n; apply sqrt_sqrt; lra). clearbody n.
  exists (fun k t => match k with 0%nat => cos (n * t) | 1%nat => - n * sin (n * t) | 2%nat => - n ^ 2 * cos (n * t) | 3%nat => n ^ 3 * sin (n * t) | 4%nat => n ^ 4 * cos (n * t) | _ => - n ^ 5 * sin (n * t) end).
  exists (fun k t => match k with 0%nat => sin (n * t) | 1%nat => n * cos (n * t) | 2%nat => - n ^ 2 * sin (n * t) | 3%nat => - n ^ 3 * cos (n * t) | 4%nat => n ^ 4 * sin (n * t) | _ => n ^ 5 * cos (n * t) end).
  exists (fun _ _ => 0).
  assert (N5 : 0 < n ^ 5 <= 1) by (split; [apply pow_lt; lra|]; rewrite <- (pow1 5); apply pow_incr; lra).
  split; [|split; [|split]].
  - split.
    + intros k t Hk _. destruct k as [|[|[|[|[|]]]]]; try lia; auto_derive; try trivial; ring.
    + intros t _. cbv beta iota. rewrite Rabs_mult, Rabs_Ropp, (Rabs_right (n ^ 5)) by lra. pose proof (SIN_bound (n * t)). assert (Rabs (sin (n * t)) <= 1) by (apply Rabs_le; lra). pose proof (Rabs_pos (sin (n * t))). nra.
  - split.
    + intros k t Hk _. destruct k as [|[|[|[|[|]]]]]; try lia; auto_derive; try trivial; ring.
    + intros t _. cbv beta iota. rewrite Rabs_mult, (Rabs_right (n ^ 5)) by lra. pose proof (COS_bound (n * t)). assert (Rabs (cos (n * t)) <= 1) by (apply Rabs_le; lra). pose proof (Rabs_pos (cos (n * t))). nra.
  - split; [intros; auto_derive; trivial|intros; rewrite Rabs_R0; lra].
  - intro t. cbv beta iota. pose proof (sc1 (n * t)) as T. split.
    + apply norm_of; [lra|]. cbn. lra.
    + cbn [scale]. replace (- MU / 1 ^ 3) with (- n ^ 2) by (rewrite <- NN; field). rewrite Rmult_0_r. reflexivity.
Qed.

(* C155: a returned orbit can lie behind an observer *)
Theorem C155_behind_refuted : exists s1 s2 s3 t1 t2 t3 q1 q2 q3 mu o, 
  gauss_iod one_root Gibbs false mu s1 s2 s3 t1 t2 t3 q1 q2 q3 = Ok [o] /\
  let ratio t := t / (t3 - t1) * (1 + mu / (6 * norm (o_r o) ^ 3) * ((t3 - t1) ^ 2 - t ^ 2)) in
  forall k1 k3, o_r o = vplus (scale (ratio (t3 - t2)) (along q1 (sight s1) k1)) (scale (ratio (t2 - t1)) (along q3 (sight s3) k3)) -> k1 < 0.
Proof.
  destruct (toy_sights (-1) (or_intror eq_refl)) as (s1 & s2 & s3 & E1 & E2 & E3).
  pose proof (toy_run (-1) (or_intror eq_refl) false s1 s2 s3 E1 E2 E3) as T.
  exists s1, s2, s3, (-1), 0, 1, toy_q1, toy_q2, toy_q3, (1 / 2). eexists. split; [exact T|]. cbn [o_r]. cbv zeta.
  assert (N2 : norm (1, 0, 0) = 1) by (apply norm_of; [lra|cbn; ring]). rewrite N2, E1, E3. intros k1 k3 H.
  assert (V : vz (1, 0, 0) = vz (vplus (scale ((1 - 0) / (1 - -1) * (1 + 1 / 2 / (6 * 1 ^ 3) * ((1 - -1) ^ 2 - (1 - 0) ^ 2))) (along toy_q1 (toy_u1 (-1)) k1)) (scale ((0 - -1) / (1 - -1) * (1 + 1 / 2 / (6 * 1 ^ 3) * ((1 - -1) ^ 2 - (0 - -1) ^ 2))) (along toy_q3 toy_u3 k3)))) by (rewrite <- H; reflexivity).
  unfold along, toy_q1, toy_q3, toy_u1, toy_u3 in V. cbn in V. lra.
Qed.
(* only the middle line of sight is followed forward *)
Theorem C155_behind_partial : forall roots m lt mu s1 s2 s3 t1 t2 t3 q1 q2 q3 rows o, finds_roots roots ->
  gauss_iod roots m lt mu s1 s2 s3 t1 t2 t3 q1 q2 q3 = Ok rows -> In o rows -> exists k, 0 <= k /\ o_r o = along q2 (sight s2) k.
Proof. intros. destruct (C149_rows _ _ _ _ _ _ _ _ _ _ _ _ _ _ _ H H0 H1) as (k1 & k2 & k3 & K & E & _). exists k2. auto. Qed.
Print Assumptions C155_behind_refuted.
Print Assumptions C155_behind_partial.

(* C156: degenerate geometry *)
Theorem C156_degenerate_refuted : exists roots m lt mu s1 s2 s3 t1 t2 t3 q1 q2 q3, t1 < t2 < t3 /\ 0 < mu /\ 0 < norm q2 /\ finds_roots roots /\
  gauss_iod roots m lt mu s1 s2 s3 t1 t2 t3 q1 q2 q3 = Err ZeroDivisionError.
Proof.
  exists one_root, Gibbs, true, MU, (10, 20), (11, 21), (10, 20), (-1), 0, 1, toy_q1, toy_q2, toy_q3. pose proof MU_pos. rewrite toy_q2_norm.
  repeat (split; [lra|]). split; [apply one_root_finds|apply same_sight_crash].
Qed.
Theorem C156_same_direction : forall roots m lt mu s s2 t1 t2 t3 q1 q2 q3, gauss_iod roots m lt mu s s2 s t1 t2 t3 q1 q2 q3 = Err ZeroDivisionError.
Proof. exact same_sight_crash. Qed.
Theorem C156_degenerate_partial : forall roots m lt mu s1 s2 s3 t1 t2 t3 q1 q2 q3, finds_roots roots -> m = Gibbs \/ m = HerrickGibbs ->
  t1 < t2 -> t2 < t3 -> 0 < mu -> norm q2 <> 0 -> dot (cross (sight s1) (sight s2)) (sight s3) <> 0 ->
  dot (cross (sight s1) (sight s3)) (vplus (scale (t3 - t1 + (t3 - t2)) q1) (scale (t3 - t1 + (t2 - t1)) q3)) <> 0 ->
  exists rows, gauss_iod roots m lt mu s1 s2 s3 t1 t2 t3 q1 q2 q3 = Ok rows.
Proof. exact run_ok. Qed.
Print Assumptions C156_degenerate_refuted.
Print Assumptions C156_same_direction.
Print Assumptions C156_degenerate_partial.

(* C157: the observer of each observation *)
Definition row_inputs (w : obsrow) : (R * R) * R * vec := (w_lonlat w, w_mjd w, w_opos w).
Theorem C157_observers_refuted : exists rows ids x, NoDup (map w_id rows) /\ (forall w, In w rows -> w_odays w = w_days w /\ w_onanos w = w_nanos w) /\
  In x (iod_inputs rows ids) /\ ~ exists w, In w rows /\ row_inputs w = x.
Proof.
  set (a := mkobs "a" 2 0 "X05" (1, 0) 2 0 "SUN" (2, 0, 0)). set (b := mkobs "b" 1 0 "X05" (0, 0) 1 0 "SUN" (1, 0, 0)).
  exists [a; b], ["a"%string; "b"%string], ((1, 0), w_mjd a, (1, 0, 0)).
  split. { repeat constructor; cbn; intuition discriminate. }
  split. { intros w [<-|[<-|[]]]; split; reflexivity. }
  split. { left. reflexivity. }
  intros (w & [<-|[<-|[]]] & E).
  - unfold row_inputs in E. cbn in E. injection E. lra.
  - unfold row_inputs in E. cbn in E. injection E. lra.
Qed.
Theorem C157_observers_partial : forall rows ids, StronglySorted (fun a b => okey_leb a b = true) rows ->
  iod_inputs rows ids = map row_inputs (filter (fun w => mem (w_id w) ids) rows).
Proof. exact inputs_sorted. Qed.
Print Assumptions C157_observers_refuted.
Print Assumptions C157_observers_partial.

(* C158: the time scale of the epochs; [instant s x] is the instant the value x denotes in the scale s *)
Theorem C158_scale_refuted : forall instant : string -> R -> R, (forall x, instant "tai"%string x <> instant "utc"%string x) ->
  exists s1 s2 s3 t1 t2 t3 q1 q2 q3 mu o, gauss_iod one_root Gibbs false mu s1 s2 s3 t1 t2 t3 q1 q2 q3 = Ok [o] /\
    instant gauss_scale (o_epoch o) <> instant "tai"%string t2.
Proof.
  intros instant D. destruct (toy_sights 1 (or_introl eq_refl)) as (s1 & s2 & s3 & E1 & E2 & E3).
  pose proof (toy_run 1 (or_introl eq_refl) false s1 s2 s3 E1 E2 E3) as T. do 10 eexists. eexists. split; [exact T|]. cbn [o_epoch]. intro H. apply (D 0). symmetry. exact H.
Qed.
Theorem C158_scale_partial : forall (instant : string -> R -> R) roots m mu s1 s2 s3 t1 t2 t3 q1 q2 q3 rows o, finds_roots roots ->
  gauss_iod roots m false mu s1 s2 s3 t1 t2 t3 q1 q2 q3 = Ok rows -> In o rows -> instant gauss_scale (o_epoch o) = instant "utc"%string t2.
Proof. intros. destruct (C149_rows _ _ _ _ _ _ _ _ _ _ _ _ _ _ _ H H0 H1) as (k1 & k2 & k3 & K & E & Ep & _). rewrite Ep. reflexivity. Qed.
Print Assumptions C158_scale_refuted.
Print Assumptions C158_scale_partial.
