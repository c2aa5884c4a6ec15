From Coq Require Import Reals Lra Lia ZArith Nsatz.
From Verif Require Import SphModel SphSpec SphProofs KepModel KepSpec KepProofs.
Open Scope R_scope.

(* ---- vectors ---- *)
Ltac vring := apply f_equal2; [apply f_equal2|]; ring.
Definition lin (a b : R) (u w : vec) : vec := vplus (scale a u) (scale b w).
Lemma dot_lin : forall a b x y u w, dot (lin a b u w) (lin x y u w) = a * x * dot u u + (a * y + b * x) * dot u w + b * y * dot w w.
Proof. intros a b x y [[u1 u2] u3] [[w1 w2] w3]. cbn. ring. Qed.
Lemma dot_lin_l : forall a b u w z, dot (lin a b u w) z = a * dot u z + b * dot w z.
Proof. intros a b [[u1 u2] u3] [[w1 w2] w3] [[z1 z2] z3]. cbn. ring. Qed.
Lemma dot_lin_r : forall a b u w z, dot z (lin a b u w) = a * dot z u + b * dot z w.
Proof. intros a b [[u1 u2] u3] [[w1 w2] w3] [[z1 z2] z3]. cbn. ring. Qed.
Lemma cross_lin : forall a b x y u w, cross (lin a b u w) (lin x y u w) = scale (a * y - b * x) (cross u w).
Proof. intros a b x y [[u1 u2] u3] [[w1 w2] w3]. cbn. vring. Qed.
Lemma scale_lin : forall k a b u w, scale k (lin a b u w) = lin (k * a) (k * b) u w.
Proof. intros k a b [[u1 u2] u3] [[w1 w2] w3]. cbn. vring. Qed.
Lemma lin_lin : forall a b x y u w, vplus (lin a b u w) (lin x y u w) = lin (a + x) (b + y) u w.
Proof. intros a b x y [[u1 u2] u3] [[w1 w2] w3]. cbn. vring. Qed.
Lemma dot_scale : forall k u, dot (scale k u) (scale k u) = k ^ 2 * dot u u.
Proof. intros k [[u1 u2] u3]. cbn. ring. Qed.
Lemma dot_sym : forall u w, dot u w = dot w u.
Proof. intros [[u1 u2] u3] [[w1 w2] w3]. cbn. ring. Qed.
Lemma dot_scale_l : forall k u w, dot (scale k u) w = k * dot u w.
Proof. intros k [[u1 u2] u3] [[w1 w2] w3]. cbn. ring. Qed.
Lemma dot_scale_r : forall k u w, dot u (scale k w) = k * dot u w.
Proof. intros k [[u1 u2] u3] [[w1 w2] w3]. cbn. ring. Qed.
Lemma dot_nonneg : forall u, 0 <= dot u u.
Proof. intros [[u1 u2] u3]. cbn. nra. Qed.
Lemma norm_sq : forall u, norm u ^ 2 = dot u u.
Proof. intros. apply sqrt_sq2, dot_nonneg. Qed.
Lemma norm_of : forall u k, 0 <= k -> dot u u = k ^ 2 -> norm u = k.
Proof. intros u k K E. unfold norm. rewrite E, sqrt_of_sq. apply Rabs_right. lra. Qed.
Lemma vec_eta : forall u, u = (vx u, vy u, vz u).
Proof. intros [[a b] c]. reflexivity. Qed.
Lemma pos_row : forall r v, pos (row_of r v) = r.
Proof. intros [[a b] c] v. reflexivity. Qed.
Lemma vel_row : forall r v, vel (row_of r v) = v.
Proof. intros r [[a b] c]. reflexivity. Qed.
Lemma row_pos_vel : forall s, row_of (pos s) (vel s) = s.
Proof. intros []. reflexivity. Qed.

(* ---- the orbital frame ---- *)
Definition node (raan : R) : vec := (cos raan, sin raan, 0).
Definition peri (i raan ap : R) : vec :=
  (cos raan * cos ap - sin raan * cos i * sin ap, sin raan * cos ap + cos raan * cos i * sin ap, sin i * sin ap).
Definition along_track (i raan ap : R) : vec :=
  (- cos raan * sin ap - sin raan * cos i * cos ap, - sin raan * sin ap + cos raan * cos i * cos ap, sin i * cos ap).
Definition pole (i raan : R) : vec := (sin raan * sin i, - cos raan * sin i, cos i).
Lemma sc1 : forall x, sin x * sin x = 1 - cos x * cos x.
Proof. intros. pose proof (sin2_cos2 x). unfold Rsqr in *. lra. Qed.
Ltac trig := repeat match goal with |- context [sin ?x] =>
   let c := fresh "c" in let s := fresh "s" in let H := fresh "H" in
   pose proof (sc1 x) as H; set (s := sin x) in *; set (c := cos x) in *; clearbody s c end.
Lemma peri_1 : forall i o w, dot (peri i o w) (peri i o w) = 1.
Proof. intros. cbn. trig. nsatz. Qed.
Lemma track_1 : forall i o w, dot (along_track i o w) (along_track i o w) = 1.
Proof. intros. cbn. trig. nsatz. Qed.
Lemma peri_track : forall i o w, dot (peri i o w) (along_track i o w) = 0.
Proof. intros. cbn. trig. nsatz. Qed.
Lemma peri_cross_track : forall i o w, cross (peri i o w) (along_track i o w) = pole i o.
Proof. intros. cbn. unfold pole. trig. apply f_equal2; [apply f_equal2|]; nsatz. Qed.
Lemma pole_1 : forall i o, dot (pole i o) (pole i o) = 1.
Proof. intros. cbn. trig. nsatz. Qed.
Lemma node_1 : forall o, dot (node o) (node o) = 1.
Proof. intros. cbn. trig. nsatz. Qed.
Lemma z_cross_pole : forall k i o, cross (0, 0, 1) (scale k (pole i o)) = scale (k * sin i) (node o).
Proof. intros. cbn. vring. Qed.
Lemma node_peri : forall i o w, dot (node o) (peri i o w) = cos w.
Proof. intros. cbn. trig. nsatz. Qed.

(* ---- angles from cosines ---- *)
Lemma acos_turn : forall x, 0 <= x < 2 * PI -> (if Rlt_dec (sin x) 0 then 2 * PI - acos (cos x) else acos (cos x)) = x.
Proof.
  intros x X. pose proof PI_RGT_0. destruct (Rlt_dec (sin x) 0) as [L|L].
  - assert (PI < x). { destruct (Rlt_dec PI x); [assumption|]. pose proof (sin_ge_0 x ltac:(lra) ltac:(lra)). lra. }
    replace (cos x) with (cos (2 * PI - x)).
    + rewrite acos_cos by lra. ring.
    + rewrite cos_minus, cos_2PI, sin_2PI. ring.
  - assert (x <= PI). { destruct (Rle_dec x PI); [assumption|]. pose proof (sin_lt_0 x ltac:(lra) ltac:(lra)). lra. }
    apply acos_cos. lra.
Qed.
Lemma oacos_cos : forall x, oacos (cos x) = Some (acos (cos x)).
Proof. intros. unfold oacos. pose proof (COS_bound x). destruct (Rle_dec (-1) (cos x)); [|lra]. destruct (Rle_dec (cos x) 1); [reflexivity|lra]. Qed.
Lemma sign_scaled : forall k x A (a b : A), 0 < k -> (if Rlt_dec (k * x) 0 then a else b) = (if Rlt_dec x 0 then a else b).
Proof. intros. destruct (Rlt_dec (k * x) 0), (Rlt_dec x 0); try reflexivity; exfalso; nra. Qed.
Lemma odiv_some : forall x y, y <> 0 -> odiv x y = Some (x / y).
Proof. intros. unfold odiv. destruct (Req_EM_T y 0); [contradiction|reflexivity]. Qed.

(* ---- the state of given elements ---- *)
Section State.
Variables p e i raan ap nu mu : R.
Hypothesis p_pos : 0 < p.
Hypothesis mu_pos : 0 < mu.
Hypothesis e_nonneg : 0 <= e.
Hypothesis conic : 0 < 1 + e * cos nu.
Let P := peri i raan ap.
Let Q := along_track i raan ap.
Let rho := p / (1 + e * cos nu).
Let k := sqrt (mu / p).
Let s := perifocal p e i raan ap nu mu.
Lemma rho_pos : 0 < rho.
Proof. apply Rdiv_lt_0_compat; assumption. Qed.
Lemma k_pos : 0 < k.
Proof. apply sqrt_lt_R0, Rdiv_lt_0_compat; assumption. Qed.
Lemma k_sq : k ^ 2 = mu / p.
Proof. apply sqrt_sq2. left. apply Rdiv_lt_0_compat; assumption. Qed.
Lemma pos_s : pos s = lin (rho * cos nu) (rho * sin nu) P Q.
Proof.
  unfold s, perifocal. rewrite pos_row. unfold lin, P, Q, peri, along_track, rho.
  replace (p / (1 + e * cos nu) * cos nu) with (p * cos nu / (1 + e * cos nu)) by (field; lra).
  replace (p / (1 + e * cos nu) * sin nu) with (p * sin nu / (1 + e * cos nu)) by (field; lra). reflexivity.
Qed.
Lemma vel_s : vel s = lin (- (k * sin nu)) (k * (e + cos nu)) P Q.
Proof.
  unfold s, perifocal. rewrite vel_row. unfold lin, P, Q, peri, along_track, k.
  replace (- sqrt (mu / p) * sin nu) with (- (sqrt (mu / p) * sin nu)) by ring. reflexivity.
Qed.
Lemma r_norm : norm (pos s) = rho.
Proof.
  apply norm_of; [left; apply rho_pos|]. rewrite pos_s, dot_lin. unfold P, Q. rewrite peri_1, peri_track, track_1.
  pose proof (sc1 nu). nra.
Qed.
Lemma v_norm2 : norm (vel s) ^ 2 = mu / p * (1 + 2 * e * cos nu + e ^ 2).
Proof.
  rewrite norm_sq, vel_s, dot_lin. unfold P, Q. rewrite peri_1, peri_track, track_1. rewrite <- k_sq.
  pose proof (sc1 nu). nra.
Qed.
Lemma h_vec : cross (pos s) (vel s) = scale (sqrt (mu * p)) (pole i raan).
Proof.
  rewrite pos_s, vel_s, cross_lin. unfold P, Q. rewrite peri_cross_track. f_equal.
  pose proof (sc1 nu) as T.
  replace (rho * cos nu * (k * (e + cos nu)) - rho * sin nu * - (k * sin nu)) with (rho * k * (e * cos nu + cos nu * cos nu + sin nu * sin nu)) by ring.
  rewrite T. replace (rho * k * (e * cos nu + cos nu * cos nu + (1 - cos nu * cos nu))) with (p * k) by (unfold rho; field; lra).
  unfold k. replace (mu * p) with (p ^ 2 * (mu / p)) by (field; lra). rewrite sqrt_mult.
  - rewrite sqrt_of_sq, Rabs_right by lra. reflexivity.
  - nra.
  - left. apply Rdiv_lt_0_compat; assumption.
Qed.
Lemma rv_dot : dot (pos s) (vel s) = rho * k * e * sin nu.
Proof. rewrite pos_s, vel_s, dot_lin. unfold P, Q. rewrite peri_1, peri_track, track_1. ring. Qed.
Lemma e_vec_is : scale (/ mu) (vplus (scale (norm (vel s) ^ 2 - mu / norm (pos s)) (pos s)) (scale (- dot (pos s) (vel s)) (vel s))) = scale e P.
Proof.
  rewrite v_norm2, r_norm, rv_dot. rewrite pos_s, vel_s, !scale_lin, lin_lin, scale_lin.
  pose proof (sc1 nu) as T. pose proof k_sq as K.
  match goal with |- lin ?a ?b P Q = _ => assert (A : a = e); [|assert (B : b = 0)] end.
  - transitivity (/ mu * ((mu / p * (1 + 2 * e * cos nu + e ^ 2) - mu / rho) * (rho * cos nu) + rho * k ^ 2 * e * (sin nu * sin nu))); [ring|].
    rewrite K, T. unfold rho. field. repeat split; lra.
  - transitivity (/ mu * ((mu / p * (1 + 2 * e * cos nu + e ^ 2) - mu / rho) * (rho * sin nu) - rho * k ^ 2 * e * sin nu * (e + cos nu))); [ring|].
    rewrite K. unfold rho. field. repeat split; lra.
  - rewrite A, B. destruct P as [[p1 p2] p3], Q as [[q1 q2] q3]. cbn. vring.
Qed.
Lemma sme_is : norm (vel s) ^ 2 / 2 - mu / norm (pos s) = - (mu * (1 - e ^ 2) / (2 * p)).
Proof. rewrite v_norm2, r_norm. unfold rho. field. repeat split; lra. Qed.
Lemma h_norm : norm (scale (sqrt (mu * p)) (pole i raan)) = sqrt (mu * p).
Proof. apply norm_of; [apply sqrt_pos|]. rewrite dot_scale, pole_1. ring. Qed.
Lemma mp_pos : 0 < sqrt (mu * p).
Proof. apply sqrt_lt_R0. nra. Qed.
Lemma e_norm : norm (scale e P) = e.
Proof. apply norm_of; [assumption|]. rewrite dot_scale. unfold P. rewrite peri_1. ring. Qed.

(* what the conversion returns *)
Hypothesis i_range : float_tol <= i < PI.
Hypothesis raan_range : 0 <= raan < 2 * PI.
Hypothesis ap_range : 0 <= ap < 2 * PI.
Hypothesis nu_rng : 0 <= nu < 2 * PI.
Hypothesis e_range : float_tol <= e.
Lemma tol_pos : 0 < float_tol.
Proof. unfold float_tol. apply Rinv_0_lt_compat, pow_lt. lra. Qed.
Lemma tol_small : float_tol < 1 / 1000.
Proof. unfold float_tol. cbn. lra. Qed.
Lemma elements_back : forall t0, exists kk, cartesian_to_keplerian s t0 mu = Some kk /\
  k_p kk = p /\ k_e kk = e /\ k_i kk = Some (degrees i) /\ k_raan kk = Some (degrees raan) /\ k_ap kk = Some (degrees ap) /\
  k_nu kk = Some (degrees nu) /\ k_M kk = option_map degrees (calc_mean_anomaly nu e) /\
  k_a kk = (if parabolic e then None else Some (p / (1 - e ^ 2))) /\
  k_q kk = Some (if parabolic e then p / 2 else p / (1 + e)) /\
  (parabolic e = false -> let n := sqrt (mu / Rabs (p / (1 - e ^ 2)) ^ 3) in
     k_n kk = Some (degrees n) /\
     k_tp kk = option_map (fun M => t0 + (if Rlt_dec PI M then if Rlt_dec e (1 - float_tol) then 2 * PI / n - M / n else - (M / n) else - (M / n)))
                 (calc_mean_anomaly nu e)).
Proof.
  intros t0. pose proof tol_pos as TP. pose proof rho_pos as RP. pose proof mp_pos as MP. pose proof PI_RGT_0.
  assert (SI : 0 < sin i) by (apply sin_gt_0; lra). pose proof k_pos as KP.
  unfold cartesian_to_keplerian. rewrite e_vec_is, h_vec, sme_is, e_norm, h_norm, r_norm, rv_dot, z_cross_pole.
  destruct (Req_EM_T rho 0); [lra|]. eexists. split; [reflexivity|]. cbn [k_p k_e k_i k_raan k_ap k_nu k_M k_a k_q k_n k_tp].
  assert (NN : norm (scale (sqrt (mu * p) * sin i) (node raan)) = sqrt (mu * p) * sin i).
  { apply norm_of; [nra|]. rewrite dot_scale, node_1. ring. }
  rewrite NN.
  assert (I : obind (odiv (vz (scale (sqrt (mu * p)) (pole i raan))) (sqrt (mu * p))) oacos = Some i).
  { rewrite odiv_some by lra. cbn [obind]. unfold pole. cbn [scale vz snd].
    replace (sqrt (mu * p) * cos i / sqrt (mu * p)) with (cos i) by (field; lra). rewrite oacos_cos, acos_cos by lra. reflexivity. }
  rewrite I.
  assert (NU : option_map (fun x => if Rlt_dec (rho * k * e * sin nu) 0 then 2 * PI - x else x) (obind (odiv (dot (scale e P) (pos s)) (e * rho)) oacos) = Some nu).
  { rewrite odiv_some by nra. cbn [obind]. rewrite dot_scale_l, pos_s, dot_lin_r. unfold P, Q. rewrite peri_1, peri_track.
    replace (e * (rho * cos nu * 1 + rho * sin nu * 0) / (e * rho)) with (cos nu) by (field; lra).
    rewrite oacos_cos. cbn [option_map]. f_equal. rewrite sign_scaled by (apply Rmult_lt_0_compat; nra). apply acos_turn. exact nu_rng. }
  rewrite NU. cbn [option_map obind].
  split. { rewrite sqrt_sq2 by nra. field. lra. }
  split; [reflexivity|]. split; [reflexivity|].
  split. { destruct (Rlt_dec i float_tol); [lra|]. destruct (Rlt_dec (Rabs (i - 2 * PI)) float_tol) as [L|L].
    { pose proof tol_small. pose proof PI2_3_2. rewrite Rabs_left in L by lra. lra. }
    rewrite odiv_some by nra. cbn [obind]. unfold node at 2. cbn [scale vx vy fst snd node].
    replace (sqrt (mu * p) * sin i * cos raan / (sqrt (mu * p) * sin i)) with (cos raan) by (field; lra).
    rewrite oacos_cos. cbn [option_map]. do 2 f_equal. rewrite sign_scaled by nra. apply acos_turn. exact raan_range. }
  split. { rewrite Rabs_right by lra. destruct (Rlt_dec e float_tol); [lra|]. rewrite odiv_some by (apply Rgt_not_eq; apply Rmult_lt_0_compat; [apply Rmult_lt_0_compat|]; lra). cbn [obind].
    rewrite dot_scale_l, dot_scale_r. unfold P. rewrite node_peri.
    replace (sqrt (mu * p) * sin i * (e * cos ap) / (sqrt (mu * p) * sin i * e)) with (cos ap) by (field; lra).
    rewrite oacos_cos. cbn [option_map]. do 2 f_equal. unfold peri. cbn [scale vz snd].
    replace (e * (sin i * sin ap)) with (e * sin i * sin ap) by ring. rewrite sign_scaled by nra. apply acos_turn. exact ap_range. }
  split; [reflexivity|]. split; [reflexivity|].
  assert (A : parabolic e = false -> odiv mu (-2 * - (mu * (1 - e ^ 2) / (2 * p))) = Some (p / (1 - e ^ 2))).
  { intros F. assert (e <> 1). { intros ->. unfold parabolic in F. destruct (Rlt_dec (1 - float_tol) 1); [|lra]. destruct (Rlt_dec 1 (1 + float_tol)); [discriminate|lra]. }
    assert (1 - e ^ 2 <> 0) by nra. replace (-2 * - (mu * (1 - e ^ 2) / (2 * p))) with (mu / p * (1 - e ^ 2)) by (field; lra).
    rewrite odiv_some; [f_equal; field; repeat split; lra|].
    apply Rmult_integral_contrapositive. split; [|assumption]. apply Rgt_not_eq, Rdiv_lt_0_compat; assumption. }
  destruct (parabolic e) eqn:F; [split; [reflexivity|]|].
  - split; [|discriminate]. f_equal. rewrite sqrt_sq2 by nra. field. lra.
  - rewrite (A eq_refl). split; [reflexivity|]. cbn [option_map obind].
    assert (NE : e <> 1). { intros ->. unfold parabolic in F. destruct (Rlt_dec (1 - float_tol) 1); [|lra]. destruct (Rlt_dec 1 (1 + float_tol)); [discriminate|lra]. }
    assert (1 - e ^ 2 <> 0) by nra.
    split; [f_equal; field; split; [lra|nra]|]. intros _.
    assert (AP : 0 < Rabs (p / (1 - e ^ 2))). { apply Rabs_pos_lt. unfold Rdiv. apply Rmult_integral_contrapositive. split; [lra|apply Rinv_neq_0_compat; assumption]. }
    assert (A3 : 0 < Rabs (p / (1 - e ^ 2)) ^ 3) by (apply pow_lt; exact AP).
    rewrite odiv_some by lra. cbn [obind option_map]. cbv zeta.
    set (mm := sqrt (mu / Rabs (p / (1 - e ^ 2)) ^ 3)). assert (0 < mm) by (apply sqrt_lt_R0, Rdiv_lt_0_compat; assumption).
    split; [reflexivity|]. destruct (calc_mean_anomaly nu e) as [M|]; cbn [obind option_map]; [|reflexivity].
    rewrite !odiv_some by lra. cbn [obind option_map]. destruct (Rlt_dec PI M), (Rlt_dec e (1 - float_tol)); reflexivity.
Qed.
End State.
