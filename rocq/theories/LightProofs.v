(* Light time as a fixed point; stellar aberration as a map of directions. *)
From Coq Require Import Reals Lra Psatz Lia.
From Coquelicot Require Import Coquelicot.
From Verif Require Import SphModel SphProofs KepModel KepSpec KepElem UnivModel UnivSpec UnivFun UnivOrbit UnivTime UnivUnique UnivNewton UnivProofs LightModel.
Open Scope R_scope.

Lemma light_pos : 0 < light.
Proof. unfold light, km_p_au, s_p_day. lra. Qed.
Lemma light_big : 100 < light.
Proof. unfold light, km_p_au, s_p_day. lra. Qed.

(* ---- distances ---- *)
Definition vminus (u w : vec) : vec := vplus u (scale (-1) w).
Lemma distance_norm : forall u w, distance u w = norm (vminus u w).
Proof. intros [[a b] c] [[x y] z]. unfold distance, norm, vminus, vplus, scale, dot, vx, vy, vz. cbn [fst snd]. f_equal. ring. Qed.
Lemma norm_triangle : forall u w, norm (vplus u w) <= norm u + norm w.
Proof.
  intros u w. pose proof (norm_nonneg u) as U. pose proof (norm_nonneg w) as W.
  apply Rsqr_incr_0_var; [|lra]. unfold Rsqr. pose proof (norm_sq (vplus u w)) as N. pose proof (norm_sq u) as Nu. pose proof (norm_sq w) as Nw.
  pose proof (cauchy u w) as C. pose proof (Rle_abs (dot u w)).
  assert (E : dot (vplus u w) (vplus u w) = dot u u + 2 * dot u w + dot w w) by (destruct u as [[? ?] ?], w as [[? ?] ?]; unfold vplus, dot; ring). nra.
Qed.
Lemma distance_triangle : forall a b c, distance a c <= distance a b + distance b c.
Proof.
  intros a b c. rewrite !distance_norm.
  replace (vminus a c) with (vplus (vminus a b) (vminus b c)) by (destruct a as [[? ?] ?], b as [[? ?] ?], c as [[? ?] ?]; unfold vminus, vplus, scale; vring).
  apply norm_triangle.
Qed.
Lemma distance_sym : forall a b, distance a b = distance b a.
Proof. intros [[a b] c] [[x y] z]. unfold distance, vx, vy, vz. cbn [fst snd]. f_equal. ring. Qed.
Lemma distance_nonneg : forall a b, 0 <= distance a b.
Proof. intros. apply sqrt_pos. Qed.
Lemma distance_lip : forall a b o, Rabs (distance a o - distance b o) <= distance a b.
Proof.
  intros a b o. apply Rabs_le. pose proof (distance_triangle a b o). pose proof (distance_triangle b a o) as T. rewrite (distance_sym b a) in T. lra.
Qed.

(* ---- the loop ---- *)
Section Loop.
Variables (prop : R -> R -> option row6) (obs : vec) (tol : R) (after : R -> option row6).
Hypothesis prop_dt : forall t l, prop t (t - l) = after l.

Definition lt_of (s : row6) : R := distance (pos s) obs / light.
(* a finite light time l is the light time of the state before the last propagation *)
Lemma loop_result : forall fuel st t lt dlt st' l, lt_loop prop obs tol fuel st t lt dlt = (st', Some l) ->
  (st' = st /\ l = lt /\ dlt <= tol) \/
  (exists s0 l0, st' = after l /\ l = lt_of s0 /\ Rabs (l - l0) <= tol /\ ((Some s0 = st /\ l0 = lt) \/ after l0 = Some s0)).
Proof.
  induction fuel as [|k IH]; intros st t lt dlt st' l H; cbn [lt_loop] in H; [discriminate|].
  destruct (Rlt_dec tol dlt) as [_|G]; [|left; repeat split; try congruence; lra].
  destruct st as [s|]; [|discriminate]. right. fold (lt_of s) in H. rewrite prop_dt in H.
  destruct (IH _ _ _ _ _ _ H) as [(A & B & C)|(s0 & l0 & A & B & C & D)].
  - exists s, lt. subst l. repeat split; try assumption. left. split; reflexivity.
  - exists s0, l0. repeat split; try assumption. destruct D as [[D1 D2]|D]; right; [rewrite D2; symmetry; exact D1|exact D].
Qed.
(* the change of the light time shrinks by beta at each step *)
Lemma loop_converges : forall beta, 0 <= beta ->
  (forall l, exists s, after l = Some s) ->
  (forall a b sa sb, after a = Some sa -> after b = Some sb -> distance (pos sa) (pos sb) <= beta * light * Rabs (a - b)) ->
  forall k fuel s t lt0 lt s0, (k < fuel)%nat -> after lt0 = Some s0 -> lt = lt_of s0 -> after lt = Some s ->
  beta ^ k * Rabs (lt - lt0) <= tol ->
  exists st l, lt_loop prop obs tol fuel (Some s) t lt (Rabs (lt - lt0)) = (st, Some l).
Proof.
  intros beta B Tot Lip k. pose proof light_pos as LP. induction k as [|k IH]; intros fuel s t lt0 lt s0 F E0 EL E G.
  - destruct fuel as [|f]; [lia|]. cbn [lt_loop]. destruct (Rlt_dec tol (Rabs (lt - lt0))) as [X|_]; [exfalso; cbn [pow] in G; lra|]. do 2 eexists. reflexivity.
  - destruct fuel as [|f]; [lia|]. cbn [lt_loop]. destruct (Rlt_dec tol (Rabs (lt - lt0))) as [_|_]; [|do 2 eexists; reflexivity].
    fold (lt_of s). rewrite prop_dt. destruct (Tot (lt_of s)) as (s1 & E1). rewrite E1.
    apply (IH f s1 _ lt (lt_of s) s); [lia|exact E|reflexivity|exact E1|].
    assert (S : Rabs (lt_of s - lt) <= beta * Rabs (lt - lt0)).
    { rewrite EL at 1. unfold lt_of. replace (distance (pos s) obs / light - distance (pos s0) obs / light) with ((distance (pos s) obs - distance (pos s0) obs) / light) by (field; lra).
      unfold Rdiv. rewrite Rabs_mult, (Rabs_right (/ light)) by (left; apply Rinv_0_lt_compat; exact LP).
      apply Rmult_le_reg_r with light; [exact LP|]. rewrite Rmult_assoc, Rinv_l, Rmult_1_r by lra.
      eapply Rle_trans; [apply distance_lip|]. eapply Rle_trans; [apply (Lip lt lt0); assumption|]. lra. }
    apply Rle_trans with (beta ^ k * (beta * Rabs (lt - lt0))); [apply Rmult_le_compat_l; [apply pow_le; exact B|exact S]|].
    rewrite <- tech_pow_Rmult in G. lra.
Qed.
End Loop.

(* ---- the speed of the two-body motion bounds its displacement ---- *)
Lemma displacement : forall X V M, (forall t, vderiv X t (V t)) -> (forall t, norm (V t) <= M) -> forall s t, distance (X s) (X t) <= M * Rabs (s - t).
Proof.
  assert (L : forall X V M, (forall t, vderiv X t (V t)) -> (forall t, norm (V t) <= M) -> forall s t, s < t -> distance (X s) (X t) <= M * (t - s)).
  { intros X V M D B s t Lt. rewrite distance_sym, distance_norm. set (w := vminus (X t) (X s)).
    destruct (Req_dec (norm w) 0) as [Z|NZ].
    { rewrite Z. apply Rmult_le_pos; [|lra]. apply Rle_trans with (norm (V 0)); [apply norm_nonneg|apply B]. }
    pose proof (norm_nonneg w) as WP.
    assert (DG : forall u, derivable_pt_lim (fun u => dot w (X u)) u (dot w (V u))).
    { intro u. destruct (D u) as (D1 & D2 & D3). apply d_lim in D1. apply d_lim in D2. apply d_lim in D3. apply d_lim.
      apply (d_ext (fun u => vx w * vx (X u) + vy w * vy (X u) + vz w * vz (X u)) _ u (vx w * vx (V u) + vy w * vy (V u) + vz w * vz (V u))).
      - intro y. symmetry. apply dot_xyz.
      - symmetry. apply dot_xyz.
      - exact (d_plus _ _ _ _ _ (d_plus _ _ _ _ _ (d_scal (vx w) _ _ _ D1) (d_scal (vy w) _ _ _ D2)) (d_scal (vz w) _ _ _ D3)). }
    destruct (MVT_cor2 (fun u => dot w (X u)) (fun u => dot w (V u)) s t Lt) as (c & E & _); [intros; apply DG|].
    assert (W2 : dot w (X t) - dot w (X s) = norm w ^ 2).
    { rewrite norm_sq. unfold w, vminus. destruct (X t) as [[? ?] ?], (X s) as [[? ?] ?]. unfold vplus, scale, dot. ring. }
    rewrite W2 in E. pose proof (cauchy w (V c)) as C. pose proof (Rle_abs (dot w (V c))). specialize (B c).
    apply Rmult_le_reg_l with (norm w); [lra|]. replace (norm w * norm w) with (norm w ^ 2) by ring. rewrite E.
    apply Rle_trans with (norm w * norm (V c) * (t - s)); [apply Rmult_le_compat_r; lra|].
    rewrite <- Rmult_assoc. apply Rmult_le_compat_r; [lra|]. apply Rmult_le_compat_l; lra. }
  intros X V M D B s t. destruct (Rtotal_order s t) as [A|[A|A]].
  - rewrite Rabs_left by lra. replace (- (s - t)) with (t - s) by ring. apply (L X V M); assumption.
  - subst t. rewrite Rminus_eq_0, Rabs_R0. unfold distance. rewrite !Rminus_eq_0. replace (0 ^ 2 + 0 ^ 2 + 0 ^ 2) with 0 by ring. rewrite sqrt_0. lra.
  - rewrite Rabs_right by lra. rewrite distance_sym. apply (L X V M); assumption.
Qed.

Lemma propagate_dt : forall s t0 l mu n tol t, propagate s t (t - l) mu n tol = propagate s t0 (t0 - l) mu n tol.
Proof. intros. unfold propagate. replace (t - l - t) with (t0 - l - t0) by ring. reflexivity. Qed.

Lemma light_time_epoch : forall s t0 obs lt_tol mu n tol k st l, lt_tol < 10 ^ 30 ->
  add_light_time s t0 obs lt_tol mu n tol k = (st, Some l) ->
  st = propagate s t0 (t0 - l) mu n tol /\
  exists s0 l0, l = distance (pos s0) obs / light /\ Rabs (l - l0) <= lt_tol /\
    ((s0 = s /\ l0 = 10 ^ 30) \/ propagate s t0 (t0 - l0) mu n tol = Some s0).
Proof.
  intros s t0 obs lt_tol mu n tol k st l T H.
  destruct (loop_result _ obs lt_tol (fun l => propagate s t0 (t0 - l) mu n tol) (fun t l => propagate_dt s t0 l mu n tol t) _ _ _ _ _ _ _ H)
    as [(_ & _ & A)|(s0 & l0 & A & B & C & D)]; [exfalso; lra|].
  split; [exact A|]. exists s0, l0. split; [exact B|]. split; [exact C|]. destruct D as [[D1 D2]|D]; [left; split; [congruence|exact D2]|right; exact D].
Qed.

Section Slow.
Variables (s : row6) (t0 : R) (obs : vec) (lt_tol mu : R) (n : nat) (tol beta : R).
Hypothesis slow : forall a b sa sb, propagate s t0 (t0 - a) mu n tol = Some sa -> propagate s t0 (t0 - b) mu n tol = Some sb ->
  distance (pos sa) (pos sb) <= beta * light * Rabs (a - b).
Lemma light_time_error : forall k s' l, lt_tol < 10 ^ 30 -> 0 <= beta -> distance (pos s) obs / light + lt_tol < 10 ^ 30 ->
  add_light_time s t0 obs lt_tol mu n tol k = (Some s', Some l) ->
  Rabs (l - distance (pos s') obs / light) <= beta * lt_tol.
Proof.
  intros k s' l T B F H. pose proof light_pos as LP. destruct (light_time_epoch _ _ _ _ _ _ _ _ _ _ T H) as (A & s0 & l0 & E & G & [[C D]|C]).
  - exfalso. subst s0 l0. rewrite <- E in F. apply Rabs_le_between in G. lra.
  - rewrite E at 1. replace (distance (pos s0) obs / light - distance (pos s') obs / light) with ((distance (pos s0) obs - distance (pos s') obs) / light) by (field; lra).
    unfold Rdiv. rewrite Rabs_mult, (Rabs_right (/ light)) by (left; apply Rinv_0_lt_compat; exact LP).
    apply Rmult_le_reg_r with light; [exact LP|]. rewrite Rmult_assoc, Rinv_l, Rmult_1_r by lra.
    eapply Rle_trans; [apply distance_lip|]. eapply Rle_trans; [apply (slow l0 l); [exact C|symmetry; exact A]|].
    rewrite Rabs_minus_sym. replace (beta * lt_tol * light) with (beta * light * lt_tol) by ring.
    apply Rmult_le_compat_l; [apply Rmult_le_pos; lra|exact G].
Qed.
Lemma light_time_true : forall k s' l st lstar, lt_tol < 10 ^ 30 -> 0 <= beta < 1 -> distance (pos s) obs / light + lt_tol < 10 ^ 30 ->
  add_light_time s t0 obs lt_tol mu n tol k = (Some s', Some l) ->
  propagate s t0 (t0 - lstar) mu n tol = Some st -> lstar = distance (pos st) obs / light ->
  Rabs (l - lstar) <= beta * lt_tol / (1 - beta).
Proof.
  intros k s' l st lstar T [B0 B1] F H P E. pose proof light_pos as LP. pose proof (light_time_error k s' l T B0 F H) as G.
  destruct (light_time_epoch _ _ _ _ _ _ _ _ _ _ T H) as (A & _).
  assert (D : Rabs (distance (pos s') obs / light - lstar) <= beta * Rabs (l - lstar)).
  { rewrite E at 1. replace (distance (pos s') obs / light - distance (pos st) obs / light) with ((distance (pos s') obs - distance (pos st) obs) / light) by (field; lra).
    unfold Rdiv. rewrite Rabs_mult, (Rabs_right (/ light)) by (left; apply Rinv_0_lt_compat; exact LP).
    apply Rmult_le_reg_r with light; [exact LP|]. rewrite Rmult_assoc, Rinv_l, Rmult_1_r by lra.
    eapply Rle_trans; [apply distance_lip|]. eapply Rle_trans; [apply (slow l lstar); [symmetry; exact A|exact P]|]. lra. }
  assert (TR : Rabs (l - lstar) <= Rabs (l - distance (pos s') obs / light) + Rabs (distance (pos s') obs / light - lstar)).
  { replace (l - lstar) with ((l - distance (pos s') obs / light) + (distance (pos s') obs / light - lstar)) by ring. apply Rabs_triang. }
  apply Rmult_le_reg_r with (1 - beta); [lra|]. unfold Rdiv. rewrite Rmult_assoc, Rinv_l, Rmult_1_r by lra. lra.
Qed.
Lemma light_time_found : forall j k, 0 <= beta -> (forall l, exists s1, propagate s t0 (t0 - l) mu n tol = Some s1) ->
  (exists s1, propagate s t0 (t0 - 0) mu n tol = Some s1 /\ pos s1 = pos s) ->
  beta ^ (S j) * (distance (pos s) obs / light) <= lt_tol -> (j + 3 <= k)%nat ->
  exists s' l, add_light_time s t0 obs lt_tol mu n tol k = (Some s', Some l).
Proof.
  intros j k B Tot (z & Z & ZP) G K. pose proof light_pos as LP. destruct k as [|k]; [lia|]. unfold add_light_time.
  set (after := fun l => propagate s t0 (t0 - l) mu n tol).
  assert (PD : forall t l, propagate s t (t - l) mu n tol = after l) by (intros; apply propagate_dt).
  assert (W : exists st l, lt_loop (fun t t1 => propagate s t t1 mu n tol) obs lt_tol (S k) (Some s) t0 (10 ^ 30) (10 ^ 30) = (st, Some l) /\
     exists s', st = Some s').
  { set (prop := fun t t1 => propagate s t t1 mu n tol).
    assert (V : exists st l, lt_loop prop obs lt_tol (S k) (Some s) t0 (10 ^ 30) (10 ^ 30) = (st, Some l)).
    { cbn [lt_loop]. destruct (Rlt_dec lt_tol (10 ^ 30)) as [_|_]; [|do 2 eexists; reflexivity].
      fold (lt_of obs s). set (l1 := lt_of obs s). unfold prop at 2. rewrite PD. destruct (Tot l1) as (s1 & E1). fold (after l1) in E1. rewrite E1.
      destruct k as [|k]; [lia|]. cbn [lt_loop]. destruct (Rlt_dec lt_tol (Rabs (l1 - 10 ^ 30))) as [_|_]; [|do 2 eexists; reflexivity].
      fold (lt_of obs s1). set (l2 := lt_of obs s1). unfold prop at 2. rewrite PD. destruct (Tot l2) as (s2 & E2). fold (after l2) in E2. rewrite E2.
      apply (loop_converges prop obs lt_tol after PD beta B Tot slow j k s2 _ l1 l2 s1); [lia|exact E1|reflexivity|exact E2|].
      assert (L1 : 0 <= l1) by (unfold l1, lt_of; apply Rmult_le_pos; [apply distance_nonneg|left; apply Rinv_0_lt_compat; exact LP]).
      assert (S1 : Rabs (l2 - l1) <= beta * l1).
      { unfold l2, l1, lt_of. rewrite <- ZP. replace (distance (pos s1) obs / light - distance (pos z) obs / light) with ((distance (pos s1) obs - distance (pos z) obs) / light) by (field; lra).
        unfold Rdiv. rewrite Rabs_mult, (Rabs_right (/ light)) by (left; apply Rinv_0_lt_compat; exact LP).
        apply Rmult_le_reg_r with light; [exact LP|]. rewrite Rmult_assoc, Rinv_l, Rmult_1_r by lra.
        eapply Rle_trans; [apply distance_lip|]. eapply Rle_trans; [apply (slow l1 0); [exact E1|exact Z]|].
        rewrite Rminus_0_r, (Rabs_right l1) by lra. unfold l1, lt_of. rewrite <- ZP. unfold Rdiv. apply Req_le. ring. }
      apply Rle_trans with (beta ^ j * (beta * l1)); [apply Rmult_le_compat_l; [apply pow_le; exact B|exact S1]|].
      rewrite <- tech_pow_Rmult in G. fold (lt_of obs s) in G. fold l1 in G. lra. }
    destruct V as (st & l & V). exists st, l. split; [exact V|].
    destruct (loop_result prop obs lt_tol after PD _ _ _ _ _ _ _ V) as [(A & _)|(s0 & l0 & A & _)]; [exists s; exact A|].
    destruct (Tot l) as (s' & E). exists s'. rewrite A. exact E. }
  destruct W as (st & l & W & s' & E). exists s', l. rewrite E in W. exact W.
Qed.
End Slow.

(* ---- with Newton's law ---- *)
Section Newton.
Variables (s : row6) (t0 : R) (obs : vec) (lt_tol mu : R) (n : nat) (tol beta : R) (X V : R -> vec).
Hypotheses (mu_pos : 0 < mu) (free : not_radial s) (law : two_body mu X V) (X0 : X 0 = pos s) (V0 : V 0 = vel s)
  (tol_ok : tol < 10 ^ 15) (root : forall dt, last_step s dt mu n tol 0) (speed : forall t, norm (V t) <= beta * light).
Lemma prop_motion : forall l, propagate s t0 (t0 - l) mu n tol = Some (row_of (X (- l)) (V (- l))).
Proof.
  intro l. destruct (motion_unique s mu mu_pos free X V law X0 V0 (t0 - l - t0)) as [UX UV].
  destruct (exact_run s mu mu_pos free t0 (t0 - l) n tol tol_ok (root _)) as (x & _ & P & A & B).
  rewrite P. replace (- l) with (t0 - l - t0) by ring. rewrite UX, UV, A, B. reflexivity.
Qed.
Lemma motion_slow : forall a b sa sb, propagate s t0 (t0 - a) mu n tol = Some sa -> propagate s t0 (t0 - b) mu n tol = Some sb ->
  distance (pos sa) (pos sb) <= beta * light * Rabs (a - b).
Proof.
  intros a b sa sb A B. rewrite prop_motion in A, B. injection A as <-. injection B as <-. rewrite !pos_row.
  replace (Rabs (a - b)) with (Rabs (- a - - b)) by (rewrite <- Rabs_Ropp; f_equal; ring).
  apply (displacement X V); [|exact speed]. intro t. apply law.
Qed.
End Newton.

(* ---- stellar aberration ---- *)
Lemma norm_scale : forall k u, norm (scale k u) = Rabs k * norm u.
Proof.
  intros k u. apply norm_of; [apply Rmult_le_pos; [apply Rabs_pos|apply norm_nonneg]|].
  rewrite Rpow_mult_distr, norm_sq, <- Rsqr_pow2, <- Rsqr_abs. unfold Rsqr. destruct u as [[? ?] ?]. unfold scale, dot. ring.
Qed.
Lemma lin_form : forall u g b d, 1 + d <> 0 -> 1 + b <> 0 ->
  scale (/ (1 + d)) (vplus (vplus (scale b u) g) (scale (d / (1 + b)) g)) = lin (b / (1 + d)) ((1 + d / (1 + b)) / (1 + d)) u g.
Proof.
  intros [[u1 u2] u3] [[g1 g2] g3] b d D B. unfold lin, vplus, scale. f_equal; [f_equal|]; field; split; assumption.
Qed.
Section Aberr.
Variables (u g : vec).
Hypotheses (unit : norm u = 1) (slow : norm g < 1).
Let b := sqrt (1 - norm g ^ 2).
Let d := dot u g.
Lemma b_sq : b * b = 1 - dot g g.
Proof. unfold b. pose proof (norm_nonneg g). rewrite sqrt_sqrt by nra. rewrite norm_sq. reflexivity. Qed.
Lemma b_pos : 0 < b.
Proof. unfold b. apply sqrt_lt_R0. pose proof (norm_nonneg g). nra. Qed.
Lemma d_small : Rabs d <= norm g.
Proof. pose proof (cauchy u g) as C. rewrite unit in C. unfold d. lra. Qed.
Lemma d_one : 0 < 1 + d.
Proof. pose proof d_small as D. apply Rabs_le_between in D. lra. Qed.
Definition tilt : vec := scale (/ (1 + d)) (vplus (vplus (scale b u) g) (scale (d / (1 + b)) g)).
Lemma tilt_lin : tilt = lin (b / (1 + d)) ((1 + d / (1 + b)) / (1 + d)) u g.
Proof.
  pose proof d_one as D. pose proof b_pos as B. unfold tilt. apply lin_form; lra.
Qed.
Lemma uu : dot u u = 1.
Proof. rewrite <- norm_sq, unit. ring. Qed.
Lemma tilt_norm : norm tilt = 1.
Proof.
  pose proof d_one as D. pose proof b_pos as B. pose proof b_sq as S. apply norm_of; [lra|]. rewrite tilt_lin, dot_lin. fold d. rewrite uu.
  assert (G : dot g g = 1 - b * b) by lra. rewrite G. field. lra.
Qed.
Lemma tilt_dot : dot tilt g = (d + dot g g) / (1 + d).
Proof.
  pose proof d_one as D. pose proof b_pos as B. pose proof b_sq as S.
  assert (E : dot tilt g = b / (1 + d) * d + (1 + d / (1 + b)) / (1 + d) * dot g g).
  { rewrite tilt_lin. unfold d. destruct u as [[? ?] ?], g as [[? ?] ?]. unfold lin, vplus, scale, dot. ring. }
  rewrite E. assert (G : dot g g = 1 - b * b) by lra. rewrite G. field. lra.
Qed.
Lemma tilt_towards : d <= dot tilt g.
Proof.
  rewrite tilt_dot. pose proof d_one as D. apply Rmult_le_reg_r with (1 + d); [exact D|]. unfold Rdiv. rewrite Rmult_assoc, Rinv_l, Rmult_1_r by lra.
  pose proof d_small as S. rewrite <- norm_sq. pose proof (norm_nonneg g). apply Rabs_le_between in S. nra.
Qed.
End Aberr.
Lemma tilt_back : forall u g, norm u = 1 -> norm g < 1 -> tilt (tilt u g) (scale (-1) g) = u.
Proof.
  intros u g U G. pose proof (tilt_norm u g U G) as W. assert (N : norm (scale (-1) g) = norm g) by (rewrite norm_scale, Rabs_left by lra; ring).
  assert (G' : norm (scale (-1) g) < 1) by (rewrite N; exact G).
  rewrite (tilt_lin _ _ W G'). pose proof (d_one u g U G) as D. pose proof (b_pos g G) as B. pose proof (b_sq g G) as S.
  rewrite N.
  assert (DD : dot (tilt u g) (scale (-1) g) = - ((dot u g + dot g g) / (1 + dot u g))).
  { rewrite <- (tilt_dot u g U G). destruct (tilt u g) as [[? ?] ?], g as [[? ?] ?]. unfold scale, dot. ring. }
  rewrite DD, (tilt_lin u g U G). set (b := sqrt (1 - norm g ^ 2)) in *. set (d := dot u g) in *.
  assert (GG : dot g g = 1 - b * b) by lra. rewrite GG.
  assert (Q : 1 + - ((d + (1 - b * b)) / (1 + d)) = b * b / (1 + d)) by (field; lra). rewrite Q.
  assert (NZ : b * b <> 0) by nra.
  unfold lin, vplus, scale. destruct u as [[u1 u2] u3], g as [[g1 g2] g3]. f_equal; [f_equal|]; field; repeat split; nra.
Qed.
Lemma aberrate_tilt : forall s obs, norm (vel obs) < light -> pos s <> pos obs ->
  let topo := vminus (pos s) (pos obs) in
  norm (scale (/ norm topo) topo) = 1 /\ norm (scale (/ light) (vel obs)) < 1 /\
  aberrate s obs = Some (scale (norm topo) (tilt (scale (/ norm topo) topo) (scale (/ light) (vel obs)))).
Proof.
  intros s obs H N topo. pose proof light_pos as LP.
  assert (T : 0 < norm topo).
  { pose proof (norm_nonneg topo) as P. destruct (Req_dec (norm topo) 0) as [Z|Z]; [|lra]. exfalso. apply N.
    pose proof (norm_sq topo) as Q. rewrite Z in Q. unfold topo, vminus in Q. destruct (pos s) as [[a b] c], (pos obs) as [[x y] z]. unfold vplus, scale, dot in Q.
    pose proof (Rle_0_sqr (a - x)) as P1. pose proof (Rle_0_sqr (b - y)) as P2. pose proof (Rle_0_sqr (c - z)) as P3.
    assert (Q' : Rsqr (a - x) + Rsqr (b - y) + Rsqr (c - z) = 0) by (unfold Rsqr; lra).
    assert (A1 : a - x = 0) by (apply Rsqr_0_uniq; lra). assert (A2 : b - y = 0) by (apply Rsqr_0_uniq; lra). assert (A3 : c - z = 0) by (apply Rsqr_0_uniq; lra).
    f_equal; [f_equal|]; lra. }
  assert (U : norm (scale (/ norm topo) topo) = 1) by (rewrite norm_scale, Rabs_right by (left; apply Rinv_0_lt_compat; exact T); field; lra).
  assert (G : norm (scale (/ light) (vel obs)) < 1).
  { rewrite norm_scale, Rabs_right by (left; apply Rinv_0_lt_compat; exact LP). apply Rmult_lt_reg_l with light; [exact LP|]. rewrite <- Rmult_assoc, Rinv_r, Rmult_1_l by lra. lra. }
  split; [exact U|]. split; [exact G|]. unfold aberrate. fold (vminus (pos s) (pos obs)). fold topo.
  destruct (Rlt_dec 1 _) as [X|_]; [exfalso; lra|]. destruct (Req_EM_T (norm topo) 0) as [X|_]; [exfalso; lra|].
  pose proof (d_one _ _ U G) as D. destruct (Req_EM_T _ 0) as [X|_]; [exfalso; lra|]. reflexivity.
Qed.

(* ---- the circular orbit ---- *)
Lemma circ_motion : forall X V t, two_body 1 X V -> X 0 = pos circ -> V 0 = vel circ -> norm (X t) = 1 /\ norm (V t) = 1.
Proof.
  intros X V t L A B. destruct (motion_unique circ 1 Rlt_0_1 circ_free X V L A B t) as [-> ->]. unfold motion_x, motion_v.
  set (x := chi_at _ _ _ _ _ _). destruct circ_norms as (N1 & N2 & N3).
  assert (D : alpha (pos circ) (vel circ) 1 = 1) by (unfold alpha; rewrite N1, N2; field).
  assert (RH : rho (pos circ) (vel circ) 1 x = 1) by (unfold rho; rewrite N1, N3, D, sqrt_1, u0_u2; field).
  split; [rewrite (ux_norm (pos circ) (vel circ) 1 Rlt_0_1 circ_free); exact RH|].
  apply norm_of; [lra|]. rewrite (uv_norm2 (pos circ) (vel circ) 1 Rlt_0_1 circ_free), RH, D. field.
Qed.
Lemma circ_prop : forall t0 l n tol, 0 <= tol < 10 ^ 15 -> exists s', propagate circ t0 (t0 - l) 1 n tol = Some s' /\ norm (pos s') = 1.
Proof.
  intros t0 l n tol T. destruct (motion_start (pos circ) (vel circ) 1 Rlt_0_1 circ_free) as [A B].
  pose proof (motion_two_body (pos circ) (vel circ) 1 Rlt_0_1 circ_free) as L.
  eexists. split; [apply (prop_motion circ t0 1 n tol _ _ Rlt_0_1 circ_free L A B (proj2 T)); intro dt; apply circ_exact; exact T|].
  rewrite pos_row. exact (proj1 (circ_motion _ _ _ L A B)).
Qed.
Lemma distance_0 : forall u, distance u (0, 0, 0) = norm u.
Proof. intros [[a b] c]. unfold distance, norm, dot, vx, vy, vz. cbn [fst snd]. f_equal. ring. Qed.
Lemma light_time_last : forall t0 n tol lt_tol, 0 <= tol < 10 ^ 15 -> 0 <= lt_tol < 10 ^ 29 ->
  exists s', add_light_time circ t0 (0, 0, 0) lt_tol 1 n tol 2 = (Some s', None) /\
    (forall k, add_light_time circ t0 (0, 0, 0) lt_tol 1 n tol (3 + k) = (Some s', Some (1 / light))) /\
    distance (pos s') (0, 0, 0) / light = 1 / light.
Proof.
  intros t0 n tol lt_tol T [L0 L1]. pose proof light_big as LB.
  assert (P : 1 < 10 ^ 29) by (apply Rlt_pow_R1; [lra|lia]). assert (P30 : 10 ^ 30 = 10 * 10 ^ 29) by (rewrite tech_pow_Rmult; reflexivity).
  destruct (circ_prop t0 (1 / light) n tol T) as (s' & E & N). exists s'.
  assert (EE : forall t, propagate circ t (t - 1 / light) 1 n tol = Some s') by (intro t; rewrite (propagate_dt circ t0 (1 / light)); exact E).
  assert (I : 0 < 1 / light < 1).
  { split; [apply Rdiv_lt_0_compat; lra|]. apply Rmult_lt_reg_r with light; [lra|]. unfold Rdiv. rewrite Rmult_assoc, Rinv_l by lra. lra. }
  destruct circ_norms as (N1 & _). unfold add_light_time.
  assert (G2 : Rabs (1 / light - 10 ^ 30) > lt_tol) by (rewrite Rabs_left by lra; lra).
  split; [|split].
  - cbn [lt_loop]. destruct (Rlt_dec lt_tol (10 ^ 30)) as [_|X]; [|exfalso; lra]. rewrite distance_0, N1, EE.
    destruct (Rlt_dec lt_tol _) as [_|X]; [|exfalso; lra]. rewrite distance_0, N, EE. reflexivity.
  - intro k. cbn [Nat.add lt_loop]. destruct (Rlt_dec lt_tol (10 ^ 30)) as [_|X]; [|exfalso; lra]. rewrite distance_0, N1, EE.
    destruct (Rlt_dec lt_tol (Rabs (1 / light - 10 ^ 30))) as [_|X]; [|exfalso; lra]. rewrite distance_0, N, EE.
    rewrite Rminus_eq_0, Rabs_R0. destruct (Rlt_dec lt_tol 0) as [X|_]; [exfalso; lra|]. reflexivity.
  - rewrite distance_0, N. reflexivity.
Qed.
