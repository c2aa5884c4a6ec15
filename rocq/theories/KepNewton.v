From Coq Require Import Reals Lra Lia ZArith.
From Coquelicot Require Import Coquelicot.
From Verif Require Import SphModel SphSpec SphProofs KepModel KepSpec KepProofs.
Open Scope R_scope.

(* ---- the loop ---- *)
Lemma newton_last : forall ratio tol fuel E q E' q',
  newton ratio tol fuel E q = (E', q') -> Rabs q' <= tol -> tol < Rabs q ->
  exists Ep, q' = ratio Ep /\ E' = Ep - q'.
Proof.
  intros ratio tol fuel. induction fuel as [|k IH]; intros E q E' q' H Q T; cbn [newton] in H.
  - injection H as <- <-. lra.
  - destruct (Rlt_dec tol (Rabs q)) as [L|L]; [|lra].
    destruct (Rlt_dec tol (Rabs (ratio E))) as [L2|L2].
    + eapply IH; eassumption.
    + assert (X : newton ratio tol k (E - ratio E) (ratio E) = (E - ratio E, ratio E)).
      { destruct k; cbn [newton]; [reflexivity|]. destruct (Rlt_dec tol (Rabs (ratio E))); [lra|reflexivity]. }
      rewrite X in H. injection H as <- <-. exists E. split; reflexivity.
Qed.
(* a property kept by every step holds of the result *)
Lemma newton_inv : forall (P : R -> Prop) ratio tol, (forall E, P E -> P (E - ratio E)) ->
  forall fuel E q, P E -> P (fst (newton ratio tol fuel E q)).
Proof.
  intros P ratio tol H fuel. induction fuel as [|k IH]; intros E q HP; cbn [newton]; [exact HP|].
  destruct (Rlt_dec tol (Rabs q)); [apply IH, H, HP|exact HP].
Qed.
Lemma start_pos : forall tol, tol < 10 ^ 15 -> tol < Rabs (10 ^ 15).
Proof. intros. rewrite Rabs_right; [assumption|]. assert (0 < 10 ^ 15) by (apply pow_lt; lra). lra. Qed.

(* ---- second-order remainders ---- *)
Lemma abs_sin_le : forall x, Rabs (sin x) <= Rabs x.
Proof.
  intros x. assert (K : forall y, 0 <= y -> sin y <= y /\ - y <= sin y).
  { intros y Y. destruct (Req_dec y 0) as [->|N]; [rewrite sin_0; lra|].
    pose proof (sin_lt_x y). pose proof (SIN_bound y).
    split; [lra|]. destruct (Rle_dec y 3).
    - pose proof PI_RGT_0. pose proof PI2_3_2. assert (0 <= sin y) by (apply sin_ge_0; lra). lra.
    - lra. }
  destruct (Rle_dec 0 x) as [H|H].
  - destruct (K x H). rewrite (Rabs_right x) by lra. apply Rabs_le. lra.
  - destruct (K (- x)) as [A B]; [lra|]. rewrite sin_neg in *. rewrite (Rabs_left x) by lra. apply Rabs_le. lra.
Qed.
(* |sin a - sin b| <= |a - b| *)
Lemma sin_lipschitz : forall a b, Rabs (sin a - sin b) <= Rabs (a - b).
Proof.
  intros a b. rewrite form4. rewrite !Rabs_mult. rewrite (Rabs_right 2) by lra.
  pose proof (abs_sin_le ((a - b) / 2)). pose proof (COS_bound ((a + b) / 2)) as C.
  assert (Rabs (cos ((a + b) / 2)) <= 1) by (apply Rabs_le; lra).
  assert (Rabs ((a - b) / 2) = Rabs (a - b) / 2) by (unfold Rdiv; rewrite Rabs_mult, (Rabs_right (/ 2)) by lra; reflexivity).
  pose proof (Rabs_pos (cos ((a + b) / 2))). pose proof (Rabs_pos (sin ((a - b) / 2))). nra.
Qed.
Lemma cos_lipschitz : forall a b, Rabs (cos a - cos b) <= Rabs (a - b).
Proof.
  intros a b. rewrite form2. rewrite !Rabs_mult. rewrite (Rabs_left (-2)) by lra.
  pose proof (abs_sin_le ((a - b) / 2)). pose proof (SIN_bound ((a + b) / 2)) as C.
  assert (Rabs (sin ((a + b) / 2)) <= 1) by (apply Rabs_le; lra).
  assert (Rabs ((a - b) / 2) = Rabs (a - b) / 2) by (unfold Rdiv; rewrite Rabs_mult, (Rabs_right (/ 2)) by lra; reflexivity).
  pose proof (Rabs_pos (sin ((a + b) / 2))). pose proof (Rabs_pos (sin ((a - b) / 2))). nra.
Qed.
(* t^2/2 + cos(x+t) - cos x + t sin x >= 0 etc. by monotonicity *)
Lemma mono_from_zero : forall f f' : R -> R, (forall x, 0 <= x -> derivable_pt_lim f x (f' x)) ->
  (forall x, 0 <= x -> 0 <= f' x) -> f 0 = 0 -> forall x, 0 <= x -> 0 <= f x.
Proof.
  intros f f' D P Z x X. destruct (Req_dec x 0) as [->|N]; [lra|].
  destruct (MVT_cor2 f f' 0 x) as (c & E & C); [lra|intros c C; apply D; lra|].
  pose proof (P c). rewrite Z in E. nra.
Qed.
Lemma sin_rem_pos : forall x t, 0 <= t -> Rabs (sin (x + t) - sin x - t * cos x) <= t ^ 2 / 2.
Proof.
  intros x t T.
  assert (A : forall sg, sg = 1 \/ sg = -1 -> 0 <= t ^ 2 / 2 - sg * (sin (x + t) - sin x - t * cos x)).
  { intros sg S. apply (mono_from_zero (fun t => t ^ 2 / 2 - sg * (sin (x + t) - sin x - t * cos x))
                          (fun t => t - sg * (cos (x + t) - cos x))); [| | |exact T].
    - intros y _. apply is_derive_Reals. auto_derive; [exact I|]. field.
    - intros y Y. pose proof (cos_lipschitz (x + y) x) as L. replace (x + y - x) with y in L by ring.
      rewrite (Rabs_right y) in L by lra. apply Rabs_def2 in L || idtac.
      assert (- y <= cos (x + y) - cos x <= y).
      { unfold Rabs in L. destruct (Rcase_abs (cos (x + y) - cos x)); lra. }
      destruct S as [-> | ->]; lra.
    - rewrite Rplus_0_r. field. }
  pose proof (A 1 (or_introl eq_refl)). pose proof (A (-1) (or_intror eq_refl)). apply Rabs_le. lra.
Qed.
Lemma sin_rem : forall x t, Rabs (sin (x + t) - sin x - t * cos x) <= t ^ 2 / 2.
Proof.
  intros x t. destruct (Rle_dec 0 t) as [T|T]; [apply sin_rem_pos; exact T|].
  pose proof (sin_rem_pos (- x) (- t)) as H. replace (- x + - t) with (- (x + t)) in H by ring.
  rewrite !sin_neg, cos_neg in H. rewrite <- Rabs_Ropp.
  replace (- (sin (x + t) - sin x - t * cos x)) with (- sin (x + t) - - sin x - - t * cos x) by ring.
  replace (t ^ 2) with ((- t) ^ 2) by ring. apply H. lra.
Qed.

(* ---- Kepler's equation for ellipses ---- *)
Section EllipseLoop.
Variable e : R.
Hypothesis e_range : 0 <= e < 1.
Lemma residual : forall M E, let q := elliptical_ratio e M E in
  Rabs (E - q - e * sin (E - q) - M) <= e * (q ^ 2 / 2).
Proof.
  intros M E q. assert (D : 0 < 1 - e * cos E) by (apply den_E; exact e_range).
  assert (Q : q * (1 - e * cos E) = E - e * sin E - M) by (unfold q, elliptical_ratio; field; lra).
  replace (E - q - e * sin (E - q) - M) with (- (e * (sin (E + - q) - sin E - - q * cos E))).
  - rewrite Rabs_Ropp, Rabs_mult, (Rabs_right e) by lra. apply Rmult_le_compat_l; [lra|].
    replace (q ^ 2) with ((- q) ^ 2) by ring. apply sin_rem.
  - unfold Rminus in *. replace (E + - q + - (e * sin (E + - q)) + - M) with ((E + - (e * sin E) + - M) - q + e * sin E - e * sin (E + - q)) by ring.
    rewrite <- Q. ring.
Qed.
Lemma kepler_inverse : forall E E', (1 - e) * Rabs (E' - E) <= Rabs ((E' - e * sin E') - (E - e * sin E)).
Proof.
  intros E E'. pose proof (sin_lipschitz E' E) as L.
  replace ((E' - e * sin E') - (E - e * sin E)) with ((E' - E) - e * (sin E' - sin E)) by ring.
  pose proof (Rabs_triang_inv (E' - E) (e * (sin E' - sin E))) as T. rewrite Rabs_mult, (Rabs_right e) in T by lra.
  pose proof (Rabs_pos (E' - E)). nra.
Qed.
Lemma ellipse_converged : forall M max_iter tol, 0 <= tol < 10 ^ 15 -> converged e M max_iter tol ->
  let E := fst (kepler_loop e M max_iter tol) in Rabs (E - e * sin E - M) <= e * (tol ^ 2 / 2).
Proof.
  intros M n tol T C. unfold converged, kepler_loop in *. destruct (Rlt_dec e 1); [|lra].
  destruct (newton (elliptical_ratio e M) tol (S n) M (10 ^ 15)) as [E q] eqn:X. cbn [fst snd] in *.
  destruct (newton_last _ _ _ _ _ _ _ X C (start_pos tol (proj2 T))) as (Ep & Q & ->). rewrite Q.
  eapply Rle_trans; [apply residual|]. rewrite <- Q. apply Rmult_le_compat_l; [lra|].
  assert (q ^ 2 <= tol ^ 2). { rewrite <- (pow2_abs q). pose proof (Rabs_pos q). nra. } lra.
Qed.
(* one step from within d of the solution *)
Lemma step_error : forall M Es E, Es - e * sin Es = M ->
  (1 - e) * Rabs (E - elliptical_ratio e M E - Es) <= e * ((E - Es) ^ 2 / 2).
Proof.
  intros M Es E H. assert (D : 1 - e <= 1 - e * cos E) by (pose proof (COS_bound E); nra).
  assert (P : 0 < 1 - e * cos E) by lra.
  assert (X : (1 - e * cos E) * (E - elliptical_ratio e M E - Es) = e * - (sin (E + (Es - E)) - sin E - (Es - E) * cos E)).
  { unfold elliptical_ratio. rewrite <- H. replace (E + (Es - E)) with Es by ring. field. lra. }
  apply (f_equal Rabs) in X. rewrite !Rabs_mult, Rabs_Ropp, (Rabs_right e), (Rabs_right (1 - e * cos E)) in X by lra.
  pose proof (sin_rem E (Es - E)) as S. replace ((Es - E) ^ 2) with ((E - Es) ^ 2) in S by ring.
  set (w := Rabs (E - elliptical_ratio e M E - Es)) in *. assert (0 <= w) by apply Rabs_pos.
  assert (e * Rabs (sin (E + (Es - E)) - sin E - (Es - E) * cos E) <= e * ((E - Es) ^ 2 / 2)) by (apply Rmult_le_compat_l; lra).
  nra.
Qed.
End EllipseLoop.
(* quadratic convergence for eccentricities up to 7/10 *)
Section Converges.
Variables e M Es tol : R.
Hypothesis e_range : 0 <= e <= 7 / 10.
Hypothesis solution : Es - e * sin Es = M.
Let k := 7 / 6.
Lemma step_contracts : forall c E, 0 <= c <= 1 -> k * Rabs (E - Es) <= c ->
  k * Rabs (E - elliptical_ratio e M E - Es) <= c ^ 2 /\ k * Rabs (elliptical_ratio e M E) <= 2 * c.
Proof.
  intros c E C H. unfold k in *. pose proof (step_error e ltac:(lra) M Es E solution) as S.
  set (w := Rabs (E - elliptical_ratio e M E - Es)) in *. assert (0 <= w) by apply Rabs_pos.
  rewrite <- (pow2_abs (E - Es)) in S. assert (0 <= Rabs (E - Es)) by apply Rabs_pos. set (d := Rabs (E - Es)) in *.
  assert (A : w <= 7 / 6 * d ^ 2). { assert (0 <= d ^ 2) by nra. nra. }
  assert (B : 7 / 6 * w <= c ^ 2). { assert ((7 / 6 * d) ^ 2 <= c ^ 2) by nra. nra. }
  split; [exact B|].
  assert (T : Rabs (elliptical_ratio e M E) <= d + w).
  { replace (elliptical_ratio e M E) with ((E - Es) - (E - elliptical_ratio e M E - Es)) by ring.
    eapply Rle_trans; [apply Rabs_triang|]. rewrite Rabs_Ropp. fold d w. lra. }
  nra.
Qed.
Lemma newton_converges : forall n c E q, 0 <= c <= 1 -> k * Rabs (E - Es) <= c -> 2 * c ^ (2 ^ n) <= k * tol ->
  Rabs (snd (newton (elliptical_ratio e M) tol (S n) E q)) <= tol.
Proof.
  induction n as [|n IH]; intros c E q C H T; cbn [newton]; destruct (Rlt_dec tol (Rabs q)) as [L|L]; try (cbn [snd]; lra).
  - cbn [snd]. destruct (step_contracts c E C H) as [_ B]. cbn in T. rewrite Rmult_1_r in T. unfold k in *. nra.
  - destruct (step_contracts c E C H) as [A _]. apply (IH (c ^ 2)).
    + split; [nra|nra].
    + exact A.
    + rewrite <- pow_mult. replace (2 * 2 ^ n)%nat with (2 ^ S n)%nat by (cbn; lia). exact T.
Qed.
End Converges.
Lemma pow_anti : forall c m n, 0 <= c <= 1 -> (m <= n)%nat -> c ^ n <= c ^ m.
Proof.
  intros c m n C L. induction L as [|n L IH]; [lra|]. cbn [pow]. assert (0 <= c ^ n) by (apply pow_le; lra). nra.
Qed.
Lemma c_small : (49 / 60) ^ 256 <= 5 / 10 ^ 16.
Proof.
  assert (S : forall x y z n, 0 <= x -> x ^ n <= y -> y * y <= z -> x ^ (n + n) <= z).
  { intros x y z n X Y Z. rewrite pow_add. assert (0 <= x ^ n) by (apply pow_le; exact X). nra. }
  pose proof (S (49 / 60) (817 / 1000) (668 / 1000) 1%nat ltac:(lra) ltac:(lra) ltac:(lra)) as H. cbn [Nat.add] in H.
  pose proof (S (49 / 60) (668 / 1000) (447 / 1000) 2%nat ltac:(lra) H ltac:(lra)) as H4. cbn [Nat.add] in H4.
  pose proof (S (49 / 60) (447 / 1000) (2 / 10) 4%nat ltac:(lra) H4 ltac:(lra)) as H8. cbn [Nat.add] in H8.
  pose proof (S (49 / 60) (2 / 10) (4 / 100) 8%nat ltac:(lra) H8 ltac:(lra)) as H16. cbn [Nat.add] in H16.
  pose proof (S (49 / 60) (4 / 100) (16 / 10000) 16%nat ltac:(lra) H16 ltac:(lra)) as H32. cbn [Nat.add] in H32.
  pose proof (S (49 / 60) (16 / 10000) (256 / 100000000) 32%nat ltac:(lra) H32 ltac:(lra)) as H64.
  pose proof (S (49 / 60) (256 / 100000000) (7 / 10 ^ 12) 64%nat ltac:(lra) H64 ltac:(lra)) as H128.
  pose proof (S (49 / 60) (7 / 10 ^ 12) (5 / 10 ^ 16) 128%nat ltac:(lra) H128 ltac:(lra)) as H256. exact H256.
Qed.
Lemma ellipse_converges : forall e nu max_iter tol, 0 <= e <= 7 / 10 -> 0 <= nu < turn -> (8 <= max_iter)%nat ->
  / 10 ^ 15 <= tol -> converged e (elliptical_M nu e) max_iter tol.
Proof.
  intros e nu n tol R N I T. unfold converged, kepler_loop. destruct (Rlt_dec e 1); [|lra].
  destruct (elliptical_M_same e nu) as (k & Hk). set (E0 := elliptical_E nu e) in *.
  set (Es := E0 + IZR k * (2 * PI)).
  assert (SOL : Es - e * sin Es = elliptical_M nu e) by (unfold Es; rewrite sin_turns, Hk; ring).
  apply (newton_converges e (elliptical_M nu e) Es tol R SOL n (49 / 60)).
  - lra.
  - rewrite <- SOL. replace (Es - e * sin Es - Es) with (- (e * sin Es)) by ring. rewrite Rabs_Ropp, Rabs_mult, (Rabs_right e) by lra.
    pose proof (SIN_bound Es). assert (Rabs (sin Es) <= 1) by (apply Rabs_le; lra). pose proof (Rabs_pos (sin Es)). nra.
  - assert (A : (49 / 60) ^ (2 ^ n) <= (49 / 60) ^ (2 ^ 8)) by (apply pow_anti; [lra|apply Nat.pow_le_mono_r; lia]).
    change (2 ^ 8)%nat with 256%nat in A. pose proof c_small. assert (/ 10 ^ 15 = 10 / 10 ^ 16) by (cbn [pow]; field). lra.
Qed.
(* the round trip of a true anomaly *)
Lemma ellipse_round_trip : forall e nu max_iter tol, 0 <= e < 1 -> 0 <= nu < turn -> 0 <= tol < 10 ^ 15 ->
  converged e (elliptical_M nu e) max_iter tol ->
  let nu' := solve_kepler e (elliptical_M nu e) max_iter tol in
  0 <= nu' < turn /\ Rabs (sin ((nu' - nu) / 2)) <= sqrt ((1 + e) / (1 - e)) * (e / (1 - e) * (tol ^ 2 / 4)).
Proof.
  intros e nu n tol R N T C nu'. pose proof (ellipse_converged e R _ _ _ T C) as RES. cbv zeta in RES.
  set (E := fst (kepler_loop e (elliptical_M nu e) n tol)) in *.
  assert (NU : nu' = normalise (elliptical_nu e E)).
  { unfold nu', solve_kepler. destruct (Rlt_dec e 1); [reflexivity|lra]. }
  pose proof (nu_range e E) as NR. destruct (normalise_spec (elliptical_nu e E)) as [RG SA]; [lra|].
  rewrite NU. split; [exact RG|].
  destruct (elliptical_M_same e nu) as (k & Hk). set (E0 := elliptical_E nu e) in *.
  set (Es := E0 + IZR k * (2 * PI)).
  assert (SOL : Es - e * sin Es = elliptical_M nu e) by (unfold Es; rewrite sin_turns, Hk; ring).
  assert (BACK : normalise (elliptical_nu e Es) = nu) by (apply nu_E_nu; [exact R|exists k; reflexivity|exact N]).
  pose proof (nu_range e Es) as NR2. destruct (normalise_spec (elliptical_nu e Es)) as [_ SB]; [lra|]. rewrite BACK in SB.
  assert (AB : Rabs (sin ((normalise (elliptical_nu e E) - nu) / 2)) = Rabs (sin ((elliptical_nu e E - elliptical_nu e Es) / 2))).
  { destruct SA as [a ->]. destruct SB as [b Hb].
    replace ((elliptical_nu e E + IZR a * (2 * PI) - nu) / 2) with ((elliptical_nu e E - elliptical_nu e Es) / 2 + IZR (a - b) * PI) by (rewrite minus_IZR; lra).
    set (x := (elliptical_nu e E - elliptical_nu e Es) / 2). set (m := (a - b)%Z).
    rewrite sin_plus. assert (Z : sin (IZR m * PI) = 0) by (apply sin_eq_0_1; exists m; reflexivity).
    rewrite Z, Rmult_0_r, Rplus_0_r, Rabs_mult.
    assert (O : Rabs (cos (IZR m * PI)) = 1).
    { pose proof (sin2_cos2 (IZR m * PI)) as P. rewrite Z in P. unfold Rsqr in P.
      assert (H : Rabs (cos (IZR m * PI)) ^ 2 = 1) by (rewrite pow2_abs; nra). pose proof (Rabs_pos (cos (IZR m * PI))). nra. }
    rewrite O. ring. }
  rewrite AB. eapply Rle_trans; [apply chord; exact R|]. apply Rmult_le_compat_l; [apply sqrt_pos|].
  eapply Rle_trans; [apply abs_sin_le|]. pose proof (kepler_inverse e R Es E) as K. rewrite SOL in K.
  unfold Rdiv at 1. rewrite Rabs_mult, (Rabs_right (/ 2)) by lra.
  apply (Rmult_le_reg_l (1 - e)); [lra|]. replace ((1 - e) * (e / (1 - e) * (tol ^ 2 / 4))) with (e * (tol ^ 2 / 2) / 2) by (field; lra). lra.
Qed.
(* the round trip of a mean anomaly *)
Lemma mean_round_trip : forall e M max_iter tol, 0 <= e < 1 -> 0 <= tol < 10 ^ 15 -> converged e M max_iter tol ->
  exists M', same_angle (elliptical_M (solve_kepler e M max_iter tol) e) M' /\ Rabs (M' - M) <= e * (tol ^ 2 / 2).
Proof.
  intros e M n tol R T C. pose proof (ellipse_converged e R _ _ _ T C) as RES. cbv zeta in RES.
  set (E := fst (kepler_loop e M n tol)) in *. exists (E - e * sin E). split; [|exact RES].
  apply M_nu_M; [exact R|]. unfold solve_kepler. destruct (Rlt_dec e 1); [|lra]. fold E.
  pose proof (nu_range e E). apply normalise_spec. lra.
Qed.
(* the eccentric anomalies behind the round trip *)
Lemma ellipse_trip_E : forall e nu max_iter tol, 0 <= e < 1 -> 0 <= nu < turn -> 0 <= tol < 10 ^ 15 ->
  converged e (elliptical_M nu e) max_iter tol ->
  exists E E', same_angle nu (elliptical_nu e E) /\
    same_angle (solve_kepler e (elliptical_M nu e) max_iter tol) (elliptical_nu e E') /\
    Rabs (E' - E) <= e / (1 - e) * (tol ^ 2 / 2).
Proof.
  intros e nu n tol R N T C. pose proof (ellipse_converged e R _ _ _ T C) as RES. cbv zeta in RES.
  set (E := fst (kepler_loop e (elliptical_M nu e) n tol)) in *.
  destruct (elliptical_M_same e nu) as (k & Hk). set (E0 := elliptical_E nu e) in *.
  set (Es := E0 + IZR k * (2 * PI)).
  assert (SOL : Es - e * sin Es = elliptical_M nu e) by (unfold Es; rewrite sin_turns, Hk; ring).
  assert (BACK : normalise (elliptical_nu e Es) = nu) by (apply nu_E_nu; [exact R|exists k; reflexivity|exact N]).
  exists Es, E. split; [|split].
  - rewrite <- BACK. pose proof (nu_range e Es). apply normalise_spec. lra.
  - unfold solve_kepler. destruct (Rlt_dec e 1); [|lra]. pose proof (nu_range e E). apply normalise_spec. lra.
  - pose proof (kepler_inverse e R Es E) as K. rewrite SOL in K.
    apply (Rmult_le_reg_l (1 - e)); [lra|]. replace ((1 - e) * (e / (1 - e) * (tol ^ 2 / 2))) with (e * (tol ^ 2 / 2)) by (field; lra). lra.
Qed.
