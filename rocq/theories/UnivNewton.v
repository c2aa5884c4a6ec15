(* The Newton iteration for the universal variable: what its last correction says about the result. *)
From Coq Require Import Reals Lra Psatz Nsatz.
From Coquelicot Require Import Coquelicot.
From Verif Require Import SphModel SphProofs KepModel KepSpec KepHyp KepElem UnivModel UnivSpec UnivFun UnivOrbit UnivTime UnivUnique.
Open Scope R_scope.

Lemma loop_last : forall r v dt mu tol fuel chi c q chi' c' q',
  chi_loop r v dt mu tol fuel chi c q = Some (chi', c', q') ->
  (chi', c', q') = (chi, c, q) \/
  exists x, calc_stumpff (alpha r v mu * x ^ 2) = Some c' /\ chi_fp r v mu x c' <> 0 /\
    q' = chi_f r v dt mu x c' / chi_fp r v mu x c' /\ chi' = x - q'.
Proof.
  intros r v dt mu tol fuel. induction fuel as [|k IH]; intros chi c q chi' c' q' H; cbn [chi_loop] in H.
  - left. congruence.
  - destruct (Rlt_dec tol (Rabs q)) as [_|_]; [|left; congruence].
    destruct (calc_stumpff _) as [c1|] eqn:E; [|discriminate]. cbn [obind] in H. unfold odiv in H.
    destruct (Req_EM_T _ 0) as [|N]; [discriminate|]. cbn [obind] in H.
    destruct (IH _ _ _ _ _ _ H) as [A|A]; [|right; exact A]. right. exists chi.
    assert (B : chi' = chi - chi_f r v dt mu chi c1 / chi_fp r v mu chi c1 /\ c' = c1 /\ q' = chi_f r v dt mu chi c1 / chi_fp r v mu chi c1) by (repeat split; congruence).
    destruct B as (B1 & B2 & B3). subst c1. rewrite B3. repeat split; assumption.
Qed.
Lemma big_15 : Rabs (10 ^ 15) = 10 ^ 15.
Proof. apply Rabs_right. apply Rle_ge, pow_le. lra. Qed.
Lemma chi_last : forall r v dt mu max_iter tol chi c q, tol < 10 ^ 15 -> calc_chi r v dt mu max_iter tol = Some (chi, c, q) ->
  exists x, calc_stumpff (alpha r v mu * x ^ 2) = Some c /\ chi_fp r v mu x c <> 0 /\
    q = chi_f r v dt mu x c / chi_fp r v mu x c /\ chi = x - q.
Proof.
  intros r v dt mu n tol chi c q T H. unfold calc_chi in H. destruct (Req_EM_T (norm r) 0) as [|N]; [discriminate|].
  cbn [chi_loop] in H. rewrite big_15 in H. destruct (Rlt_dec tol (10 ^ 15)) as [_|C]; [|contradiction].
  destruct (calc_stumpff _) as [c1|] eqn:E; [|discriminate]. cbn [obind] in H. unfold odiv in H.
  destruct (Req_EM_T _ 0) as [|N1]; [discriminate|]. cbn [obind] in H.
  destruct (loop_last _ _ _ _ _ _ _ _ _ _ _ _ H) as [A|A]; [|exact A].
  exists (sqrt mu * Rabs (alpha r v mu) * dt). set (x := sqrt mu * Rabs (alpha r v mu) * dt) in *.
  assert (B : chi = x - chi_f r v dt mu x c1 / chi_fp r v mu x c1 /\ c = c1 /\ q = chi_f r v dt mu x c1 / chi_fp r v mu x c1) by (repeat split; congruence).
  destruct B as (B1 & B2 & B3). subst c1. rewrite B3. repeat split; assumption.
Qed.

Section Run.
Variables (r v : vec) (mu dt : R).
Hypotheses (mu_pos : 0 < mu) (free : cross r v <> (0, 0, 0)).
Let al := alpha r v mu.
Let m := sqrt mu.
Let K := kf r v mu.
Let P := rho r v mu.
Let L := slope r v mu.
Let xs := chi_at r v mu mu_pos free dt.

Lemma L_nonneg : 0 <= L.
Proof. apply sqrt_pos. Qed.
Lemma code_f : forall x c, calc_stumpff (al * x ^ 2) = Some c ->
  chi_f r v dt mu x c = K x - K xs /\ chi_fp r v mu x c = P x.
Proof.
  intros x c H. destruct (stumpff_u al x c H) as [A B]. pose proof (r0_pos r v free) as R0. pose proof (m_pos mu mu_pos) as M.
  unfold chi_f, chi_fp. fold al m. replace (norm r * (dot r v / norm r)) with (dot r v) by (field; lra). split.
  - unfold xs. unfold K at 2. rewrite chi_at_eq. unfold K. rewrite <- kf_code. fold al m. rewrite <- A, <- B. ring.
  - unfold P, rho. fold al m. rewrite u0_u2, u1_u3, <- A, <- B. ring.
Qed.

(* ---- the last iterate is close to the root ---- *)
Lemma P_log : forall x y, P x * exp (- (L * Rabs (y - x))) <= P y.
Proof.
  assert (ex : forall k (u : R), is_derive (fun t => exp (k * t)) u (k * exp (k * u))).
  { intros k u. auto_derive; [exact I|]. ring. }
  intros x y. pose proof (rho_pos r v mu mu_pos free) as PP. fold P in PP. pose proof (d_rho r v mu) as DP. fold P in DP.
  pose proof (sl_bound r v mu mu_pos free) as SB. fold P L in SB.
  destruct (Rle_lt_dec x y) as [G|G].
  - rewrite Rabs_right by lra.
    pose proof (grows (fun t => P t * exp (L * t)) (fun t => sl r v mu t * exp (L * t) + P t * (L * exp (L * t))) 0) as Mo.
    assert (A : 0 * (y - x) <= P y * exp (L * y) - P x * exp (L * x)).
    { apply Mo; [| |exact G].
      - intro u. apply (d_mult P (fun t => exp (L * t))); [apply DP|apply ex].
      - intro u. pose proof (SB u) as S. pose proof (Rle_abs (- sl r v mu u)) as S'. rewrite Rabs_Ropp in S'. pose proof (exp_pos (L * u)). nra. }
    replace (- (L * (y - x))) with (L * x + - (L * y)) by ring. rewrite exp_plus.
    apply Rmult_le_reg_r with (exp (L * y)); [apply exp_pos|]. rewrite !Rmult_assoc, <- exp_plus, Rplus_opp_l, exp_0. lra.
  - rewrite Rabs_left by lra.
    pose proof (grows (fun t => - (P t * exp (- L * t))) (fun t => - (sl r v mu t * exp (- L * t) + P t * (- L * exp (- L * t)))) 0) as Mo.
    assert (A : 0 * (x - y) <= - (P x * exp (- L * x)) - - (P y * exp (- L * y))).
    { apply Mo; [| |lra].
      - intro u. apply (d_ext (fun t => (-1) * (P t * exp (- L * t))) _ u ((-1) * (sl r v mu u * exp (- L * u) + P u * (- L * exp (- L * u))))); [intro; ring|ring|].
        apply d_scal. apply (d_mult P (fun t => exp (- L * t))); [apply DP|apply ex].
      - intro u. pose proof (SB u) as S. pose proof (Rle_abs (sl r v mu u)) as S'. pose proof (exp_pos (- L * u)). nra. }
    replace (- (L * - (y - x))) with (- L * x + L * y) by ring. rewrite exp_plus.
    apply Rmult_le_reg_r with (exp (- L * y)); [apply exp_pos|]. rewrite !Rmult_assoc, <- exp_plus.
    replace (L * y + - L * y) with 0 by ring. rewrite exp_0. lra.
Qed.
Lemma close : forall x q tol, 0 < tol -> L * tol < 1 / 4 -> Rabs q <= tol -> q * P x = K x - K xs -> Rabs (x - xs) <= 2 * tol.
Proof.
  intros x q tol T LT Q E. destruct (Rle_lt_dec (Rabs (x - xs)) (2 * tol)) as [|B]; [assumption|exfalso].
  pose proof (rho_pos r v mu mu_pos free) as PP. fold P in PP. pose proof (d_kf r v mu) as DK. fold P K in DK.
  pose proof (K_grows r v mu mu_pos free) as KG. fold K in KG. pose proof (low_pos r v mu mu_pos free) as LP. pose proof L_nonneg as LN.
  assert (near : forall c, Rabs (c - x) <= 2 * tol -> P x * / 2 < P c).
  { intros c C. pose proof (P_log x c) as PL. apply Rlt_le_trans with (2 := PL). apply Rmult_lt_compat_l; [apply PP|].
    pose proof (exp_ineq1_le (- (L * Rabs (c - x)))) as EI. assert (L * Rabs (c - x) <= L * (2 * tol)) by (apply Rmult_le_compat_l; assumption). lra. }
  assert (QA : Rabs (K x - K xs) <= tol * P x).
  { rewrite <- E, Rabs_mult, (Rabs_right (P x)) by (specialize (PP x); lra). apply Rmult_le_compat_r; [left; apply PP|exact Q]. }
  pose proof (Rle_abs (K x - K xs)) as A1. pose proof (Rle_abs (- (K x - K xs))) as A2. rewrite Rabs_Ropp in A2.
  destruct (Rle_lt_dec x xs) as [G|G].
  - rewrite Rabs_left1 in B by lra.
    destruct (MVT_cor2 K P x (x + 2 * tol) ltac:(lra)) as (c & Ec & Bc); [intros; apply d_lim, DK|].
    pose proof (KG (x + 2 * tol) xs ltac:(lra)) as M. pose proof (near c) as Nc. rewrite Rabs_right in Nc by lra. specialize (Nc ltac:(lra)).
    assert (0 <= low r v mu * (xs - (x + 2 * tol))) by (apply Rmult_le_pos; lra). nra.
  - rewrite Rabs_right in B by lra.
    destruct (MVT_cor2 K P (x - 2 * tol) x ltac:(lra)) as (c & Ec & Bc); [intros; apply d_lim, DK|].
    pose proof (KG xs (x - 2 * tol) ltac:(lra)) as M. pose proof (near c) as Nc. rewrite Rabs_left in Nc by lra. specialize (Nc ltac:(lra)).
    assert (0 <= low r v mu * (x - 2 * tol - xs)) by (apply Rmult_le_pos; lra). nra.
Qed.

(* ---- limits as the last correction vanishes ---- *)
Definition small (A : R * R -> Prop) : Prop :=
  exists d, 0 < d /\ forall x q, Rabs q <= d -> q * P x = K x - K xs -> A (x, q).
Lemma small_filter : Filter small.
Proof.
  constructor.
  - exists 1. split; [lra|]. intros. exact I.
  - intros A B (d & D & HA) (e & E & HB). exists (Rmin d e). split; [apply Rmin_glb_lt; assumption|].
    intros x q Q EQ. split; [apply HA|apply HB]; try exact EQ; eapply Rle_trans; [exact Q|apply Rmin_l|exact Q|apply Rmin_r].
  - intros A B HAB (d & D & HA). exists d. split; [exact D|]. intros x q Q EQ. apply HAB, HA; assumption.
Qed.
Definition tends (f : R * R -> R) (l : R) : Prop := filterlim f small (locally l).
Lemma tends_iff : forall f l, tends f l <-> forall eps, 0 < eps -> small (fun a => Rabs (f a - l) < eps).
Proof.
  intros f l. unfold tends. pose proof small_filter as SF. rewrite filterlim_locally. split.
  - intros H eps E. exact (H (mkposreal eps E)).
  - intros H eps. exact (H eps (cond_pos eps)).
Qed.
Lemma t_const : forall k, tends (fun _ => k) k.
Proof. intro k. apply tends_iff. intros eps E. exists 1. split; [lra|]. intros. rewrite Rminus_eq_0, Rabs_R0. exact E. Qed.
Lemma t_plus : forall f g a b, tends f a -> tends g b -> tends (fun z => f z + g z) (a + b).
Proof. intros f g a b A B. unfold tends in *. pose proof small_filter. eapply filterlim_comp_2; [exact A|exact B|]. apply (filterlim_plus a b). Qed.
Lemma t_mult : forall f g a b, tends f a -> tends g b -> tends (fun z => f z * g z) (a * b).
Proof. intros f g a b A B. unfold tends in *. pose proof small_filter. eapply filterlim_comp_2; [exact A|exact B|]. apply (filterlim_mult a b). Qed.
Lemma t_cont : forall (h : R -> R) f a, continuity_pt h a -> tends f a -> tends (fun z => h (f z)) (h a).
Proof. intros h f a C A. unfold tends in *. eapply filterlim_comp; [exact A|]. apply continuity_pt_filterlim. exact C. Qed.
Lemma t_minus : forall f g a b, tends f a -> tends g b -> tends (fun z => f z - g z) (a - b).
Proof. intros f g a b A B. unfold Rminus. apply t_plus; [exact A|]. apply (t_cont Ropp); [|exact B]. apply continuity_pt_opp, derivable_continuous_pt, derivable_pt_id. Qed.
Lemma t_inv : forall f a, a <> 0 -> tends f a -> tends (fun z => / f z) (/ a).
Proof. intros f a N A. apply (t_cont Rinv); [|exact A]. apply (continuity_pt_inv (fun x => x)); [|exact N]. apply derivable_continuous_pt, derivable_pt_id. Qed.
Lemma t_eq : forall f a b, tends f a -> a = b -> tends f b.
Proof. intros f a b A <-. exact A. Qed.
Lemma t_ext : forall f g a, (forall z, f z = g z) -> tends f a -> tends g a.
Proof. intros f g a E A. unfold tends in *. pose proof small_filter. eapply filterlim_ext; [exact E|exact A]. Qed.
Lemma t_sqrt : forall f a, 0 <= a -> tends f a -> tends (fun z => sqrt (f z)) (sqrt a).
Proof. intros f a N A. apply (t_cont sqrt); [|exact A]. apply continuity_pt_sqrt. exact N. Qed.
Lemma t_fst : tends fst xs.
Proof.
  apply tends_iff. intros eps E. pose proof L_nonneg as LN.
  set (d := Rmin (eps / 4) (/ (8 * (L + 1)))).
  assert (I : 0 < / (8 * (L + 1))) by (apply Rinv_0_lt_compat; lra).
  assert (D : 0 < d) by (unfold d; apply Rmin_glb_lt; lra).
  exists d. split; [exact D|]. intros x q Q EQ. cbn [fst].
  assert (D1 : d <= eps / 4) by apply Rmin_l. assert (D2 : d <= / (8 * (L + 1))) by apply Rmin_r.
  assert (LD : L * d < 1 / 4).
  { apply Rle_lt_trans with ((L + 1) * / (8 * (L + 1))); [apply Rmult_le_compat; lra|].
    replace ((L + 1) * / (8 * (L + 1))) with (/ 8) by (field; lra). lra. }
  pose proof (close x q d D LD Q EQ). lra.
Qed.
Lemma t_snd : tends snd 0.
Proof.
  apply tends_iff. intros eps E. exists (eps / 2). split; [lra|]. intros x q Q EQ. cbn [snd]. rewrite Rminus_0_r. lra.
Qed.
(* bounded times vanishing *)
Lemma t_bounded : forall f g B, small (fun z => Rabs (f z) <= B) -> tends g 0 -> tends (fun z => f z * g z) 0.
Proof.
  intros f g B (d & D & HB) G. apply tends_iff. intros eps E. apply (proj1 (tends_iff _ _)) with (eps := eps / (Rabs B + 1)) in G.
  - destruct G as (e & E' & HG). exists (Rmin d e). split; [apply Rmin_glb_lt; assumption|]. intros x q Q EQ.
    assert (Q1 : Rabs q <= d) by (eapply Rle_trans; [exact Q|apply Rmin_l]). assert (Q2 : Rabs q <= e) by (eapply Rle_trans; [exact Q|apply Rmin_r]).
    specialize (HB x q Q1 EQ). specialize (HG x q Q2 EQ). cbv beta in *. rewrite Rminus_0_r in *. rewrite Rabs_mult.
    pose proof (Rabs_pos (g (x, q))) as GP. pose proof (Rle_abs B) as BB. pose proof (Rabs_pos B) as BP.
    apply Rle_lt_trans with ((Rabs B + 1) * Rabs (g (x, q))); [apply Rmult_le_compat_r; lra|].
    apply Rlt_le_trans with ((Rabs B + 1) * (eps / (Rabs B + 1))); [apply Rmult_lt_compat_l; lra|]. right. field. lra.
  - pose proof (Rabs_pos B). apply Rdiv_lt_0_compat; lra.
Qed.

(* ---- the Stumpff values stay bounded ---- *)
Definition c2of (x : R) : R := if Req_EM_T x 0 then 1 / 2 else u2 al x / x ^ 2.
Definition c3of (x : R) : R := if Req_EM_T x 0 then 1 / 6 else u3 al x / x ^ 3.
Lemma c_of : forall x c, calc_stumpff (al * x ^ 2) = Some c -> s_2 c = c2of x /\ s_3 c = c3of x.
Proof.
  intros x c H. destruct (stumpff_u al x c H) as [A B]. unfold c2of, c3of. destruct (Req_EM_T x 0) as [E|N].
  - rewrite E in H. replace (al * 0 ^ 2) with 0 in H by ring. unfold calc_stumpff in H.
    destruct (Rlt_dec 0 0) as [C|_]; [lra|]. assert (E' : c = mkc 1 1 (1 / 2) (1 / 6) (1 / 24) (1 / 120)) by congruence. rewrite E'. split; reflexivity.
  - rewrite <- A, <- B. split; field; exact N.
Qed.
Lemma u0_bound : forall x R0, Rabs x <= R0 -> Rabs (u0 al x) <= exp (sqrt (Rabs al) * R0).
Proof.
  intros x R0 X. assert (S : 0 <= sqrt (Rabs al) * R0) by (apply Rmult_le_pos; [apply sqrt_pos|pose proof (Rabs_pos x); lra]).
  pose proof (exp_ineq1_le (sqrt (Rabs al) * R0)) as EI. unfold u0. cases al.
  - pose proof (COS_bound (sqrt al * x)). apply Rle_trans with 1; [apply Rabs_le; lra|lra].
  - rewrite (Rabs_left al) in * by lra. pose proof (ch_ge1 (sqrt (- al) * x)) as C. rewrite Rabs_right by lra.
    assert (Y : Rabs (sqrt (- al) * x) <= sqrt (- al) * R0) by (rewrite Rabs_mult, (Rabs_right (sqrt (- al))) by lra; apply Rmult_le_compat_l; lra).
    unfold cosh. pose proof (Rle_abs (sqrt (- al) * x)) as Y1. pose proof (Rle_abs (- (sqrt (- al) * x))) as Y2. rewrite Rabs_Ropp in Y2.
    assert (Em : forall a b, a <= b -> exp a <= exp b) by (intros a b [Lt|Eq]; [left; apply exp_increasing; exact Lt|right; rewrite Eq; reflexivity]).
    pose proof (Em (sqrt (- al) * x) (sqrt (- al) * R0) ltac:(lra)). pose proof (Em (- (sqrt (- al) * x)) (sqrt (- al) * R0) ltac:(lra)). lra.
  - rewrite Rabs_R1. lra.
Qed.
Lemma step_bound : forall (f f' : R -> R) x k n, (forall y : R, is_derive f y (f' y)) -> f 0 = 0 -> 0 <= k ->
  (forall y, Rabs y <= Rabs x -> Rabs (f' y) <= k * Rabs y ^ n) -> Rabs (f x) <= k * Rabs x ^ (S n).
Proof.
  intros f f' x k n D Z Kp B. destruct (Rtotal_order x 0) as [N|[E|G]].
  - destruct (MVT_cor2 f f' x 0 N) as (c & Ec & Bc); [intros; apply d_lim, D|].
    replace (f x) with (f' c * x) by (rewrite Z in Ec; lra). rewrite Rabs_mult, <- tech_pow_Rmult.
    assert (C : Rabs c <= Rabs x) by (rewrite !Rabs_left by lra; lra). specialize (B c C). pose proof (Rabs_pos x) as XP.
    assert (W : k * Rabs c ^ n <= k * Rabs x ^ n) by (apply Rmult_le_compat_l; [exact Kp|apply pow_incr; pose proof (Rabs_pos c); lra]). replace (k * (Rabs x * Rabs x ^ n)) with (k * Rabs x ^ n * Rabs x) by ring. apply Rmult_le_compat_r; lra.
  - rewrite E, Z, Rabs_R0, <- tech_pow_Rmult. lra.
  - destruct (MVT_cor2 f f' 0 x G) as (c & Ec & Bc); [intros; apply d_lim, D|].
    replace (f x) with (f' c * x) by (rewrite Z in Ec; lra). rewrite Rabs_mult, <- tech_pow_Rmult.
    assert (C : Rabs c <= Rabs x) by (rewrite !Rabs_right by lra; lra). specialize (B c C). pose proof (Rabs_pos x) as XP.
    assert (W : k * Rabs c ^ n <= k * Rabs x ^ n) by (apply Rmult_le_compat_l; [exact Kp|apply pow_incr; pose proof (Rabs_pos c); lra]). replace (k * (Rabs x * Rabs x ^ n)) with (k * Rabs x ^ n * Rabs x) by ring. apply Rmult_le_compat_r; lra.
Qed.
Lemma c_bound : forall x, let B := exp (sqrt (Rabs al) * Rabs x) in Rabs (c2of x) <= B /\ Rabs (c3of x) <= B.
Proof.
  intros x B. assert (B1 : 1 <= B).
  { unfold B. pose proof (exp_ineq1_le (sqrt (Rabs al) * Rabs x)). assert (0 <= sqrt (Rabs al) * Rabs x) by (apply Rmult_le_pos; [apply sqrt_pos|apply Rabs_pos]). lra. }
  assert (mono : forall y, Rabs y <= Rabs x -> Rabs (u0 al y) <= B) by (intros y Y; apply u0_bound; exact Y).
  assert (D1 : forall y, Rabs y <= Rabs x -> Rabs (u1 al y) <= B * Rabs y ^ 1).
  { intros y Y. apply (step_bound (u1 al) (u0 al) y B 0); [apply d_u1|apply u1_0|lra|]. intros z Zz. rewrite pow_O, Rmult_1_r. apply mono. lra. }
  assert (D2 : forall y, Rabs y <= Rabs x -> Rabs (u2 al y) <= B * Rabs y ^ 2).
  { intros y Y. apply (step_bound (u2 al) (u1 al) y B 1); [apply d_u2|apply u2_0|lra|]. intros z Zz. apply D1. lra. }
  assert (D3 : Rabs (u3 al x) <= B * Rabs x ^ 3).
  { apply (step_bound (u3 al) (u2 al) x B 2); [apply d_u3|apply u3_0|lra|]. intros z Zz. apply D2. lra. }
  specialize (D2 x ltac:(lra)). unfold c2of, c3of. destruct (Req_EM_T x 0) as [E|N].
  - split; rewrite Rabs_right; lra.
  - pose proof (Rabs_pos_lt x N) as XP.
    assert (X2 : 0 < Rabs x ^ 2) by (apply pow_lt; exact XP). assert (X3 : 0 < Rabs x ^ 3) by (apply pow_lt; exact XP).
    unfold Rdiv. rewrite !Rabs_mult. rewrite !Rabs_inv by (apply pow_nonzero; exact N). rewrite <- !RPow_abs. split.
    + apply Rmult_le_reg_r with (Rabs x ^ 2); [exact X2|]. rewrite Rmult_assoc, Rinv_l by lra. lra.
    + apply Rmult_le_reg_r with (Rabs x ^ 3); [exact X3|]. rewrite Rmult_assoc, Rinv_l by lra. lra.
Qed.
Lemma c_small : exists B, small (fun z => Rabs (c2of (fst z)) <= B) /\ small (fun z => Rabs (c3of (fst z)) <= B).
Proof.
  exists (exp (sqrt (Rabs al) * (Rabs xs + 1))).
  destruct ((proj1 (tends_iff _ _) t_fst) 1 ltac:(lra)) as (d & D & H).
  assert (Hx : forall x q, Rabs q <= d -> q * P x = K x - K xs -> exp (sqrt (Rabs al) * Rabs x) <= exp (sqrt (Rabs al) * (Rabs xs + 1))).
  { intros x q Q EQ. specialize (H x q Q EQ). cbn [fst] in H.
    assert (X : Rabs x <= Rabs xs + 1) by (pose proof (Rabs_triang_inv x xs); lra).
    assert (Y : sqrt (Rabs al) * Rabs x <= sqrt (Rabs al) * (Rabs xs + 1)) by (apply Rmult_le_compat_l; [apply sqrt_pos|exact X]).
    destruct Y as [Y|Y]; [left; apply exp_increasing; exact Y|right; rewrite Y; reflexivity]. }
  split; exists d; (split; [exact D|]); intros x q Q EQ; cbn [fst]; eapply Rle_trans; try apply (Hx x q Q EQ); apply c_bound.
Qed.

(* ---- what the Lagrange formulas compute, as a function of the last iterate and correction ---- *)
Definition a2 (z : R * R) : R := (fst z - snd z) ^ 2 * c2of (fst z).
Definition a3 (z : R * R) : R := (fst z - snd z) ^ 3 * c3of (fst z).
Lemma c2of_u : forall x, x ^ 2 * c2of x = u2 al x.
Proof. intro x. unfold c2of. destruct (Req_EM_T x 0) as [E|N]; [rewrite E, u2_0; ring|field; exact N]. Qed.
Lemma c3of_u : forall x, x ^ 3 * c3of x = u3 al x.
Proof. intro x. unfold c3of. destruct (Req_EM_T x 0) as [E|N]; [rewrite E, u3_0; ring|field; exact N]. Qed.
Lemma t_pow : forall f a n, tends f a -> tends (fun z => f z ^ n) (a ^ n).
Proof. intros f a n A. induction n as [|n IH]; [apply t_const|]. cbn [pow]. apply t_mult; assumption. Qed.
Lemma t_a2 : tends a2 (u2 al xs).
Proof.
  destruct c_small as (B & B2 & _).
  apply (t_ext (fun z => u2 al (fst z) + c2of (fst z) * (snd z * (snd z - 2 * fst z)))).
  - intros [x q]. unfold a2. cbn [fst snd]. rewrite <- c2of_u. ring.
  - eapply t_eq; [apply t_plus|apply Rplus_0_r].
    + apply (t_cont (u2 al)); [apply (d_cont _ _ _ (d_u2 al xs))|apply t_fst].
    + apply (t_bounded _ _ B B2). eapply t_eq; [apply t_mult; [apply t_snd|apply t_minus; [apply t_snd|apply t_mult; [apply t_const|apply t_fst]]]|]. ring.
Qed.
Lemma t_a3 : tends a3 (u3 al xs).
Proof.
  destruct c_small as (B & _ & B3).
  apply (t_ext (fun z => u3 al (fst z) + c3of (fst z) * (snd z * (3 * fst z * snd z - 3 * fst z ^ 2 - snd z ^ 2)))).
  - intros [x q]. unfold a3. cbn [fst snd]. rewrite <- c3of_u. ring.
  - eapply t_eq; [apply t_plus|apply Rplus_0_r].
    + apply (t_cont (u3 al)); [apply (d_cont _ _ _ (d_u3 al xs))|apply t_fst].
    + apply (t_bounded _ _ B B3). eapply t_eq.
      * apply t_mult; [apply t_snd|]. apply t_minus; [apply t_minus|]; [apply t_mult; [apply t_mult; [apply t_const|apply t_fst]|apply t_snd]|apply t_mult; [apply t_const|apply t_pow, t_fst]|apply t_pow, t_snd].
      * ring.
Qed.
Definition zf (z : R * R) : R := 1 - a2 z / norm r.
Definition zg (z : R * R) : R := dt - 1 / m * a3 z.
Definition zr (z : R * R) : R := norm (lin (zf z) (zg z) r v).
Definition zfd (z : R * R) : R := m / (norm r * zr z) * (al * a3 z - (fst z - snd z)).
Definition zgd (z : R * R) : R := 1 - a2 z / zr z.
Lemma t_zf : tends zf (cf r v mu xs).
Proof. apply t_minus; [apply t_const|]. apply t_mult; [apply t_a2|apply t_const]. Qed.
Lemma u3_is : u3 al xs = m * dt - (norm r * u1 al xs + dot r v / m * u2 al xs).
Proof. pose proof (chi_at_eq r v mu mu_pos free dt) as E. fold xs m in E. unfold kf in E. fold al m in E. lra. Qed.
Lemma t_zg : tends zg (cg r v mu xs).
Proof.
  eapply t_eq; [apply t_minus; [apply t_const|apply t_mult; [apply t_const|apply t_a3]]|].
  rewrite u3_is. unfold cg. fold al m. pose proof (m_pos mu mu_pos) as M. fold m in M. field. lra.
Qed.
Lemma t_lin : forall f g a b, tends f a -> tends g b ->
  tends (fun z => vx (lin (f z) (g z) r v)) (vx (lin a b r v)) /\ tends (fun z => vy (lin (f z) (g z) r v)) (vy (lin a b r v)) /\
  tends (fun z => vz (lin (f z) (g z) r v)) (vz (lin a b r v)).
Proof.
  assert (G : forall h : vec -> R, (forall a b u w, h (lin a b u w) = a * h u + b * h w) ->
    forall f g a b, tends f a -> tends g b -> tends (fun z => h (lin (f z) (g z) r v)) (h (lin a b r v))).
  { intros h E f g a b A B. apply (t_ext (fun z => f z * h r + g z * h v)); [intro z; symmetry; apply E|]. rewrite E.
    apply t_plus; apply t_mult; try assumption; apply t_const. }
  intros f g a b A B. split; [|split]; apply G; try assumption; intros a' b' [[x1 y1] z1] [[x2 y2] z2]; reflexivity.
Qed.
Lemma t_norm : forall f g a b, tends f a -> tends g b -> tends (fun z => norm (lin (f z) (g z) r v)) (norm (lin a b r v)).
Proof.
  intros f g a b A B. destruct (t_lin f g a b A B) as (X & Y & Z). apply t_sqrt; [apply dot_nonneg|].
  apply (t_ext (fun z => vx (lin (f z) (g z) r v) * vx (lin (f z) (g z) r v) + vy (lin (f z) (g z) r v) * vy (lin (f z) (g z) r v) + vz (lin (f z) (g z) r v) * vz (lin (f z) (g z) r v))).
  - intro z. symmetry. apply dot_xyz.
  - rewrite dot_xyz. repeat apply t_plus; apply t_mult; assumption.
Qed.
Lemma t_zr : tends zr (P xs).
Proof. eapply t_eq; [apply t_norm; [apply t_zf|apply t_zg]|]. apply (ux_norm r v mu mu_pos free xs). Qed.
Lemma P_xs : 0 < P xs.
Proof. apply rho_pos; assumption. Qed.
Lemma t_zfd : tends zfd (cfd r v mu xs).
Proof.
  pose proof P_xs as PX. pose proof (r0_pos r v free) as R0. pose proof (m_pos mu mu_pos) as M. fold m in M.
  eapply t_eq.
  - apply t_mult; [apply t_mult; [apply t_const|apply t_inv; [|apply t_mult; [apply t_const|apply t_zr]]; nra]|].
    apply t_minus; [apply t_mult; [apply t_const|apply t_a3]|apply t_minus; [apply t_fst|apply t_snd]].
  - unfold cfd. fold al m. rewrite (u1_u3 al xs). change (rho r v mu xs) with (P xs). field. lra.
Qed.
Lemma t_zgd : tends zgd (cgd r v mu xs).
Proof.
  pose proof P_xs as PX. apply t_minus; [apply t_const|]. apply t_mult; [apply t_a2|]. apply t_inv; [|apply t_zr]. change (P xs <> 0). lra.
Qed.
Lemma zr_nonzero : small (fun z => zr z <> 0).
Proof.
  pose proof P_xs as PX. destruct ((proj1 (tends_iff _ _) t_zr) (P xs) PX) as (d & D & H). exists d. split; [exact D|].
  intros x q Q EQ Z. specialize (H x q Q EQ). rewrite Z, Rminus_0_l, Rabs_Ropp, Rabs_right in H; lra.
Qed.

(* ---- the run of the program ---- *)
Lemma run_is : forall max_iter tol q, tol < 10 ^ 15 -> (exists chi c, calc_chi r v dt mu max_iter tol = Some (chi, c, q)) ->
  exists x, q * P x = K x - K xs /\
    calc_lagrange r v dt mu max_iter tol = if Req_EM_T (zr (x, q)) 0 then None else Some (zf (x, q), zg (x, q), zfd (x, q), zgd (x, q)).
Proof.
  intros n tol q T (chi & c & H). destruct (chi_last r v dt mu n tol chi c q T H) as (x & S & N & Q & E).
  fold al in S. destruct (code_f x c S) as [F FP]. rewrite F, FP in *. destruct (c_of x c S) as [C2 C3].
  exists x. split; [rewrite Q; field; exact N|].
  unfold calc_lagrange. rewrite H. cbn [obind]. unfold lagrange. rewrite C2, C3, E.
  assert (Ef : 1 - (x - q) ^ 2 / norm r * c2of x = zf (x, q)).
  { unfold zf, a2. cbn [fst snd]. pose proof (r0_pos r v free). field. lra. }
  assert (Eg : dt - 1 / sqrt mu * (x - q) ^ 3 * c3of x = zg (x, q)).
  { unfold zg, a3. cbn [fst snd]. fold m. rewrite <- Rmult_assoc. reflexivity. }
  rewrite Ef, Eg. fold (lin (zf (x, q)) (zg (x, q)) r v). change (norm (lin (zf (x, q)) (zg (x, q)) r v)) with (zr (x, q)).
  destruct (Req_EM_T (zr (x, q)) 0) as [|NZ]; [reflexivity|]. f_equal. apply f_equal2; [apply f_equal2; [reflexivity|]|].
  - unfold zfd, a3. cbn [fst snd]. fold al m. rewrite <- (Rmult_assoc al). reflexivity.
  - unfold zgd, a2. cbn [fst snd]. field. exact NZ.
Qed.
Lemma run_exact : forall max_iter tol, tol < 10 ^ 15 -> (exists chi c, calc_chi r v dt mu max_iter tol = Some (chi, c, 0)) ->
  calc_lagrange r v dt mu max_iter tol = Some (cf r v mu xs, cg r v mu xs, cfd r v mu xs, cgd r v mu xs).
Proof.
  intros n tol T H. destruct (run_is n tol 0 T H) as (x & E & C). rewrite Rmult_0_l in E.
  assert (X : x = xs) by (apply (K_inj r v mu mu_pos free); change (K x = K xs); lra). subst x.
  pose proof P_xs as PX. pose proof (r0_pos r v free) as R0. pose proof (m_pos mu mu_pos) as M. fold m in M.
  assert (A2 : a2 (xs, 0) = u2 al xs) by (unfold a2; cbn [fst snd]; rewrite Rminus_0_r; apply c2of_u).
  assert (A3 : a3 (xs, 0) = u3 al xs) by (unfold a3; cbn [fst snd]; rewrite Rminus_0_r; apply c3of_u).
  assert (F : zf (xs, 0) = cf r v mu xs) by (unfold zf; rewrite A2; reflexivity).
  assert (G : zg (xs, 0) = cg r v mu xs) by (unfold zg; rewrite A3, u3_is; unfold cg; fold al m; field; lra).
  assert (Z : zr (xs, 0) = P xs) by (unfold zr; rewrite F, G; apply (ux_norm r v mu mu_pos free xs)).
  assert (FD : zfd (xs, 0) = cfd r v mu xs).
  { unfold zfd. rewrite Z, A3. cbn [fst snd]. unfold cfd. fold al m. rewrite (u1_u3 al xs). change (rho r v mu xs) with (P xs). field. lra. }
  assert (GD : zgd (xs, 0) = cgd r v mu xs) by (unfold zgd; rewrite Z, A2; reflexivity).
  rewrite F, G, FD, GD, Z in C. destruct (Req_EM_T (P xs) 0) as [B|_]; [lra|exact C].
Qed.
Lemma t_dist : forall f g a b, tends f a -> tends g b ->
  tends (fun z => distance (lin (f z) (g z) r v) (lin a b r v)) 0.
Proof.
  intros f g a b A B. destruct (t_lin f g a b A B) as (X & Y & Z).
  assert (S : tends (fun z => (vx (lin (f z) (g z) r v) - vx (lin a b r v)) ^ 2 + (vy (lin (f z) (g z) r v) - vy (lin a b r v)) ^ 2 + (vz (lin (f z) (g z) r v) - vz (lin a b r v)) ^ 2) 0).
  { eapply t_eq; [apply t_plus; [apply t_plus|]; apply t_pow; apply t_minus; [exact X|apply t_const|exact Y|apply t_const|exact Z|apply t_const]|]. ring. }
  eapply t_eq; [apply t_sqrt; [|exact S]; lra|apply sqrt_0].
Qed.
Lemma run_close : forall eps, 0 < eps -> exists d, 0 < d /\ forall max_iter tol q, tol < 10 ^ 15 ->
  (exists chi c, calc_chi r v dt mu max_iter tol = Some (chi, c, q)) -> Rabs q <= d ->
  exists f g fd gd, calc_lagrange r v dt mu max_iter tol = Some (f, g, fd, gd) /\
    Rabs (f * gd - fd * g - 1) <= eps /\
    distance (lin f g r v) (motion_x r v mu mu_pos free dt) <= eps /\ distance (lin fd gd r v) (motion_v r v mu mu_pos free dt) <= eps.
Proof.
  intros eps E.
  assert (W : tends (fun z => zf z * zgd z - zfd z * zg z) 1).
  { eapply t_eq; [apply t_minus; apply t_mult; [apply t_zf|apply t_zgd|apply t_zfd|apply t_zg]|]. apply (wronskian r v mu mu_pos free xs). }
  pose proof (t_dist _ _ _ _ t_zf t_zg) as DX. pose proof (t_dist _ _ _ _ t_zfd t_zgd) as DV.
  destruct (proj1 (tends_iff _ _) W eps E) as (d1 & D1 & H1). destruct (proj1 (tends_iff _ _) DX eps E) as (d2 & D2 & H2).
  destruct (proj1 (tends_iff _ _) DV eps E) as (d3 & D3 & H3). destruct zr_nonzero as (d4 & D4 & H4).
  exists (Rmin (Rmin d1 d2) (Rmin d3 d4)). split; [repeat apply Rmin_glb_lt; assumption|].
  intros n tol q T HC Q. destruct (run_is n tol q T HC) as (x & EQ & C).
  pose proof (Rmin_l (Rmin d1 d2) (Rmin d3 d4)) as M1. pose proof (Rmin_r (Rmin d1 d2) (Rmin d3 d4)) as M2.
  pose proof (Rmin_l d1 d2) as M3. pose proof (Rmin_r d1 d2) as M4. pose proof (Rmin_l d3 d4) as M5. pose proof (Rmin_r d3 d4) as M6.
  specialize (H1 x q ltac:(lra) EQ). specialize (H2 x q ltac:(lra) EQ). specialize (H3 x q ltac:(lra) EQ). specialize (H4 x q ltac:(lra) EQ).
  cbv beta in *. exists (zf (x, q)), (zg (x, q)), (zfd (x, q)), (zgd (x, q)).
  destruct (Req_EM_T (zr (x, q)) 0) as [B|_]; [contradiction|].
  split; [exact C|]. split; [lra|]. rewrite Rminus_0_r in H2, H3.
  split; [left; apply Rle_lt_trans with (2 := H2); apply Rle_abs|left; apply Rle_lt_trans with (2 := H3); apply Rle_abs].
Qed.
End Run.
