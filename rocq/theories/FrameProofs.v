(* Units, frames, RIC triads, and the frame of propagated states. *)
From Coq Require Import Reals Lra Psatz Lia List String FunctionalExtensionality.
From Coquelicot Require Import Coquelicot.
From Verif Require Import Base SphModel SphProofs KepModel KepSpec KepElem UnivModel UnivSpec UnivOrbit UnivProofs LightModel LightProofs FrameModel FrameSpec.
Import ListNotations.
Open Scope R_scope.

Lemma km_pos : 0 < km_p_au. Proof. unfold km_p_au; lra. Qed.
Lemma day_pos : 0 < s_p_day. Proof. unfold s_p_day; lra. Qed.

(* ---- units ---- *)
Lemma unit_values : forall v i, values_au_to_km v i = v i * unit_au_to_km i.
Proof. intros v i. unfold values_au_to_km, unit_au_to_km, au_to_km, au_per_day_to_km_per_s. pose proof day_pos. destruct (Nat.ltb i 3); field; lra. Qed.
Lemma unit_values_back : forall v i, values_km_to_au v i = v i * unit_km_to_au i.
Proof. intros v i. unfold values_km_to_au, unit_km_to_au, km_to_au, km_per_s_to_au_per_day. pose proof km_pos. destruct (Nat.ltb i 3); field; lra. Qed.
Lemma unit_inv : forall i, unit_au_to_km i * unit_km_to_au i = 1.
Proof. intro i. unfold unit_au_to_km, unit_km_to_au. pose proof km_pos. pose proof day_pos. destruct (Nat.ltb i 3); field; lra. Qed.
Lemma mean_scaled : forall k ws i, mean_of (map (fun wx => (fst wx, fun i => snd wx i * k i)) ws) i = mean_of ws i * k i.
Proof. intros k ws i. induction ws as [|[w x] t IH]; cbn [map mean_of fst snd]; [ring|]. rewrite IH. ring. Qed.
Lemma spread_scaled : forall k m ws i j, spread_of (fun i => m i * k i) (map (fun wx => (fst wx, fun i => snd wx i * k i)) ws) i j = spread_of m ws i j * (k i * k j).
Proof. intros k m ws i j. induction ws as [|[w x] t IH]; cbn [map spread_of fst snd]; [ring|]. rewrite IH. ring. Qed.
Lemma spread_ext : forall m m' ws i j, (forall i, m i = m' i) -> spread_of m ws i j = spread_of m' ws i j.
Proof. intros m m' ws i j H. induction ws as [|[w x] t IH]; cbn [spread_of]; [reflexivity|]. rewrite IH, !H. reflexivity. Qed.
Lemma covariance_scaled : forall k ws i j, covariance_of (map (fun wx => (fst wx, fun i => snd wx i * k i)) ws) i j = covariance_of ws i j * (k i * k j).
Proof.
  intros k ws i j. unfold covariance_of. rewrite <- spread_scaled. apply spread_ext. intro x. apply mean_scaled.
Qed.
Lemma map_values : forall f k ws, (forall v i, f v i = v i * k i) -> map (fun wx : R * (nat -> R) => (fst wx, f (snd wx))) ws = map (fun wx => (fst wx, fun i => snd wx i * k i)) ws.
Proof. intros f k ws H. apply map_ext. intros [w x]. cbn [fst snd]. f_equal. apply functional_extensionality. intro i. apply H. Qed.

(* ---- rotations ---- *)
Definition below6 (i : nat) : Prop := (i < 6)%nat.
Ltac six i H := unfold below6 in H; destruct i as [|[|[|[|[|[|i]]]]]]; [| | | | | |exfalso; lia].
Lemma sum6_ext : forall f g, (forall i, (i < 6)%nat -> f i = g i) -> sum6 f = sum6 g.
Proof. intros f g H. unfold sum6. rewrite !H by lia. reflexivity. Qed.
Lemma sum6_plus : forall f g, sum6 (fun i => f i + g i) = sum6 f + sum6 g.
Proof. intros. unfold sum6. ring. Qed.
Lemma sum6_mult : forall f c, sum6 (fun i => f i * c) = sum6 f * c.
Proof. intros. unfold sum6. ring. Qed.
Lemma sum6_distr : forall a (g h : nat -> R), a * sum6 (fun q => g q * h q) = sum6 (fun q => a * g q * h q).
Proof. intros. unfold sum6. ring. Qed.
Lemma sum6_swap : forall f : nat -> nat -> R, sum6 (fun i => sum6 (f i)) = sum6 (fun j => sum6 (fun i => f i j)).
Proof. intros. unfold sum6. ring. Qed.
Lemma sum6_abs : forall f g, (forall i, (i < 6)%nat -> Rabs (f i) <= g i) -> Rabs (sum6 f) <= sum6 g.
Proof.
  intros f g H. unfold sum6.
  pose proof (H 0%nat ltac:(lia)) as A0. pose proof (H 1%nat ltac:(lia)) as A1. pose proof (H 2%nat ltac:(lia)) as A2.
  pose proof (H 3%nat ltac:(lia)) as A3. pose proof (H 4%nat ltac:(lia)) as A4. pose proof (H 5%nat ltac:(lia)) as A5.
  apply Rabs_le_between in A0. apply Rabs_le_between in A1. apply Rabs_le_between in A2. apply Rabs_le_between in A3. apply Rabs_le_between in A4. apply Rabs_le_between in A5.
  apply Rabs_le. lra.
Qed.
Definition transpose (m : matrix) : matrix := fun i j => m j i.
(* the transpose undoes the matrix; absolute column sums stay below the square root of two *)
Definition turns (m : matrix) : Prop :=
  (forall x i, (i < 6)%nat -> sum6 (fun k => m k i * sum6 (fun p => m k p * x p)) = x i) /\
  (forall i, (i < 6)%nat -> sum6 (fun k => Rabs (m k i)) <= sqrt 2).
Lemma trig_one : cos obliquity * cos obliquity + sin obliquity * sin obliquity = 1.
Proof. pose proof (sin2_cos2 obliquity) as H. unfold Rsqr in H. lra. Qed.
Lemma abs_trig : Rabs (cos obliquity) + Rabs (sin obliquity) <= sqrt 2.
Proof.
  apply Rsqr_incr_0_var; [|apply sqrt_pos]. unfold Rsqr at 2. rewrite sqrt_sqrt by lra. pose proof trig_one as T.
  assert (A : Rabs (cos obliquity) * Rabs (cos obliquity) = cos obliquity * cos obliquity) by (rewrite <- Rabs_mult; apply Rabs_right; apply Rle_ge; apply Rle_0_sqr).
  assert (B : Rabs (sin obliquity) * Rabs (sin obliquity) = sin obliquity * sin obliquity) by (rewrite <- Rabs_mult; apply Rabs_right; apply Rle_ge; apply Rle_0_sqr).
  unfold Rsqr. pose proof (Rle_0_sqr (Rabs (cos obliquity) - Rabs (sin obliquity))) as Q. unfold Rsqr in Q. nra.
Qed.
Lemma one_sqrt2 : 1 <= sqrt 2.
Proof. rewrite <- sqrt_1 at 1. apply sqrt_le_1; lra. Qed.
Ltac mat := unfold ec2eq, transpose; unfold eq2ec, rot3; cbn [Nat.ltb Nat.leb andb Nat.sub].
Lemma eq2ec_turns : turns eq2ec.
Proof.
  pose proof trig_one as T. split.
  - intros x i H. six i H; unfold sum6; mat.
    1, 4: ring.
    + replace (x 1%nat) with (x 1%nat * (cos obliquity * cos obliquity + sin obliquity * sin obliquity)) at 7 by (rewrite T; ring). ring.
    + replace (x 2%nat) with (x 2%nat * (cos obliquity * cos obliquity + sin obliquity * sin obliquity)) at 7 by (rewrite T; ring). ring.
    + replace (x 4%nat) with (x 4%nat * (cos obliquity * cos obliquity + sin obliquity * sin obliquity)) at 7 by (rewrite T; ring). ring.
    + replace (x 5%nat) with (x 5%nat * (cos obliquity * cos obliquity + sin obliquity * sin obliquity)) at 7 by (rewrite T; ring). ring.
  - intros i H. pose proof abs_trig as A. pose proof one_sqrt2 as O. six i H; unfold sum6; mat; rewrite ?Rabs_Ropp, ?Rabs_R0, ?Rabs_R1; lra.
Qed.
Lemma ec2eq_turns : turns ec2eq.
Proof.
  pose proof trig_one as T. split.
  - intros x i H. six i H; unfold sum6; mat.
    1, 4: ring.
    + replace (x 1%nat) with (x 1%nat * (cos obliquity * cos obliquity + sin obliquity * sin obliquity)) at 7 by (rewrite T; ring). ring.
    + replace (x 2%nat) with (x 2%nat * (cos obliquity * cos obliquity + sin obliquity * sin obliquity)) at 7 by (rewrite T; ring). ring.
    + replace (x 4%nat) with (x 4%nat * (cos obliquity * cos obliquity + sin obliquity * sin obliquity)) at 7 by (rewrite T; ring). ring.
    + replace (x 5%nat) with (x 5%nat * (cos obliquity * cos obliquity + sin obliquity * sin obliquity)) at 7 by (rewrite T; ring). ring.
  - intros i H. pose proof abs_trig as A. pose proof one_sqrt2 as O. six i H; unfold sum6; mat; rewrite ?Rabs_Ropp, ?Rabs_R0, ?Rabs_R1; lra.
Qed.

Lemma rotate_complete : forall m v x i, (forall j, (j < 6)%nat -> v j = Some (x j)) -> rotate_values m v i = Some (sum6 (fun j => m i j * x j)).
Proof.
  intros m v x i H. unfold rotate_values. rewrite (H 0%nat) by lia. cbn [missing andb]. f_equal. apply sum6_ext.
  intros j J. rewrite H by exact J. cbn [fill0]. ring.
Qed.
Lemma rotate_back : forall m v x, turns m -> (forall j, (j < 6)%nat -> v j = Some (x j)) ->
  forall i, (i < 6)%nat -> rotate_values (transpose m) (rotate_values m v) i = v i.
Proof.
  intros m v x [M _] H i I. rewrite (rotate_complete (transpose m) _ (fun k => sum6 (fun p => m k p * x p))) by (intros; apply rotate_complete; exact H).
  rewrite H by exact I. f_equal. unfold transpose. apply M. exact I.
Qed.
Lemma near_zero_err : forall x, Rabs (near_zero x - x) <= cov_tol.
Proof.
  intro x. assert (P : 0 < cov_tol) by (apply Rinv_0_lt_compat, pow_lt; lra). unfold near_zero. destruct (Rlt_dec (Rabs x) cov_tol) as [A|_].
  - rewrite Rminus_0_l, Rabs_Ropp. lra.
  - rewrite Rminus_eq_0, Rabs_R0. lra.
Qed.
Definition sandwich (m : matrix) (k : matrix) : matrix := fun i j => sum6 (fun l => sum6 (fun p => m i p * k p l) * m j l).
Lemma sandwich_ext : forall m k k' i j, (forall a b, (a < 6)%nat -> (b < 6)%nat -> k a b = k' a b) -> sandwich m k i j = sandwich m k' i j.
Proof. intros m k k' i j H. apply sum6_ext. intros l L. f_equal. apply sum6_ext. intros p P. rewrite H by assumption. reflexivity. Qed.
Lemma sandwich_plus : forall m k e i j, sandwich m (fun a b => k a b + e a b) i j = sandwich m k i j + sandwich m e i j.
Proof.
  intros. unfold sandwich. rewrite <- sum6_plus. apply sum6_ext. intros l _. rewrite <- Rmult_plus_distr_r. f_equal. rewrite <- sum6_plus.
  apply sum6_ext. intros; ring.
Qed.
Lemma sandwich_back : forall m k i j, turns m -> (i < 6)%nat -> (j < 6)%nat -> sandwich (transpose m) (sandwich m k) i j = k i j.
Proof.
  intros m k i j [M _] I J.
  assert (A : forall l, sum6 (fun p => transpose m i p * sandwich m k p l) = sum6 (fun q => m l q * k i q)).
  { intro l. unfold sandwich, transpose.
    rewrite (sum6_ext _ (fun p => sum6 (fun q => m p i * sum6 (fun r => m p r * k r q) * m l q)))
      by (intros p _; apply sum6_distr).
    rewrite sum6_swap. apply sum6_ext. intros q Q. rewrite sum6_mult, (M (fun r => k r q) i I). ring. }
  unfold sandwich at 1. rewrite (sum6_ext _ (fun l => m l j * sum6 (fun q => m l q * k i q))) by (intros l _; rewrite A; unfold transpose; ring).
  apply M. exact J.
Qed.
Lemma sandwich_small : forall m e t i j, turns m -> (i < 6)%nat -> (j < 6)%nat -> 0 <= t -> (forall a b, (a < 6)%nat -> (b < 6)%nat -> Rabs (e a b) <= t) ->
  Rabs (sandwich (transpose m) e i j) <= 2 * t.
Proof.
  intros m e t i j [_ M] I J T H. unfold sandwich, transpose.
  apply Rle_trans with (sum6 (fun l => sum6 (fun p => Rabs (m p i)) * t * Rabs (m l j))).
  - apply sum6_abs. intros l L. rewrite Rabs_mult. apply Rmult_le_compat_r; [apply Rabs_pos|]. rewrite <- sum6_mult. apply sum6_abs. intros p P.
    rewrite Rabs_mult. apply Rmult_le_compat_l; [apply Rabs_pos|]. apply H; assumption.
  - assert (E : sum6 (fun l => sum6 (fun p => Rabs (m p i)) * t * Rabs (m l j)) = sum6 (fun p => Rabs (m p i)) * t * sum6 (fun l => Rabs (m l j))) by (unfold sum6; ring).
    rewrite E. assert (S : sqrt 2 * sqrt 2 = 2) by (apply sqrt_sqrt; lra). pose proof (sqrt_pos 2) as SP.
    assert (P : forall q, 0 <= sum6 (fun k => Rabs (m k q))) by (intro q; unfold sum6; repeat apply Rplus_le_le_0_compat; apply Rabs_pos).
    apply Rle_trans with (sqrt 2 * t * sqrt 2); [|replace (sqrt 2 * t * sqrt 2) with (sqrt 2 * sqrt 2 * t) by ring; rewrite S; lra].
    apply Rmult_le_compat; [apply Rmult_le_pos; [apply P|exact T]|apply P| |apply M; exact J].
    apply Rmult_le_compat_r; [exact T|]. apply M. exact I.
Qed.
Lemma covariance_rotated : forall m c k i j, (forall a b, (a < 6)%nat -> (b < 6)%nat -> c a b = Some (k a b)) -> (i < 6)%nat -> (j < 6)%nat ->
  rotate_covariance m c i j = Some (near_zero (sandwich m k i j)).
Proof.
  intros m c k i j H I J. unfold rotate_covariance. rewrite H by assumption. do 2 f_equal. apply (sum6_ext _ _). intros l L. f_equal.
  apply sum6_ext. intros p P. rewrite H by assumption. reflexivity.
Qed.
Lemma covariance_back : forall m c k, turns m -> (forall a b, (a < 6)%nat -> (b < 6)%nat -> c a b = Some (k a b)) ->
  forall i j, (i < 6)%nat -> (j < 6)%nat -> exists y, rotate_covariance (transpose m) (rotate_covariance m c) i j = Some y /\
    Rabs (y - k i j) <= 3 * cov_tol /\
    ((forall a b, (a < 6)%nat -> (b < 6)%nat -> near_zero (sandwich m k a b) = sandwich m k a b) -> Rabs (y - k i j) <= cov_tol).
Proof.
  intros m c k M H i j I J. assert (TP : 0 < cov_tol) by (apply Rinv_0_lt_compat, pow_lt; lra).
  set (n := fun a b => near_zero (sandwich m k a b)).
  assert (R1 : forall a b, (a < 6)%nat -> (b < 6)%nat -> rotate_covariance m c a b = Some (n a b)) by (intros; apply covariance_rotated; assumption).
  eexists. split; [apply (covariance_rotated (transpose m) _ n); assumption|].
  pose proof (near_zero_err (sandwich (transpose m) n i j)) as E1.
  set (e := fun a b => n a b - sandwich m k a b).
  assert (S : sandwich (transpose m) n i j = k i j + sandwich (transpose m) e i j).
  { rewrite (sandwich_ext _ n (fun a b => sandwich m k a b + e a b)) by (intros; unfold e; ring). rewrite sandwich_plus, sandwich_back by assumption. reflexivity. }
  split.
  - assert (E2 : Rabs (sandwich (transpose m) e i j) <= 2 * cov_tol) by (apply sandwich_small; try assumption; [lra|intros; apply near_zero_err]).
    rewrite S in E1 |- *. apply Rabs_le_between in E1. apply Rabs_le_between in E2. apply Rabs_le. lra.
  - intro Z. assert (E2 : sandwich (transpose m) n i j = k i j) by (rewrite <- (sandwich_back m k i j M I J); apply sandwich_ext; intros; apply Z; assumption).
    rewrite E2 in E1 |- *. exact E1.
Qed.
Lemma lengths : forall m x, turns m -> m = eq2ec \/ m = ec2eq ->
  position2 (fun i => sum6 (fun j => m i j * x j)) = position2 x /\ velocity2 (fun i => sum6 (fun j => m i j * x j)) = velocity2 x.
Proof.
  intros m x _ E. pose proof trig_one as T.
  assert (S : forall a b, a ^ 2 + b ^ 2 = (a ^ 2 + b ^ 2) * (cos obliquity * cos obliquity + sin obliquity * sin obliquity)) by (intros; rewrite T; ring).
  destruct E as [->| ->]; unfold position2, velocity2, sum6; mat; split; rewrite (Rplus_assoc (x _ ^ 2)), (S (x _) (x _)); ring.
Qed.

(* ---- RIC ---- *)
Lemma dot_cross_l : forall u w, dot (cross u w) u = 0.
Proof. intros [[? ?] ?] [[? ?] ?]. unfold cross, dot. ring. Qed.
Lemma cross_len : forall u w, dot (cross u w) (cross u w) = dot u u * dot w w - dot u w * dot u w.
Proof. intros [[? ?] ?] [[? ?] ?]. unfold cross, dot. ring. Qed.
Lemma dot_scale : forall a b u w, dot (scale a u) (scale b w) = a * b * dot u w.
Proof. intros a b [[? ?] ?] [[? ?] ?]. unfold scale, dot. ring. Qed.
Lemma triad : forall a c, dot a a = 1 -> dot c c = 1 -> dot c a = 0 -> orthonormal a (cross c a) c.
Proof.
  intros a c A C D. unfold orthonormal. rewrite cross_len, A, C, D.
  assert (E : dot a (cross c a) = 0 /\ dot (cross c a) c = 0) by (destruct a as [[? ?] ?], c as [[? ?] ?]; unfold cross, dot; split; ring).
  destruct E as [E1 E2]. repeat split; try assumption; ring.
Qed.

(* ---- the motion does not depend on the axes ---- *)
Section Turn.
Variable q : vec -> vec.
Hypothesis iso : isometry q.
Lemma q_dot : forall u w, dot (q u) (q w) = dot u w. Proof. exact (proj1 iso). Qed.
Lemma q_norm : forall u, norm (q u) = norm u. Proof. intro u. unfold norm. rewrite q_dot. reflexivity. Qed.
Lemma q_lin : forall a b u w, q (vplus (scale a u) (scale b w)) = vplus (scale a (q u)) (scale b (q w)). Proof. exact (proj2 iso). Qed.
Lemma q_alpha : forall r v mu, alpha (q r) (q v) mu = alpha r v mu.
Proof. intros. unfold alpha. rewrite !q_norm. reflexivity. Qed.
Lemma q_loop : forall r v dt mu tol fuel chi c x, chi_loop (q r) (q v) dt mu tol fuel chi c x = chi_loop r v dt mu tol fuel chi c x.
Proof.
  intros r v dt mu tol fuel. induction fuel as [|k IH]; intros chi c x; cbn [chi_loop]; [reflexivity|].
  destruct (Rlt_dec tol (Rabs x)); [|reflexivity]. rewrite q_alpha. destruct (calc_stumpff _) as [c'|]; [|reflexivity]. cbn [obind].
  unfold chi_f, chi_fp. rewrite q_norm, q_dot, q_alpha. destruct (odiv _ _) as [y|]; [|reflexivity]. cbn [obind]. apply IH.
Qed.
Lemma q_propagate : forall s t0 t1 mu n tol, propagate (turn q s) t0 t1 mu n tol = option_map (turn q) (propagate s t0 t1 mu n tol).
Proof.
  intros. unfold propagate, turn at 1 2 3 4. rewrite pos_row, vel_row. unfold calc_lagrange, calc_chi. rewrite q_norm, q_alpha, q_loop.
  destruct (Req_EM_T _ 0) as [_|_]; [reflexivity|]. destruct (chi_loop _ _ _ _ _ _ _ _ _) as [[[chi c] x]|]; [|reflexivity]. cbn [obind].
  unfold lagrange. rewrite <- q_lin, !q_norm, q_alpha. destruct (Req_EM_T _ 0) as [_|_]; [reflexivity|]. cbn [option_map apply_lagrange].
  unfold turn. rewrite pos_row, vel_row, !q_lin. reflexivity.
Qed.
End Turn.

(* ---- missing values ---- *)
Lemma mask_kept : forall m c i j, rotate_covariance m c i j = None <-> c i j = None.
Proof. intros m c i j. unfold rotate_covariance. destruct (c i j); split; intro H; congruence. Qed.
Lemma near_zero_0 : near_zero 0 = 0.
Proof. unfold near_zero. destruct (Rlt_dec _ _); reflexivity. Qed.
Definition filled (c : covariance) : matrix := fun i j => fill0 (c i j).
Lemma rotated_filled : forall m c i j, c i j <> None -> rotate_covariance m c i j = Some (near_zero (sandwich m (filled c) i j)).
Proof. intros m c i j H. unfold rotate_covariance. destruct (c i j); [reflexivity|congruence]. Qed.
Definition position_only (c : covariance) : Prop := forall i j, (i < 6)%nat -> (j < 6)%nat -> (c i j = None <-> ~ ((i < 3)%nat /\ (j < 3)%nat)).
Lemma block_zero : forall m c i j, m = eq2ec \/ m = ec2eq -> position_only c -> (i < 6)%nat -> (j < 6)%nat -> ~ ((i < 3)%nat /\ (j < 3)%nat) -> sandwich m (filled c) i j = 0.
Proof.
  intros m c i j E P I J N.
  assert (Z : forall a b, (a < 6)%nat -> (b < 6)%nat -> ~ ((a < 3)%nat /\ (b < 3)%nat) -> filled c a b = 0) by (intros a b A B Q; unfold filled; rewrite (proj2 (P a b A B) Q); reflexivity).
  assert (L : forall a p, (a < 6)%nat -> (p < 6)%nat -> ((a < 3)%nat /\ (3 <= p)%nat) \/ ((3 <= a)%nat /\ (p < 3)%nat) -> m a p = 0).
  { intros a p A Q O. destruct E as [->| ->]; unfold ec2eq, eq2ec; destruct O as [[O1 O2]|[O1 O2]];
      repeat match goal with |- context [Nat.ltb ?x 3] => destruct (Nat.ltb_spec x 3); try lia end;
      repeat match goal with |- context [Nat.leb 3 ?x] => destruct (Nat.leb_spec 3 x); try lia end; reflexivity. }
  unfold sandwich. transitivity (sum6 (fun _ => 0)); [|unfold sum6; ring]. apply sum6_ext. intros l Hl.
  destruct (Nat.lt_ge_cases l 3) as [L3|L3].
  - destruct (Nat.lt_ge_cases j 3) as [J3|J3].
    + assert (S : sum6 (fun p => m i p * filled c p l) = 0).
      { transitivity (sum6 (fun _ => 0)); [|unfold sum6; ring]. apply sum6_ext. intros p Hp. destruct (Nat.lt_ge_cases p 3).
        - rewrite (L i p) by lia. ring.
        - rewrite (Z p l) by lia. ring. }
      rewrite S. ring.
    + rewrite (L j l) by lia. ring.
  - assert (S : sum6 (fun p => m i p * filled c p l) = 0).
    { transitivity (sum6 (fun _ => 0)); [|unfold sum6; ring]. apply sum6_ext. intros p Hp. rewrite (Z p l) by lia. ring. }
    rewrite S. ring.
Qed.
Lemma position_back : forall m c, turns m -> m = eq2ec \/ m = ec2eq -> position_only c -> forall i j, (i < 3)%nat -> (j < 3)%nat ->
  exists x y, c i j = Some x /\ rotate_covariance (transpose m) (rotate_covariance m c) i j = Some y /\ Rabs (y - x) <= 3 * cov_tol.
Proof.
  intros m c M E P i j I J. assert (TP : 0 < cov_tol) by (apply Rinv_0_lt_compat, pow_lt; lra).
  assert (C : c i j <> None) by (intro Q; apply (P i j) in Q; [|lia|lia]; apply Q; split; assumption).
  assert (C1 : rotate_covariance m c i j <> None) by (intro Q; apply C; apply (mask_kept m c); exact Q).
  exists (filled c i j). eexists. split; [unfold filled; destruct (c i j); [reflexivity|congruence]|]. split; [apply rotated_filled; exact C1|].
  set (e := fun a b => filled (rotate_covariance m c) a b - sandwich m (filled c) a b).
  assert (S : sandwich (transpose m) (filled (rotate_covariance m c)) i j = filled c i j + sandwich (transpose m) e i j).
  { rewrite (sandwich_ext _ (filled (rotate_covariance m c)) (fun a b => sandwich m (filled c) a b + e a b)) by (intros; unfold e; ring). rewrite sandwich_plus, sandwich_back by (assumption || lia). reflexivity. }
  assert (E2 : Rabs (sandwich (transpose m) e i j) <= 2 * cov_tol).
  { apply sandwich_small; try assumption; try lia; [lra|]. intros a b A B. unfold e. unfold filled at 1.
    destruct (c a b) as [x|] eqn:Q.
    - rewrite rotated_filled by congruence. cbn [fill0]. apply near_zero_err.
    - rewrite (proj2 (mask_kept m c a b) Q). cbn [fill0]. rewrite (block_zero m c a b E P A B) by (apply (P a b A B); exact Q). rewrite Rminus_eq_0, Rabs_R0. lra. }
  pose proof (near_zero_err (sandwich (transpose m) (filled (rotate_covariance m c)) i j)) as E1. rewrite S in E1 |- *.
  apply Rabs_le_between in E1. apply Rabs_le_between in E2. apply Rabs_le. lra.
Qed.
(* only the variance of y is not zero; the elements off the diagonal are missing *)
Definition diag_y : covariance := fun i j => if Nat.eqb i j then Some (if Nat.eqb i 1 then 1 else 0) else None.
Lemma obliquity_range : PI / 8 < obliquity < PI / 6.
Proof. pose proof PI_RGT_0. unfold obliquity. split; nra. Qed.
Lemma near_zero_le : forall x, 0 <= x -> 0 <= near_zero x <= x.
Proof. intros x H. unfold near_zero. destruct (Rlt_dec _ _); lra. Qed.
Lemma sin2_oblique : 145 / 1000 < sin obliquity * sin obliquity < 1 / 2.
Proof.
  pose proof obliquity_range as [O1 O2]. pose proof PI_RGT_0 as PP.
  assert (C2 : cos (2 * obliquity) = 1 - 2 * sin obliquity * sin obliquity) by apply cos_2a_sin.
  assert (L : cos (2 * obliquity) < cos (PI / 4)) by (apply cos_decreasing_1; lra). rewrite cos_PI4 in L.
  assert (G : cos (PI / 2) < cos (2 * obliquity)) by (apply cos_decreasing_1; lra). rewrite cos_PI2 in G.
  assert (S : 1412 / 1000 < sqrt 2).
  { apply Rsqr_incrst_0; [|lra|apply sqrt_pos]. rewrite Rsqr_sqrt by lra. unfold Rsqr. lra. }
  assert (S' : 1 / sqrt 2 < 7083 / 10000).
  { apply Rmult_lt_reg_r with (sqrt 2); [lra|]. unfold Rdiv at 1. rewrite Rmult_assoc, Rinv_l by lra. lra. }
  lra.
Qed.
Lemma diag_back : exists y, rotate_covariance ec2eq (rotate_covariance eq2ec diag_y) 1%nat 1%nat = Some y /\ y < 8 / 10.
Proof.
  pose proof sin2_oblique as S. pose proof trig_one as T.
  set (c := cos obliquity) in *. set (s := sin obliquity) in *.
  assert (V : forall a, (a < 6)%nat -> rotate_covariance eq2ec diag_y a a = Some (near_zero (eq2ec a 1%nat * eq2ec a 1%nat))).
  { intros a A. unfold rotate_covariance, diag_y at 1. rewrite Nat.eqb_refl. do 2 f_equal. unfold sum6, diag_y. cbn [Nat.eqb fill0]. ring. }
  assert (W : forall a b, a <> b -> rotate_covariance eq2ec diag_y a b = None).
  { intros a b N. apply mask_kept. unfold diag_y. apply Nat.eqb_neq in N. rewrite N. reflexivity. }
  exists (near_zero (sandwich ec2eq (filled (rotate_covariance eq2ec diag_y)) 1%nat 1%nat)).
  split; [apply rotated_filled; rewrite V by lia; discriminate|].
  assert (E : sandwich ec2eq (filled (rotate_covariance eq2ec diag_y)) 1%nat 1%nat = c * c * near_zero (c * c) + s * s * near_zero (- s * - s)).
  { unfold sandwich, sum6, filled. rewrite !V by lia. rewrite !W by lia. cbn [fill0].
    unfold ec2eq, eq2ec, rot3. cbn [Nat.ltb Nat.leb andb Nat.sub]. fold c s. ring. }
  rewrite E. pose proof (near_zero_le (c * c) ltac:(nra)) as N1. pose proof (near_zero_le (- s * - s) ltac:(nra)) as N2.
  assert (B1 : c * c * near_zero (c * c) <= c * c * (c * c)) by (apply Rmult_le_compat_l; [nra|apply N1]).
  assert (B2 : s * s * near_zero (- s * - s) <= s * s * (- s * - s)) by (apply Rmult_le_compat_l; [nra|apply N2]).
  assert (P : 0 <= c * c * near_zero (c * c) + s * s * near_zero (- s * - s)) by (apply Rplus_le_le_0_compat; apply Rmult_le_pos; nra).
  eapply Rle_lt_trans; [apply near_zero_le; exact P|].
  assert (Q : c * c = 1 - s * s) by lra. replace (- s * - s) with (s * s) in * by ring. rewrite Q in *. nra.
Qed.
