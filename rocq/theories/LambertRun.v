(* The first guess, the cases without a result, and times of flight the solver meets exactly. *)
From Coq Require Import Reals ZArith Bool Lra Lia Psatz Field Ranalysis5 List.
From Coquelicot Require Import Coquelicot.
From Verif Require Import Base SphModel KepModel KepHyp UnivFun LambertModel LambertPlane LambertTime LambertDeriv LambertGeom LambertSeries.
Open Scope R_scope.

Lemma l_sq_abs : forall l, Rabs l < 1 <-> l * l < 1.
Proof.
  intro l. split; intro H.
  - apply Rabs_def2 in H. nra.
  - apply Rabs_def1; nra.
Qed.
Lemma pow_lt_1 : forall z, 0 < z < 1 -> Rpower z (3 / 2) < 1.
Proof.
  intros z Z. assert (L : ln z < ln 1) by (apply ln_increasing; lra). rewrite ln_1 in L. unfold Rpower. pose proof exp_0 as E.
  assert (exp (3 / 2 * ln z) < exp 0) by (apply exp_increasing; lra). lra.
Qed.
(* the two named times *)
Section named.
Variables (l : R) (l_small : l * l < 1).
Let th := acos l.
Lemma th_is : cos th = l /\ 0 < th < PI.
Proof. split; [apply cos_acos; nra|]. apply acos_bound_lt. nra. Qed.
Lemma T_zero_is : T_zero l 0 = th + cos th * sin th.
Proof.
  unfold T_zero. fold th. destruct th_is as [C B]. rewrite C. replace (sqrt (1 - l ^ 2)) with (sin th).
  - cbn [INR]. ring.
  - unfold th. rewrite sin_acos by nra. f_equal. unfold Rsqr. ring.
Qed.
Lemma T_zero_pos : 0 < T_zero l 0.
Proof.
  rewrite T_zero_is. destruct th_is as [C B]. pose proof (sin_lt_x th (proj1 B)) as S. pose proof (sin_gt_0 th (proj1 B) (proj2 B)). rewrite C. nra.
Qed.
Lemma T_zero_le : T_zero l 0 <= PI + 1.
Proof. rewrite T_zero_is. destruct th_is as [_ B]. pose proof (SIN_bound th). pose proof (COS_bound th). nra. Qed.
Lemma l3_lt : l ^ 3 < 1.
Proof. assert (l < 1) by nra. assert (0 < 1 + l + l * l) by nra. assert (0 < (1 - l) * (1 + l + l * l)) by (apply Rmult_lt_0_compat; lra). lra. Qed.
Lemma l5_lt : l ^ 5 < 1.
Proof. replace (l ^ 5) with (l * l * (l * l) * l) by ring. assert (A : 0 <= l * l * (l * l) < 1) by nra. assert (l < 1) by nra. set (k := l * l * (l * l)) in *. clearbody k. clear l_small. destruct (Rle_dec l 0); nra. Qed.
Lemma T_one_pos : 0 < T_one l.
Proof. unfold T_one. pose proof l3_lt. lra. Qed.
Lemma T_one_lt : T_one l < T_zero l 0.
Proof.
  rewrite T_zero_is. destruct th_is as [C B]. unfold T_one. rewrite <- C.
  set (f := fun t => t + cos t * sin t + 2 * cos t ^ 3 / 3 - 2 / 3). set (f' := fun t => 2 * (cos t * cos t) * (1 - sin t)).
  assert (D : forall c, is_derive f c (f' c)).
  { intro c. unfold f, f'. auto_derive; [exact I|]. pose proof (sin2_cos2 c) as E. unfold Rsqr in E. assert (S2 : sin c * sin c = 1 - cos c * cos c) by lra. field_simplify_eq. ring [S2]. }
  assert (M : forall a b, a < b -> exists c, f b - f a = f' c * (b - a) /\ a < c < b).
  { intros a b AB. apply (MVT_cor2 f f' a b AB). intros c _. apply is_derive_Reals, D. }
  assert (NN : forall c, 0 <= f' c). { intro c. unfold f'. pose proof (SIN_bound c). apply Rmult_le_pos; [nra|lra]. }
  assert (F0 : f 0 = 0) by (unfold f; rewrite cos_0, sin_0; field).
  assert (P1 : 1 < PI / 2) by exact PI2_1.
  assert (K : forall u, 0 < u <= 1 -> 0 < f u).
  { intros u U. destruct (M 0 u ltac:(lra)) as (c & E & Cc). rewrite F0 in E. assert (0 < f' c); [|nra].
    unfold f'. assert (0 < cos c) by (apply cos_gt_0; lra). assert (sin c < 1) by (pose proof (sin_lt_x c ltac:(lra)); lra). apply Rmult_lt_0_compat; nra. }
  assert (0 < f th); [|unfold f in *; lra].
  destruct (Rle_dec th 1) as [H|H]; [apply K; lra|]. pose proof (K 1 ltac:(lra)) as K1. destruct (M 1 th ltac:(lra)) as (c & E & Cc). pose proof (NN c). nra.
Qed.
End named.

(* C163 *)
Lemma guess_high : forall T l, l * l < 1 -> T_zero l 0 <= T -> exists g, guess_single T l = Some g /\ -1 < g <= 0 /\ (T_zero l 0 < T -> g < 0).
Proof.
  intros T l L H. pose proof (T_zero_pos l L) as P. unfold guess_single. destruct (Rle_dec (T_zero l 0) T) as [_|N]; [|contradiction].
  unfold guard, rlt. destruct (Rlt_dec 0 T) as [TP|N]; [|lra]. eexists. split; [reflexivity|]. unfold Rpower.
  pose proof (exp_pos (2 / 3 * ln (T_zero l 0 / T))) as E. split; [split; [lra|]|].
  - assert (ln (T_zero l 0 / T) <= 0). { rewrite <- ln_1. assert (0 < T_zero l 0 / T) by (apply Rdiv_lt_0_compat; lra). assert (T_zero l 0 / T <= 1) by (apply (Rmult_le_reg_r T); [lra|]; unfold Rdiv; rewrite Rmult_assoc, Rinv_l; lra).
      destruct (Req_dec (T_zero l 0 / T) 1) as [Q|Q]; [rewrite Q; lra|]. left. apply ln_increasing; lra. }
    assert (exp (2 / 3 * ln (T_zero l 0 / T)) <= exp 0). { destruct (Req_dec (2 / 3 * ln (T_zero l 0 / T)) 0) as [Q|Q]; [rewrite Q; lra|]. left. apply exp_increasing. lra. }
    rewrite exp_0 in *. lra.
  - intro S. assert (ln (T_zero l 0 / T) < 0). { rewrite <- ln_1. apply ln_increasing; [apply Rdiv_lt_0_compat; lra|]. apply (Rmult_lt_reg_r T); [lra|]; unfold Rdiv; rewrite Rmult_assoc, Rinv_l; lra. }
    assert (exp (2 / 3 * ln (T_zero l 0 / T)) < exp 0) by (apply exp_increasing; lra). rewrite exp_0 in *. lra.
Qed.
Lemma guess_low : forall T l, l * l < 1 -> 0 < T < T_one l -> exists g, guess_single T l = Some g /\ 1 < g.
Proof.
  intros T l L H. pose proof (T_one_lt l L) as P. pose proof (l5_lt l L) as L5. unfold guess_single. destruct (Rle_dec (T_zero l 0) T) as [N|_]; [lra|].
  destruct (Rlt_dec T (T_one l)) as [_|N]; [|lra]. destruct (Req_EM_T T 0) as [N|_]; [lra|]. destruct (Req_EM_T (1 - l ^ 5) 0) as [N|_]; [lra|].
  eexists. split; [reflexivity|]. assert (0 < 5 / 2 * T_one l / T * (T_one l - T) / (1 - l ^ 5)); [|lra].
  apply Rdiv_lt_0_compat; [|lra]. apply Rmult_lt_0_compat; [|lra]. apply Rdiv_lt_0_compat; lra.
Qed.
Lemma guess_mid : forall T l, l * l < 1 -> T_one l <= T < T_zero l 0 -> exists g, guess_single T l = Some g /\ 0 < g <= 1 /\ (T = T_one l -> g = 1).
Proof.
  intros T l L H. pose proof (T_one_lt l L) as P. pose proof (T_one_pos l L) as P1. pose proof (T_zero_pos l L) as P0. unfold guess_single. destruct (Rle_dec (T_zero l 0) T) as [N|_]; [lra|].
  destruct (Rlt_dec T (T_one l)) as [N|_]; [lra|]. unfold guard, rlt. destruct (Rlt_dec 0 T) as [TP|N]; [|lra]. eexists. split; [reflexivity|].
  assert (LT : forall u, 0 < u < T_zero l 0 -> ln (u / T_zero l 0) < 0).
  { intros u U. rewrite <- ln_1. apply ln_increasing; [apply Rdiv_lt_0_compat; lra|]. apply (Rmult_lt_reg_r (T_zero l 0)); [lra|]. unfold Rdiv; rewrite Rmult_assoc, Rinv_l; lra. }
  pose proof (LT T ltac:(lra)) as A. pose proof (LT (T_one l) ltac:(lra)) as B. set (a := ln (T / T_zero l 0)) in *. set (b := ln (T_one l / T_zero l 0)) in *.
  assert (AB : b <= a /\ (T = T_one l -> a = b)).
  { split; [|intros ->; reflexivity]. destruct (Req_dec T (T_one l)) as [E|E]; [unfold a, b; rewrite E; lra|]. left. apply ln_increasing; [apply Rdiv_lt_0_compat; lra|]. apply Rmult_lt_compat_r; [apply Rinv_0_lt_compat; lra|lra]. }
  assert (L2 : 0 < ln 2) by (rewrite <- ln_1; apply ln_increasing; lra). destruct AB as [AB1 AB2].
  assert (Q : 0 < a / b <= 1).
  { split; [replace (a / b) with (- a / - b) by (field; lra); apply Rdiv_lt_0_compat; lra|].
    replace (a / b) with (- a / - b) by (field; lra). apply (Rmult_le_reg_r (- b)); [lra|]. unfold Rdiv. rewrite Rmult_assoc, Rinv_l by lra. lra. }
  replace (ln 2 * a / b) with (ln 2 * (a / b)) by (field; lra).
  assert (E1 : exp 0 < exp (ln 2 * (a / b))) by (apply exp_increasing; nra). rewrite exp_0 in E1.
  assert (E2 : exp (ln 2 * (a / b)) <= exp (ln 2)). { destruct (Req_dec (ln 2 * (a / b)) (ln 2)) as [Z|Z]; [rewrite Z; lra|]. left. apply exp_increasing. nra. }
  rewrite exp_ln in E2 by lra. split; [lra|]. intro TE. rewrite (AB2 TE). replace (b / b) with 1 by (field; lra). rewrite Rmult_1_r, exp_ln by lra. lra.
Qed.
Lemma guess_at_zero : forall l, l * l < 1 -> guess_single (T_zero l 0) l = Some 0.
Proof.
  intros l L. pose proof (T_zero_pos l L) as P. unfold guess_single. destruct (Rle_dec (T_zero l 0) (T_zero l 0)) as [_|N]; [|lra].
  unfold guard, rlt. destruct (Rlt_dec 0 (T_zero l 0)) as [_|N]; [|lra]. replace (T_zero l 0 / T_zero l 0) with 1 by (field; lra).
  unfold Rpower. rewrite ln_1, Rmult_0_r, exp_0. f_equal. lra.
Qed.

(* the general branch *)
Lemma tof_general_is : forall x l M, x ^ 2 <> 1 -> tof_general x (compute_y x l) l M = Some (Tg l M x).
Proof. intros x l M H. unfold tof_general. destruct (Req_EM_T (x ^ 2) 1) as [N|_]; [contradiction|]. reflexivity. Qed.
Lemma far_low : forall x M, x <= 6 / 10 -> near_parabola x M = false.
Proof.
  intros x [|M] X; [|reflexivity]. cbn. unfold rlt. destruct (Rlt_dec (sqrt (6 / 10)) x) as [N|_]; [|reflexivity].
  assert (6 / 10 < sqrt (6 / 10)). { apply Rsqr_incrst_0; [|lra|apply sqrt_pos]. unfold Rsqr. rewrite sqrt_sqrt by lra. lra. } lra.
Qed.
Lemma far_multi : forall x M, M <> 0%nat -> near_parabola x M = false.
Proof. intros x [|M] H; [contradiction|reflexivity]. Qed.
Lemma tof_low : forall x T l M, x ^ 2 <> 1 -> near_parabola x M = false -> tof_equation x T l M = Some (Tg l M x - T).
Proof. intros x T l M H F. unfold tof_equation, tof_equation_y. rewrite F, tof_general_is by exact H. reflexivity. Qed.
Lemma Tg_0 : forall l, l * l < 1 -> Tg l 0 0 = T_zero l 0.
Proof.
  intros l L. unfold Tg. rewrite psi_near by lra.
  replace (1 - 0 ^ 2) with 1 by ring. rewrite Rabs_R1, sqrt_1. rewrite Rmult_0_l, Rplus_0_l. replace (l * (1 - 0 * 0)) with l by ring.
  unfold compute_y, T_zero. replace (1 - l ^ 2 * (1 - 0 ^ 2)) with (1 - l ^ 2) by ring. field.
Qed.
Lemma slope_neg : forall x T l, l * l < 1 -> -1 < x <= 0 -> 0 < T -> tof_p x (compute_y x l) T l < 0.
Proof.
  intros x T l L X TP. unfold tof_p. pose proof (Y_pos l L x) as YP. pose proof (Y_sq l L x) as YS. set (y := compute_y x l) in *. cbv beta in *.
  assert (A : - y <= l * x <= y) by (assert ((l * x) * (l * x) <= y * y) by (rewrite YS; nra); nra).
  assert (B : Rabs (l * x / y) <= 1). { apply Rabs_le. split; apply (Rmult_le_reg_r y); try lra; unfold Rdiv; rewrite Rmult_assoc, Rinv_l by lra; lra. }
  apply Rabs_le_between in B. replace (2 * l ^ 3 * x / y) with (2 * (l * l) * (l * x / y)) by (field; lra).
  assert (0 < / (1 - x ^ 2)) by (apply Rinv_0_lt_compat; nra). assert (3 * T * x - 2 + 2 * (l * l) * (l * x / y) < 0) by nra.
  unfold Rdiv at 1. nra.
Qed.
Lemma M_max_0 : forall l T n atol rtol, 0 < T -> (0 <=? M_max l T n atol rtol)%Z = true.
Proof.
  intros l T n atol rtol TP. apply Z.leb_le. unfold M_max. pose proof PI_RGT_0 as PP.
  assert (Q : 0 < T / PI) by (apply Rdiv_lt_0_compat; lra). destruct (base_Int_part (T / PI)) as [A B].
  assert (I : (0 <= Int_part (T / PI))%Z). { assert (IZR (-1) < IZR (Int_part (T / PI))) by lra. apply lt_IZR in H. lia. }
  set (m := Int_part (T / PI)) in *. destruct (0 <? m)%Z eqn:P; [apply Z.ltb_lt in P|rewrite andb_false_r; exact I]. rewrite andb_true_r.
  destruct (rlt _ _); [|exact I]. destruct (compute_T_min _ _ _ _ _); [|exact I]. destruct (Rlt_dec _ _); lia.
Qed.
Lemma M_max_le : forall l T n atol rtol, IZR (M_max l T n atol rtol) <= T / PI.
Proof.
  intros l T n atol rtol. unfold M_max. destruct (base_Int_part (T / PI)) as [A _]. set (m := Int_part (T / PI)) in *.
  assert (B : IZR (m - 1) <= T / PI) by (rewrite minus_IZR; lra). destruct (rlt _ _ && _)%bool; [|exact A]. destruct (compute_T_min _ _ _ _ _); [|exact A]. destruct (Rlt_dec _ _); assumption.
Qed.
(* a guess whose shifted value is a root is returned *)
Lemma exact_run : forall u T l n atol rtol low, l * l < 1 -> (1 <= n)%nat -> 0 < atol -> 0 <= rtol -> 0 < T ->
  guess_single T l = Some u -> let p := u * (11 / 10) + 1 / 100 in -1 < p <= 0 -> Tg l 0 p = T ->
  find_x l T 0 n atol rtol low = Some p /\ tof_equation p T l 0 = Some 0.
Proof.
  intros u T l n atol rtol low L N AT RT TP G p P E.
  assert (PN : p ^ 2 <> 1) by nra.
  assert (Z : tof_equation p T l 0 = Some 0) by (rewrite tof_low; [f_equal; lra|exact PN|apply far_low; lra]).
  split; [|exact Z]. unfold find_x. destruct (Rlt_dec (Rabs l) 1) as [_|K]; [|exfalso; apply K, l_sq_abs, L].
  change (Z.of_nat 0) with 0%Z. rewrite M_max_0 by exact TP. cbn [guard]. unfold initial_guess. rewrite G. cbn [obind]. unfold householder. fold p.
  destruct n as [|n]; [lia|]. cbn [house_loop]. destruct (Rlt_dec _ _) as [_|_]; [reflexivity|].
  assert (ST : house_step T l 0 p = Some p).
  { unfold house_step. unfold tof_equation in Z. rewrite Z. cbn [obind]. destruct (Req_EM_T (p ^ 2) 1) as [K|_]; [contradiction|].
    rewrite Rplus_0_l. pose proof (slope_neg p T l L P TP) as SN. set (fd := tof_p p (compute_y p l) T l) in *.
    set (den := fd * (fd ^ 2 - 0 * tof_p2 p (compute_y p l) T fd l) + _). assert (DN : den < 0). { unfold den. rewrite !Rmult_0_l, Rminus_0_r. replace (0 ^ 2) with 0 by ring. unfold Rdiv. rewrite !Rmult_0_r, Rmult_0_l, Rplus_0_r. assert (0 < fd * fd) by nra. replace (fd ^ 2) with (fd * fd) by ring. nra. }
    clearbody den. set (den' := if Rlt_dec (Rabs den) _ then _ else _). assert (DN' : den' < 0).
    { unfold den'. destruct (Rlt_dec _ _); [|exact DN]. unfold rsign. destruct (Rlt_dec 0 den); [lra|]. destruct (Rlt_dec den 0); [|lra]. assert (0 < / 10 ^ 15) by (apply Rinv_0_lt_compat; apply pow_lt; lra). lra. }
    clearbody den'. destruct (Req_EM_T den' 0) as [K|_]; [lra|]. cbn [obind]. rewrite Rmult_0_l. rewrite clip_in; [f_equal; lra|].
    pose proof (Rmax_l (1 / 10) (Rabs p)). lra. }
  rewrite ST. cbn [obind]. destruct n as [|n]; cbn [house_loop]; (destruct (Rlt_dec _ _) as [_|K]; [reflexivity|]); [reflexivity|].
  exfalso. apply K. replace (p - p) with 0 by ring. rewrite Rabs_R0. pose proof (Rabs_pos p). nra.
Qed.
Lemma psi_low : forall l, l * l < 1 -> PI / 2 <= compute_psi (- (99 / 100)) (compute_y (- (99 / 100)) l) l.
Proof.
  intros l L. rewrite psi_near by lra. cbv beta. pose proof (Y_pos l L (- (99 / 100))) as YP. pose proof (Y_sq l L (- (99 / 100))) as YS. cbv beta in *.
  pose proof (A_in l L (- (99 / 100)) ltac:(lra)) as AI. cbv beta in AI. set (y := compute_y (- (99 / 100)) l) in *.
  set (A := - (99 / 100) * y + l * (1 - - (99 / 100) * - (99 / 100))) in *.
  assert (AN : A < 0). { unfold A. assert (1 / 2 < y) by nra. assert (l < 1) by nra. nra. }
  pose proof (acos_bound A) as B. destruct (Rle_dec (PI / 2) (acos A)) as [|N]; [assumption|]. exfalso.
  assert (0 < cos (acos A)) by (apply cos_gt_0; lra). rewrite cos_acos in * by lra. lra.
Qed.
Lemma pow32 : / (11 * (34 / 10)) <= Rpower (1 / 11) (3 / 2).
Proof.
  replace (3 / 2) with (1 + / 2) by field. rewrite Rpower_plus, Rpower_1 by lra. rewrite Rpower_sqrt by lra.
  assert (/ (34 / 10) <= sqrt (1 / 11)). { apply Rsqr_incr_0; [|lra|apply sqrt_pos]. unfold Rsqr. rewrite sqrt_sqrt by lra. lra. } lra.
Qed.
Lemma high_value : forall l, l * l < 1 -> T_zero l 0 < Tg l 0 (- (99 / 100)) * Rpower (1 / 11) (3 / 2).
Proof.
  intros l L. unfold Tg. pose proof (psi_low l L) as P. pose proof (T_zero_le l L) as Z. pose proof PI_4 as P4. pose proof PI2_3_2 as P3.
  pose proof (Y_pos l L (- (99 / 100))) as YP. pose proof (Y_sq l L (- (99 / 100))) as YS. cbv beta in *. set (y := compute_y (- (99 / 100)) l) in *.
  set (psi := compute_psi (- (99 / 100)) y l) in *. cbn [INR]. rewrite Rmult_0_l, Rplus_0_r.
  rewrite Rabs_right by nra. replace (1 - (- (99 / 100)) ^ 2) with (199 / 10000) by field.
  set (w := sqrt (199 / 10000)). assert (W : 0 < w) by (apply sqrt_lt_R0; lra).
  assert (W1 : w <= 1411 / 10000). { unfold w. apply Rsqr_incr_0; [|apply sqrt_pos|lra]. unfold Rsqr. rewrite sqrt_sqrt; lra. }
  assert (PW : 10 <= psi / w). { apply (Rmult_le_reg_r w); [exact W|]. unfold Rdiv. rewrite Rmult_assoc, Rinv_l by lra. nra. }
  assert (LY : -1 <= l * y) by (assert ((l * y) * (l * y) <= 1) by nra; nra).
  assert (B : 300 <= (psi / w - - (99 / 100) + l * y) / (199 / 10000)) by lra.
  pose proof pow32 as Q. set (k := Rpower _ _) in *. clearbody k. set (t := _ / (199 / 10000)) in *. clearbody t.
  assert (300 * / (11 * (34 / 10)) <= t * k) by (apply Rmult_le_compat; lra). lra.
Qed.
Lemma exact_time : forall l n atol rtol low, l * l < 1 -> (1 <= n)%nat -> 0 < atol -> 0 <= rtol ->
  exists T x, 0 < T /\ T_zero l 0 <= T /\ -1 < x <= 0 /\ find_x l T 0 n atol rtol low = Some x /\ tof_equation x T l 0 = Some 0.
Proof.
  intros l n atol rtol low L N AT RT. pose proof (T_zero_pos l L) as TZ.
  set (P := fun u => u * (11 / 10) + 1 / 100).
  set (f := fun u => T_zero l 0 - Tg l 0 (P u) * Rpower (1 + u) (3 / 2)).
  assert (Ct : forall u, - (10 / 11) <= u <= - (1 / 110) -> continuity_pt f u).
  { intros u U. apply derivable_continuous_pt.
    assert (PU : -1 < P u < 1) by (unfold P; lra).
    assert (D1 : is_derive P u (11 / 10)) by (unfold P; auto_derive; [exact I|ring]).
    pose proof (d_comp P (Tg l 0) u _ _ D1 (T_deriv l L 0 (P u) (or_introl PU))) as D2.
    assert (D3 : is_derive (fun u => Rpower (1 + u) (3 / 2)) u (3 / 2 * Rpower (1 + u) (3 / 2) / (1 + u))).
    { unfold Rpower. auto_derive; [lra|]. field. lra. }
    pose proof (d_minus (fun _ => T_zero l 0) _ u _ _ (d_const (T_zero l 0) u) (d_mult (fun u => Tg l 0 (P u)) (fun u => Rpower (1 + u) (3 / 2)) u _ _ D2 D3)) as D.
    eexists. apply is_derive_Reals in D. exact D. }
  assert (F0 : f (- (10 / 11)) < 0).
  { unfold f, P. replace (- (10 / 11) * (11 / 10) + 1 / 100) with (- (99 / 100)) by field. replace (1 + - (10 / 11)) with (1 / 11) by field. pose proof (high_value l L). lra. }
  assert (F1 : 0 < f (- (1 / 110))).
  { unfold f, P. replace (- (1 / 110) * (11 / 10) + 1 / 100) with 0 by field. rewrite Tg_0 by exact L. pose proof (pow_lt_1 (1 + - (1 / 110)) ltac:(lra)). set (k := Rpower _ _) in *. clearbody k. nra. }
  destruct (IVT_interv f (- (10 / 11)) (- (1 / 110)) Ct ltac:(lra) F0 F1) as (u & U & Z).
  set (k := Rpower (1 + u) (3 / 2)). assert (KP : 0 < k) by apply exp_pos.
  assert (K1 : k < 1) by (apply pow_lt_1; lra).
  assert (TE : Tg l 0 (P u) * k = T_zero l 0) by (unfold f in Z; fold k in Z; lra). set (T := Tg l 0 (P u)) in *.
  assert (TP : 0 < T) by (apply (Rmult_lt_reg_r k); lra). assert (TT : T_zero l 0 <= T) by (rewrite <- TE; clear - TP KP K1; nra).
  assert (G : guess_single T l = Some u).
  { unfold guess_single. destruct (Rle_dec (T_zero l 0) T) as [_|K]; [|contradiction]. unfold guard, rlt. destruct (Rlt_dec 0 T) as [_|K]; [|contradiction]. f_equal.
    replace (T_zero l 0 / T) with k by (rewrite <- TE; field; lra). unfold k. rewrite Rpower_mult. replace (3 / 2 * (2 / 3)) with 1 by field. rewrite Rpower_1 by lra. lra. }
  exists T, (P u). split; [exact TP|]. split; [exact TT|]. assert (PU : -1 < P u <= 0) by (unfold P; lra). split; [exact PU|].
  apply (exact_run u T l n atol rtol low L N AT RT TP G PU). reflexivity.
Qed.
Lemma no_time : forall l T M n atol rtol low, T <= 0 -> find_x l T M n atol rtol low = None.
Proof.
  intros l T M n atol rtol low TN. unfold find_x. destruct (Rlt_dec (Rabs l) 1) as [LA|_]; [|reflexivity]. apply l_sq_abs in LA.
  destruct (Z.of_nat M <=? _)%Z eqn:E; [|reflexivity]. cbn [guard].
  apply Z.leb_le in E. pose proof (M_max_le l T n atol rtol) as B. apply IZR_le in E. rewrite <- INR_IZR_INZ in E. pose proof (pos_INR M). pose proof PI_RGT_0.
  assert (T / PI <= 0). { apply (Rmult_le_reg_r PI); [lra|]. unfold Rdiv. rewrite Rmult_assoc, Rinv_l; lra. } assert (TZ : T = 0). { assert (Q : T / PI = 0) by lra. replace T with (T / PI * PI) by (field; lra). rewrite Q. ring. }
  pose proof (T_zero_pos l LA). pose proof (T_one_pos l LA). destruct M as [|M]; cbn [initial_guess].
  - unfold guess_single. destruct (Rle_dec _ _); [lra|]. destruct (Rlt_dec T _); [|lra]. destruct (Req_EM_T T 0); [reflexivity|contradiction].
  - unfold guess_multi, guard, rlt. destruct (Rlt_dec 0 T); [lra|]. reflexivity.
Qed.
Lemma few_turns : forall l T M n atol rtol low, T < INR M * PI -> find_x l T M n atol rtol low = None.
Proof.
  intros l T M n atol rtol low H. unfold find_x. destruct (Rlt_dec (Rabs l) 1) as [LA|_]; [|reflexivity].
  destruct (Z.of_nat M <=? _)%Z eqn:E; [|reflexivity]. exfalso.
  apply Z.leb_le in E. pose proof (M_max_le l T n atol rtol) as B. apply IZR_le in E. rewrite <- INR_IZR_INZ in E. pose proof PI_RGT_0.
  assert (INR M <= T / PI) by lra. assert (INR M * PI <= T / PI * PI) by (apply Rmult_le_compat_r; lra). replace (T / PI * PI) with T in * by (field; lra). lra.
Qed.
