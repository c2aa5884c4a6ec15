From Coq Require Import Reals Lra.
From Flocq Require Import Core Sterbenz.
From Verif Require Import Base TimeRModel ResRModel.
From Verif Require Import TimeRProofs FitRProofs.
Open Scope R_scope.
Local Instance p53r : Prec_gt_0 53 := eq_refl.

Lemma f64_360 : is_f64 360. Proof. apply (f64_int 360). cbn. lia. Qed.
Lemma f64_180 : is_f64 180. Proof. apply (f64_int 180). cbn. lia. Qed.
Lemma f64_fl : forall x, is_f64 (fl x).
Proof. intros. apply generic_format_round; [apply FLT_exp_valid; reflexivity|apply valid_rnd_N]. Qed.
Lemma f64_opp : forall x, is_f64 x -> is_f64 (- x). Proof. intros. apply generic_format_opp. auto. Qed.
Lemma minus_360 : forall r, is_f64 r -> 180 <= r <= 360 -> fl (r - 360) = r - 360.
Proof.
  intros r F H. apply fl_id. apply sterbenz; auto.
  - apply FLT_exp_valid; reflexivity. - apply FLT_exp_monotone. - apply f64_360. - lra.
Qed.
Lemma plus_360 : forall r, is_f64 r -> - 360 <= r <= - 180 -> fl (r + 360) = r + 360.
Proof.
  intros r F H. apply fl_id. replace (r + 360) with (- (- r - 360)) by lra. apply f64_opp.
  apply sterbenz; auto using f64_opp.
  - apply FLT_exp_valid; reflexivity. - apply FLT_exp_monotone. - apply f64_opp; auto. - apply f64_360. - lra.
Qed.
Lemma fl_diff_bounds : forall o p, is_f64 o -> is_f64 p -> 0 <= o <= 360 -> 0 <= p <= 360 ->
  - 360 <= fl (o - p) <= 360 /\ fl (o - p) <= o /\ (fl (o - p) < - 180 -> o < 180).
Proof.
  intros o p Fo Fp Ho Hp.
  assert (A : fl (o - p) <= fl o) by (apply fl_mono; lra). rewrite (fl_id o Fo) in A.
  assert (B : fl (-360) <= fl (o - p)) by (apply fl_mono; lra). rewrite (fl_id (-360)) in B by (apply (f64_int (-360)); cbn; lia).
  split; [lra|]. split; auto. intros H. apply Rnot_le_lt. intros C.
  assert (D : fl (-180) <= fl (o - p)) by (apply fl_mono; lra). rewrite (fl_id (-180)) in D by (apply (f64_int (-180)); cbn; lia). lra.
Qed.
Lemma fl_diff_err : forall o p, - 360 <= o - p <= 360 -> Rabs (fl (o - p) - (o - p)) <= bpow radix2 (-45).
Proof.
  intros o p H. unfold fl. eapply Rle_trans; [apply error_le_half_ulp; apply FLT_exp_valid; reflexivity|].
  assert (ulp radix2 fexp (o - p) <= ulp radix2 fexp 360).
  { apply ulp_le; [apply FLT_exp_valid; reflexivity|apply FLT_exp_monotone|]. rewrite (Rabs_pos_eq 360) by lra. apply Rabs_le. lra. }
  assert (U : ulp radix2 fexp 360 = bpow radix2 (-44)).
  { rewrite ulp_neq_0 by lra. f_equal. unfold cexp. rewrite (mag_unique radix2 360 9); [reflexivity|].
    rewrite Rabs_pos_eq by lra. simpl. lra. }
  rewrite U in H0. pose proof (bpow_plus_1 radix2 (-45)) as E. change (-45 + 1)%Z with (-44)%Z in E. change (IZR radix2) with 2 in E. lra.
Qed.

Lemma longitude_cases : forall o p, is_f64 o -> is_f64 p -> 0 <= o <= 360 -> 0 <= p <= 360 ->
  let r := fl (o - p) in
  (- 180 <= r <= 180 /\ longitude_residual o p = r) \/
  (180 < r <= 360 /\ longitude_residual o p = 360 - r) \/
  (- 360 <= r < - 180 /\ longitude_residual o p = - 360 - r).
Proof.
  intros o p Fo Fp Ho Hp r. destruct (fl_diff_bounds o p Fo Fp Ho Hp) as [B [A C]]. fold r in A, B, C.
  unfold longitude_residual, bound_longitude, lon_difference. fold r. cbv zeta.
  destruct (Rlt_bool_spec 180 r) as [G|G]; destruct (Rlt_bool_spec r (-180)) as [L|L]; try lra.
  - right. left. split; [lra|]. rewrite (Rlt_bool_true 180 o) by lra. cbn [andb].
    rewrite minus_360; [lra|apply f64_fl|lra].
  - right. right. split; [lra|]. rewrite (Rlt_bool_true o 180) by auto. cbn [andb].
    rewrite plus_360; [lra|apply f64_fl|lra].
  - left. split; [lra|]. reflexivity.
Qed.

From Verif Require Import ResRSpec.
Lemma separation_ex : forall x, - 360 <= x <= 360 -> forall o p, x = o - p ->
  is_separation o p (Rmin (Rabs x) (360 - Rabs x)).
Proof.
  intros x H o p ->. split.
  - unfold Rmin. destruct (Rle_dec _ _) as [L|L].
    + exists 0%Z. f_equal. ring.
    + destruct (Rle_or_lt 0 (o - p)) as [S|S].
      * exists (-1)%Z. rewrite (Rabs_pos_eq (o - p)) in * by lra. rewrite Rabs_left1; lra.
      * exists 1%Z. rewrite (Rabs_left1 (o - p)) in * by lra. rewrite Rabs_pos_eq; lra.
  - intros k. set (y := o - p) in *. clearbody y.
    destruct (Z.eq_dec k 0) as [->|NZ]; [rewrite Rmult_0_r, Rplus_0_r; apply Rmin_l|].
    eapply Rle_trans; [apply Rmin_r|].
    assert (K : 1 <= Rabs (IZR k)).
    { rewrite <- abs_IZR. apply IZR_le. lia. }
    pose proof (Rabs_triang (y + 360 * IZR k) (- y)) as T.
    replace (y + 360 * IZR k + - y) with (360 * IZR k) in T by ring.
    rewrite Rabs_mult, Rabs_Ropp, (Rabs_pos_eq 360) in T by lra. lra.
Qed.
Lemma fold_lipschitz : forall a b, Rabs (Rmin (Rabs a) (360 - Rabs a) - Rmin (Rabs b) (360 - Rabs b)) <= Rabs (a - b).
Proof.
  intros. pose proof (Rabs_triang_inv a b). pose proof (Rabs_triang_inv b a). rewrite (Rabs_minus_sym b a) in H0.
  unfold Rmin. destruct (Rle_dec _ _), (Rle_dec _ _); apply Rabs_le; lra.
Qed.
Lemma longitude_bounded : forall o p, is_f64 o -> is_f64 p -> 0 <= o <= 360 -> 0 <= p <= 360 ->
  - 180 <= longitude_residual o p <= 180 /\
  exists d, is_separation o p d /\ Rabs (Rabs (longitude_residual o p) - d) <= bpow radix2 (-45).
Proof.
  intros o p Fo Fp Ho Hp. pose proof (longitude_cases o p Fo Fp Ho Hp) as C. cbv zeta in C.
  assert (E : Rabs (longitude_residual o p) = Rmin (Rabs (fl (o - p))) (360 - Rabs (fl (o - p)))).
  { unfold Rmin. destruct C as [[A ->]|[[A ->]|[A ->]]].
    - assert (Rabs (fl (o - p)) <= 180) by (apply Rabs_le; lra). destruct (Rle_dec _ _); lra.
    - rewrite (Rabs_pos_eq (fl (o - p))) by lra. rewrite Rabs_pos_eq by lra. destruct (Rle_dec _ _); lra.
    - rewrite (Rabs_left1 (fl (o - p))) by lra. rewrite Rabs_left1 by lra. destruct (Rle_dec _ _); lra. }
  split; [destruct C as [[A ->]|[[A ->]|[A ->]]]; lra|].
  exists (Rmin (Rabs (o - p)) (360 - Rabs (o - p))). split; [apply separation_ex; lra|].
  rewrite E. eapply Rle_trans; [apply fold_lipschitz|]. apply fl_diff_err. lra.
Qed.
(* the documented sign convention *)
Lemma longitude_sign : forall o p, is_f64 o -> is_f64 p -> 0 <= o <= 360 -> 0 <= p <= 360 ->
  (p <= o -> 0 <= longitude_residual o p) /\ (o <= p -> longitude_residual o p <= 0).
Proof.
  intros o p Fo Fp Ho Hp. pose proof (longitude_cases o p Fo Fp Ho Hp) as C. cbv zeta in C.
  pose proof (fl_id 0 f64_0) as Z0. split; intros H.
  - assert (fl 0 <= fl (o - p)) by (apply fl_mono; lra). destruct C as [[A ->]|[[A ->]|[A ->]]]; lra.
  - assert (fl (o - p) <= fl 0) by (apply fl_mono; lra). destruct C as [[A ->]|[[A ->]|[A ->]]]; lra.
Qed.
Lemma longitude_near : forall o p, is_f64 o -> is_f64 p -> 0 <= o <= 360 -> 0 <= p <= 360 -> Rabs (o - p) <= 180 ->
  longitude_residual o p = fl (o - p).
Proof.
  intros o p Fo Fp Ho Hp H. apply Rabs_le_inv in H. pose proof (longitude_cases o p Fo Fp Ho Hp) as C. cbv zeta in C.
  assert (fl (-180) <= fl (o - p) <= fl 180) by (split; apply fl_mono; lra).
  rewrite (fl_id 180 f64_180), (fl_id (-180)) in H0 by (apply (f64_int (-180)); cbn; lia).
  destruct C as [[A ->]|[[A ->]|[A ->]]]; lra.
Qed.
Lemma longitude_int : forall a b : Z, (0 <= a <= 360)%Z -> (0 <= b <= 360)%Z ->
  longitude_residual (IZR a) (IZR b) =
  IZR (if (180 <? a - b)%Z then 360 - (a - b) else if (a - b <? -180)%Z then - 360 - (a - b) else a - b).
Proof.
  intros a b Ha Hb.
  assert (F : forall z, (-360 <= z <= 360)%Z -> is_f64 (IZR z)) by (intros; apply f64_int; lia).
  pose proof (longitude_cases (IZR a) (IZR b) (F a ltac:(lia)) (F b ltac:(lia))) as C.
  rewrite <- minus_IZR, (fl_id _ (F (a - b)%Z ltac:(lia))) in C. cbv zeta in C.
  assert (A1 : 0 <= IZR a <= 360) by (split; apply IZR_le; lia).
  assert (B1 : 0 <= IZR b <= 360) by (split; apply IZR_le; lia).
  specialize (C A1 B1).
  destruct (Z.ltb_spec 180 (a - b)) as [G|G]; [|destruct (Z.ltb_spec (a - b) (-180)) as [L|L]].
  - apply IZR_lt in G. rewrite !minus_IZR in *. destruct C as [[A ->]|[[A ->]|[A ->]]]; lra.
  - apply IZR_lt in L. apply IZR_le in G. rewrite !minus_IZR in *. destruct C as [[A ->]|[[A ->]|[A ->]]]; lra.
  - apply IZR_le in L. apply IZR_le in G. rewrite !minus_IZR in *. destruct C as [[A ->]|[[A ->]|[A ->]]]; lra.
Qed.
