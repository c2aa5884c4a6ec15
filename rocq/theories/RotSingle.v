(* Forty observations for which the verdict is a single period. *)
From Coq Require Import Reals Lra.
From Coq Require Import List String Bool Permutation Sorted.
From Verif Require Import Base ListLemmas StrOrder PhotModel PhotH RotModel RotScore RotFit RotClus RotDerive RotEst RotMain RotMore.
Import ListNotations.
Open Scope string_scope.
Open Scope list_scope.
Open Scope R_scope.

(* ---- phase coverage in words ---- *)
Lemma phase_bin_spec t p b : phase_bin t p = b <-> (0 <= b <= 19)%Z /\ IZR b / 20 <= frac_part (t / p) < (IZR b + 1) / 20.
Proof.
  unfold phase_bin. destruct (base_fp (t / p)) as [F0 F1]. set (x := frac_part (t / p)) in *. clearbody x.
  destruct (base_Int_part (x * 20)) as [I0 I1]. set (z := Int_part (x * 20)) in *. clearbody z.
  assert (Z0 : (0 <= z)%Z). { apply Z.lt_succ_r. apply lt_IZR. unfold Z.succ. rewrite plus_IZR. lra. }
  assert (Z1 : (z <= 19)%Z). { apply Z.lt_succ_r. apply lt_IZR. unfold Z.succ. rewrite plus_IZR. lra. }
  rewrite Z.min_l, Z.max_r by lia. split.
  - intros <-. split; [lia|lra].
  - intros [_ [B0 B1]]. assert (z < b + 1)%Z by (apply lt_IZR; rewrite plus_IZR; lra).
    assert (b < z + 1)%Z by (apply lt_IZR; rewrite plus_IZR; lra). lia.
Qed.
Lemma coverage_bins ts p c : coverage ts p = Some c -> exists bins, NoDup bins /\ c = INR (List.length bins) / 20 /\
  forall b, In b bins <-> (0 <= b <= 19)%Z /\ exists t, In t ts /\ IZR b / 20 <= frac_part (t / p) < (IZR b + 1) / 20.
Proof.
  unfold coverage. destruct (rle p 0); [discriminate|]. intros H.
  assert (E : c = INR (List.length (uniq Z.eqb (map (fun t => phase_bin t p) ts))) / 20) by (destruct ts; [discriminate|congruence]).
  exists (uniq Z.eqb (map (fun t => phase_bin t p) ts)). split; [apply (uniq_NoDup Z.eqb Z.eqb_eq)|]. split; [exact E|].
  intros b. rewrite (uniq_In Z.eqb Z.eqb_eq), in_map_iff. split.
  - intros (t & K & Ht). apply phase_bin_spec in K. destruct K as [K1 K2]. split; [exact K1|]. exists t. auto.
  - intros [K1 (t & Ht & K2)]. exists t. split; [apply phase_bin_spec; auto|exact Ht].
Qed.

(* ---- the reported fit is the best of the grid for its order ---- *)
Section Best.
Variable lstsq : list (list R) -> list R -> list R.
Variable hgfit : R -> R -> R * R.
Variable f_cdf : R -> Z -> Z -> R.
Variable f_ppf : R -> Z -> Z -> option R.
Variable light : R.
Opaque fit_with_period amplitude search fit_frequency fit_unclipped.

Lemma minimal_spec o l r p : estimate lstsq hgfit f_cdf f_ppf light o l = Ok r -> p_days r = Some p -> covered light l * eps64 <= min_rotations o ->
  exists data freqs k i f, map d_t data = elapsed light l /\ map d_y data = map reduced l /\
    build_grid (covered light l) (min_rotations o) (max_frequency o) (grid_scale o) (max_period o) = Ok freqs /\
    (i < List.length freqs)%nat /\ p = (if p_doubled r then 2 else 1) / nth i freqs 0 /\
    p_order r = Some k /\ p_sigma r = Some (r_sigma f) /\
    let fit j := fit_frequency lstsq hgfit (weighted_of l) (clip_sigma o) data (n_fixed (p_offsets r) (pairs l)) k (nth j freqs 0) in
    fit i = Some f /\ forall j g, (j < List.length freqs)%nat -> fit j = Some g -> r_sigma f <= r_sigma g.
Proof.
  intros H HP EPS. apply estimate_inv in H. destruct H as (OK & _ & [(_ & rs & nfil & ns & Hr & _ & ->)|(SP & freqs & all & nf & sol & half & v & S)]); [discriminate|].
  destruct S as (S1 & S2 & S3 & S4 & S5 & S6 & EV & S7 & E0 & E1 & E2 & E3 & E4 & E5 & E6 & E7 & E8 & E9 & E10 & E11 & E12 & E13 & E14 & E15 & E16 & E17 & E18 & E19 & E20 & _ & _ & DT & DY & _).
  assert (p = w_period (s_chosen sol)) by congruence. subst p.
  assert (FR : forall i, (i < List.length freqs)%nat -> eps64 <= nth i freqs 0).
  { intros i Hi. destruct (grid_range _ _ _ _ _ _ i S1 Hi) as [G _]. eapply Rle_trans; [|exact G].
    apply Rle_trans with (min_rotations o / covered light l).
    - apply (Rmult_le_reg_r (covered light l)); [exact SP|]. unfold Rdiv. rewrite Rmult_assoc, Rinv_l, Rmult_1_r by lra. lra.
    - unfold grid_min. destruct (max_period o); [apply Rmax_l|lra]. }
  destruct (derive_spec _ _ _ _ _ _ _ _ _ _ FR S6) as (ch & i & bf & _ & HI & HF & HC & HM & _).
  pose proof (fit_inv _ _ _ _ _ _ _ _ _ HF) as (K1 & K2 & _).
  exists all, freqs, (r_order ch), i, bf. split; [exact DT|]. split; [exact DY|]. split; [exact S1|]. split; [exact HI|].
  split; [rewrite HC, fwp_period, E16, HC, K1; reflexivity|]. rewrite HC, fwp_fit in E10, E11. rewrite K2 in E10.
  split; [exact E10|]. split; [exact E11|]. rewrite <- S3. split; [exact HF|]. exact HM.
Qed.
End Best.

(* ---- the example ---- *)
Definition row40 (i : nat) : obs :=
  mkobs (INR i / 20) (Some (10 * cos (4 * PI * (INR i / 20)) + 1)) None (Some "r") None (Some 1) (Some 1) (Some 0).
Definition obs40 : list obs := map row40 (seq 0 40).
Definition options40 : options := mkoptions true [2%nat] 100 (1 / 2) (101 / 100) 30 (Some 24) false Ignore 6 10 true.
Definition coeffs40 : list R := [0; 0; 0; 0; 0; 10; 0].
Definition lstsq40 : list (list R) -> list R -> list R := fun _ _ => coeffs40.

Lemma fmin_eq m l : In m l -> (forall y, In y l -> m <= y) -> fmin l = m.
Proof.
  destruct l as [|x l]; [contradiction|]. intros Hm Hl. cbn [fmin].
  assert (G : forall k x, (forall y, In y (x :: k) -> m <= y) -> m <= fold_left Rmin k x /\ (In m (x :: k) -> fold_left Rmin k x <= m)).
  { clear. induction k as [|y k IH]; intros x H; cbn [fold_left].
    - split; [apply H; left; reflexivity|]. intros [->|[]]. lra.
    - assert (M : m <= Rmin x y) by (apply Rmin_glb; apply H; cbn; auto).
      destruct (IH (Rmin x y)) as [A B]. { intros z [<-|Hz]; [exact M|apply H; cbn; auto]. }
      split; [exact A|]. intros [->|[->|Hm]].
      + apply B. left. apply Rmin_left. apply H. cbn; auto.
      + apply B. left. apply Rmin_right. apply H. cbn; auto.
      + apply B. right. exact Hm. }
  destruct (G l x Hl) as [A B]. specialize (B Hm). lra.
Qed.
Lemma fmax_eq m l : In m l -> (forall y, In y l -> y <= m) -> fmax l = m.
Proof.
  destruct l as [|x l]; [contradiction|]. intros Hm Hl. cbn [fmax].
  assert (G : forall k x, (forall y, In y (x :: k) -> y <= m) -> fold_left Rmax k x <= m /\ (In m (x :: k) -> m <= fold_left Rmax k x)).
  { clear. induction k as [|y k IH]; intros x H; cbn [fold_left].
    - split; [apply H; left; reflexivity|]. intros [->|[]]. lra.
    - assert (M : Rmax x y <= m) by (apply Rmax_lub; apply H; cbn; auto).
      destruct (IH (Rmax x y)) as [A B]. { intros z [<-|Hz]; [exact M|apply H; cbn; auto]. }
      split; [exact A|]. intros [->|[->|Hm]].
      + apply B. left. apply Rmax_left. apply H. cbn; auto.
      + apply B. left. apply Rmax_right. apply H. cbn; auto.
      + apply B. right. exact Hm. }
  destruct (G l x Hl) as [A B]. specialize (B Hm). lra.
Qed.

Lemma emission40 light : map (emission light) obs40 = map (fun i => INR i / 20 - 1 / light) (seq 0 40).
Proof. unfold obs40. rewrite map_map. apply map_ext. intros i. reflexivity. Qed.
Lemma first40 light : fmin (map (emission light) obs40) = - (1 / light).
Proof.
  rewrite emission40. apply fmin_eq.
  - apply in_map_iff. exists 0%nat. split; [cbn; lra|apply in_seq; lia].
  - intros y Hy. apply in_map_iff in Hy. destruct Hy as (i & <- & _). pose proof (pos_INR i). lra.
Qed.
Lemma elapsed40 light : elapsed light obs40 = map (fun i => INR i / 20) (seq 0 40).
Proof. unfold elapsed. rewrite first40, emission40, map_map. apply map_ext. intros i. lra. Qed.
Lemma covered40 light : covered light obs40 = 39 / 20.
Proof.
  unfold covered. rewrite first40, emission40, (fmax_eq (39 / 20 - 1 / light)); [lra| |].
  - apply in_map_iff. exists 39%nat. split; [cbn; lra|apply in_seq; lia].
  - intros y Hy. apply in_map_iff in Hy. destruct Hy as (i & <- & Hi). apply in_seq in Hi.
    assert (INR i <= INR 39) by (apply le_INR; lia). replace (INR 39) with 39 in H by (cbn; lra). lra.
Qed.
Lemma reduced40 : map reduced obs40 = map (fun i => 10 * cos (4 * PI * (INR i / 20)) + 1) (seq 0 40).
Proof.
  unfold obs40. rewrite map_map. apply map_ext. intros i. unfold reduced, row40. cbn [o_mag o_r o_delta]. unfold log10.
  rewrite Rmult_1_r, ln_1. unfold Rdiv. ring.
Qed.
Lemma usable40 ob : In ob obs40 -> usable ob.
Proof. unfold obs40. rewrite in_map_iff. intros (i & <- & _). do 4 eexists. cbn. repeat (split; [reflexivity|]). lra. Qed.
Lemma options40_ok : options_ok options40 = true.
Proof.
  unfold options_ok. cbn [clip_sigma min_rotations max_frequency grid_scale max_period min_per_group bic_improvement options40].
  assert (rle 100 0 = false /\ rle (1 / 2) 0 = false /\ rle (101 / 100) 0 = false /\ rle 30 0 = false /\ rle 24 0 = false /\ rle 0 10 = true)
    as (-> & -> & -> & -> & -> & ->) by (repeat split; first [apply rle_false; lra|apply rle_true; lra]).
  reflexivity.
Qed.
Lemma grid40_min light : grid_min (covered light obs40) (min_rotations options40) (max_period options40) = 1.
Proof. unfold grid_min. rewrite covered40. cbn [min_rotations max_period options40]. rewrite Rmax_right by lra. lra. Qed.

Section Case.
Variable hgfit : R -> R -> R * R.
Variable f_cdf : R -> Z -> Z -> R.
Variable f_ppf : R -> Z -> Z -> option R.
Variable light : R.

Lemma fit_coeffs weighted clip all nf order freq r : fit_frequency lstsq40 hgfit weighted clip all nf order freq = Some r -> r_coeffs r = coeffs40.
Proof.
  unfold fit_frequency. destruct (Nat.leb _ _); [discriminate|]. generalize all at 2. generalize 8%nat. intros k. induction k as [|k IH]; intros rows; cbn [clip_loop].
  - destruct (Nat.leb _ _); [discriminate|]. unfold solve. cbv zeta. destruct (paper_sigma _ _ _ _ _) as [[[s q] df]|]; [|discriminate].
    intros [= <-]. reflexivity.
  - destruct (Nat.leb _ _); [discriminate|]. unfold solve. cbv zeta. destruct (paper_sigma _ _ _ _ _) as [[[s q] df]|]; [|discriminate].
    destruct (forallb _ _); [intros [= <-]; reflexivity|]. apply IH.
Qed.
Lemma residual_two d f : List.length (d_fix d) = 3%nat -> forall order, (2 <= order)%nat ->
  residual coeffs40 order f d = d_y d - 10 * cos (2 * (2 * PI * f * d_t d)).
Proof.
  intros L order HO. unfold residual. destruct (d_fix d) as [|a [|b [|c [|]]]]; try discriminate.
  destruct order as [|[|order]]; [lia|lia|]. unfold fourier, dotp, coeffs40. cbn [seq flat_map app combine map fst snd rsum fold_right INR].
  match goal with |- context [combine (flat_map ?f ?l) []] => destruct (flat_map f l) end; cbn [combine map rsum fold_right]; replace (1 + 1) with 2 by ring; ring.
Qed.
Lemma periodic40 x : periodic coeffs40 2 x = 10 * cos (2 * PI * 2 * x).
Proof. unfold periodic, coeffs40. cbn [List.length seq map rsum fold_right nth Nat.sub Nat.mul Nat.add INR]. replace (1 + 1) with 2 by ring. ring. Qed.
Lemma fold_max_in l d x : In x l -> x <= fold_right Rmax d l.
Proof. induction l as [|y l IH]; [contradiction|]. cbn. intros [->|H]; [apply Rmax_l|]. eapply Rle_trans; [apply IH; exact H|apply Rmax_r]. Qed.
Lemma fold_min_in l d x : In x l -> fold_right Rmin d l <= x.
Proof. induction l as [|y l IH]; [contradiction|]. cbn. intros [->|H]; [apply Rmin_l|]. eapply Rle_trans; [apply Rmin_r|apply IH; exact H]. Qed.
Lemma amplitude40 f : r_coeffs f = coeffs40 -> r_order f = 2%nat -> 20 <= amplitude f.
Proof.
  intros HC HO. unfold amplitude. rewrite HC, HO. unfold curve. set (n := (2 ^ 12)%nat).
  assert (N : INR n = 4096). { unfold n. rewrite pow_INR. replace (INR 2) with 2 by (cbn; lra). ring. }
  assert (L : (1024 < n)%nat). { apply INR_lt. rewrite N, INR_IZR_INZ. apply IZR_lt. reflexivity. }
  clearbody n.
  set (c := map _ (seq 0 n)).
  assert (A : In 10 c). { unfold c. apply in_map_iff. exists 0%nat. split; [|apply in_seq; lia]. rewrite periodic40. cbn [INR].
    replace (2 * PI * 2 * (0 / INR n)) with 0 by (unfold Rdiv; ring). rewrite cos_0. ring. }
  assert (B : In (-10) c). { unfold c. apply in_map_iff. exists 1024%nat. split; [|apply in_seq; lia]. rewrite periodic40.
    replace (INR 1024) with 1024 by (rewrite INR_IZR_INZ; reflexivity). rewrite N.
    replace (2 * PI * 2 * (1024 / 4096)) with PI by field. rewrite cos_PI. ring. }
  pose proof (fold_max_in c (nth 0 c 0) _ A). pose proof (fold_min_in c (nth 0 c 0) _ B). lra.
Qed.

Lemma sub_full {A} (l m : list A) : sub l m -> List.length l = List.length m -> l = m.
Proof.
  induction 1 as [|x l m S IH|x l m S IH]; cbn; intros L; [reflexivity|f_equal; apply IH; lia|].
  apply sub_length in S. lia.
Qed.
Variable all : list datum.
Hypothesis HT : map d_t all = elapsed light obs40.
Hypothesis HY : map d_y all = map reduced obs40.
Hypothesis HF : forall d, In d all -> List.length (d_fix d) = 3%nat.
Lemma len40 : List.length all = 40%nat.
Proof. rewrite <- (map_length d_t), HT, elapsed40, map_length, seq_length. reflexivity. Qed.
Lemma pair40 : map (fun d => (d_t d, d_y d)) all = map (fun i => (INR i / 20, 10 * cos (4 * PI * (INR i / 20)) + 1)) (seq 0 40).
Proof.
  assert (G : forall {X Y} (f : X -> R) (g : X -> R) (h k : Y -> R) (l : list X) (m : list Y), map f l = map h m -> map g l = map k m ->
              map (fun x => (f x, g x)) l = map (fun y => (h y, k y)) m).
  { intros X Y f g h k l. induction l as [|x l IH]; intros [|y m]; cbn; try discriminate; [reflexivity|].
    intros [= A B] [= C D]. rewrite A, C, (IH m) by assumption. reflexivity. }
  apply (G datum nat d_t d_y (fun i => INR i / 20) (fun i => 10 * cos (4 * PI * (INR i / 20)) + 1)).
  - rewrite HT, elapsed40. reflexivity.
  - rewrite HY, reduced40. reflexivity.
Qed.
Lemma datum40 d : In d all -> exists i, d_t d = INR i / 20 /\ d_y d = 10 * cos (4 * PI * (INR i / 20)) + 1.
Proof.
  intros H. apply (in_map (fun d => (d_t d, d_y d))) in H. rewrite pair40, in_map_iff in H. destruct H as (i & E & _).
  exists i. split; congruence.
Qed.
Lemma at40 i : (i < 40)%nat -> exists d, In d all /\ d_t d = INR i / 20 /\ d_y d = 10 * cos (4 * PI * (INR i / 20)) + 1.
Proof.
  intros Hi. assert (H : In (INR i / 20, 10 * cos (4 * PI * (INR i / 20)) + 1) (map (fun d => (d_t d, d_y d)) all)).
  { rewrite pair40, in_map_iff. exists i. split; [reflexivity|apply in_seq; lia]. }
  rewrite in_map_iff in H. destruct H as (d & E & Hd). exists d. split; [exact Hd|]. split; congruence.
Qed.
Definition ss (order : nat) (f : R) : R := rsum (map (fun x => x * x) (map (residual coeffs40 order f) all)).
Lemma fit40 order f : (2 <= order <= 6)%nat -> exists r, fit_frequency lstsq40 hgfit false 100 all 3 order f = Some r /\
  r_coeffs r = coeffs40 /\ r_order r = order /\ r_freq r = f /\ 0 <= r_sigma r /\ r_sigma r * r_sigma r = ss order f / INR (40 - (3 + 2 * order)) /\
  0 < INR (40 - (3 + 2 * order)).
Proof.
  intros HO. assert (D : INR (40 - (3 + 2 * order)) <= 100 * 100).
  { apply Rle_trans with (INR 40); [apply le_INR; lia|]. replace (INR 40) with 40 by (cbn; lra). lra. }
  assert (P : 0 < INR (40 - (3 + 2 * order))) by (apply lt_0_INR; lia).
  destruct (fit_no_clip lstsq40 hgfit 100 all 3 order f) as (r & E & NC); [rewrite len40; lia|lra|rewrite len40; exact D|].
  exists r. split; [exact E|]. split; [exact (fit_coeffs _ _ _ _ _ _ _ E)|].
  pose proof (fit_coeffs _ _ _ _ _ _ _ E) as CO.
  apply fit_inv in E. destruct E as (F1 & F2 & F3 & F4 & F5 & kept & K1 & K2 & K3 & _).
  split; [exact F2|]. split; [exact F1|]. pose proof (paper_sigma_inv _ _ _ _ _ _ _ _ K3) as (_ & _ & SP). split; [exact SP|].
  rewrite NC, Nat.add_0_r in F5. assert (kept = all) by (apply sub_full; [exact K1|lia]). subst kept.
  rewrite CO, F3, F5, len40 in K3. unfold paper_sigma in K3.
  assert (DZ : (Z.of_nat 40 - Z.of_nat (3 + 2 * order))%Z = Z.of_nat (40 - (3 + 2 * order))) by lia. rewrite DZ in K3.
  destruct (Z.of_nat (40 - (3 + 2 * order)) <=? 0)%Z; [discriminate|]. injection K3 as K3 _ _. rewrite <- INR_IZR_INZ in K3.
  fold (ss order f) in K3.
  assert (Q : 0 <= ss order f) by apply rsum_sq_nonneg.
  assert (Q2 : 0 <= ss order f / INR (40 - (3 + 2 * order))) by (apply Rmult_le_pos; [exact Q|left; apply Rinv_0_lt_compat; exact P]).
  rewrite Rmax_left in K3 by exact Q2. split; [|exact P]. rewrite <- K3. apply sqrt_sqrt. exact Q2.
Qed.
Lemma ss_one : ss 2 1 = 40.
Proof.
  unfold ss. rewrite map_map. rewrite (map_ext_in _ (fun _ => 1)).
  - assert (G : forall l : list datum, rsum (map (fun _ => 1) l) = INR (List.length l)).
    { induction l as [|x l IH]; [reflexivity|]. cbn [map List.length]. rewrite S_INR, <- IH. unfold rsum. cbn [fold_right]. ring. }
    rewrite G, len40. cbn; lra.
  - intros d Hd. destruct (datum40 d Hd) as (i & E1 & E2). rewrite (residual_two d 1 (HF d Hd)) by lia. rewrite E1, E2.
    replace (2 * (2 * PI * 1 * (INR i / 20))) with (4 * PI * (INR i / 20)) by ring. ring.
Qed.
Lemma ss_ge order f d : In d all -> residual coeffs40 order f d * residual coeffs40 order f d <= ss order f.
Proof. intros Hd. unfold ss. apply sq_le_rsum. apply in_map. exact Hd. Qed.
Lemma ss_pos f : 1 <= ss 2 f.
Proof.
  destruct (at40 0) as (d & Hd & E1 & E2); [lia|]. pose proof (ss_ge 2 f d Hd) as G. rewrite (residual_two d f (HF d Hd)) in G by lia.
  rewrite E1, E2 in G. cbn [INR] in G. replace (2 * (2 * PI * f * (0 / 20))) with 0 in G by (unfold Rdiv; ring).
  replace (4 * PI * (0 / 20)) with 0 in G by (unfold Rdiv; ring). rewrite cos_0 in G. lra.
Qed.
Lemma ss_half (k : bool) f : 1 <= f <= 101 / 100 -> 121 <= ss 6 (1 / 2 / ((if k then 2 else 1) / f)).
Proof.
  intros Hf. destruct (at40 (if k then 20 else 10)) as (d & Hd & E1 & E2); [destruct k; lia|].
  pose proof (ss_ge 6 (1 / 2 / ((if k then 2 else 1) / f)) d Hd) as G. rewrite (residual_two d _ (HF d Hd)) in G by lia. rewrite E1, E2 in G.
  assert (C1 : cos (4 * PI * (INR (if k then 20 else 10) / 20)) = 1).
  { destruct k; cbn [INR]; rewrite INR_IZR_INZ || idtac.
    - replace (4 * PI * _) with (0 + 2 * INR 2 * PI) by (cbn; field). rewrite cos_period. apply cos_0.
    - replace (4 * PI * _) with (0 + 2 * INR 1 * PI) by (cbn; field). rewrite cos_period. apply cos_0. }
  assert (C2 : cos (2 * (2 * PI * (1 / 2 / ((if k then 2 else 1) / f)) * (INR (if k then 20 else 10) / 20))) <= 0).
  { replace (2 * _) with (PI * f).
    - pose proof PI_RGT_0. apply cos_le_0; nra.
    - destruct k; cbn; field; lra. }
  rewrite C1 in G. set (c := cos _) in *. clearbody c. nra.
Qed.
End Case.

Lemma weighted40 : weighted_of obs40 = false.
Proof. reflexivity. Qed.
Lemma fixed40 : n_fixed false (pairs obs40) = 3%nat.
Proof. reflexivity. Qed.
Lemma grid40 light freqs : build_grid (covered light obs40) (1 / 2) (101 / 100) 30 (Some 24) = Ok freqs ->
  freqs = [1; 101 / 100].
Proof.
  intros H. apply build_grid_inv in H. destruct H as (_ & n & Hn & -> & E).
  pose proof (grid40_min light) as G. cbn [min_rotations max_period options40] in G. rewrite G in *. rewrite covered40 in E. unfold grid_size in E.
  assert (C : Rceil (30 * (39 / 20) * (101 / 100 - 1)) = 1%Z).
  { destruct (Rceil_spec (30 * (39 / 20) * (101 / 100 - 1))) as [A B]. set (z := Rceil _) in *. clearbody z.
    assert (0 < z)%Z by (apply lt_IZR; lra). assert (z < 2)%Z by (apply lt_IZR; lra). lia. }
  rewrite C in E. vm_compute in E. subst n. unfold linspace. cbn [seq map Nat.sub INR]. f_equal; [|f_equal]; lra.
Qed.

Lemma doubled_same f g : r_coeffs f = r_coeffs g -> r_order f = r_order g -> w_doubled (fit_with_period f) = w_doubled (fit_with_period g).
Proof. unfold fit_with_period. cbn [w_doubled]. intros -> ->. reflexivity. Qed.
Lemma max_hi_le g k : g <> [] -> (forall y, In y g -> i_hi y <= k) -> max_hi g <= k.
Proof.
  destruct g as [|x g]; [congruence|]. intros _ H. unfold max_hi.
  assert (G : forall l m, m <= k -> (forall y, In y l -> i_hi y <= k) -> fold_left (fun m y => Rmax m (i_hi y)) l m <= k).
  { induction l as [|y l IH]; intros m Hm Hl; cbn; [exact Hm|]. apply IH; [apply Rmax_lub; [exact Hm|apply Hl; left; reflexivity]|].
    intros z Hz. apply Hl. right. exact Hz. }
  apply G; [apply H; left; reflexivity|]. intros y Hy. apply H. right. exact Hy.
Qed.
Lemma clusters_bound a b freqs fits acc : (forall x, In x (items_of freqs fits acc) -> a <= i_lo x /\ i_hi x <= b) ->
  forall c, In c (clusters freqs fits acc) -> a <= c_lo c /\ c_hi c <= b.
Proof.
  intros H c. unfold clusters. fold (items_of freqs fits acc). destruct (sort item_leb (items_of freqs fits acc)) as [|x l] eqn:E; [contradiction|].
  rewrite sort_In, in_map_iff. intros (g & <- & Hg). cbn [cluster_of c_lo c_hi].
  assert (NE : g <> []) by (eapply (merge_nonempty l [x]); [discriminate|exact Hg]).
  assert (IN : forall y, In y g -> In y (items_of freqs fits acc)).
  { intros y Hy. rewrite <- (sort_In item_leb), E. change (x :: l) with ([x] ++ l). rewrite <- merge_concat. apply in_concat. eauto. }
  split; [apply min_lo_ge; [exact NE|]|apply max_hi_le; [exact NE|]]; intros y Hy; apply H; apply IN; exact Hy.
Qed.

Section Final.
Variable hgfit : R -> R -> R * R.
Variable f_cdf : R -> Z -> Z -> R.
Variable f_ppf : R -> Z -> Z -> option R.
Variable light : R.
Opaque fit_with_period amplitude search fit_frequency fit_unclipped.

Lemma max_dev_le p cs b : 0 < p -> cs <> [] -> (forall c, In c cs -> Rabs (c_lo c - p) <= b /\ Rabs (c_hi c - p) <= b) ->
  exists d, max_deviation p cs = Some d /\ d <= b.
Proof.
  intros HP NE H. unfold max_deviation. assert (E : rle p 0 = false) by (apply rle_false; exact HP). rewrite E.
  destruct cs as [|c cs]; [congruence|]. cbn [map].
  eexists. split; [reflexivity|].
  assert (G : forall l x, x <= b -> (forall y, In y l -> y <= b) -> fold_left Rmax l x <= b).
  { induction l as [|y l IH]; intros x Hx Hl; cbn; [exact Hx|]. apply IH; [apply Rmax_lub; [exact Hx|apply Hl; left; reflexivity]|intros z Hz; apply Hl; right; exact Hz]. }
  apply G.
  - destruct (H c (or_introl eq_refl)). apply Rmax_lub; assumption.
  - intros y Hy. apply in_map_iff in Hy. destruct Hy as (c' & <- & Hc). destruct (H c' (or_intror Hc)). apply Rmax_lub; assumption.
Qed.

Lemma classify_single snr cov rot mr n d x y z : snr = Some x -> 3 <= x -> cov = Some y -> 7 / 10 <= y -> rot = Some z -> mr <= z -> (n < 2)%nat ->
  fst (fst (classify snr cov rot mr n d true true true)) = "single_period".
Proof.
  intros -> Hx -> Hy -> Hz Hn. unfold classify, below_min, at_least.
  assert (rlt x 3 = false /\ rlt y (1 / 2) = false /\ rlt z mr = false /\ rle (7 / 10) y = true /\ Nat.leb 2 n = false) as (A & B & C & D & E)
    by (repeat split; first [apply rlt_false; lra|apply rle_true; lra|apply Nat.leb_gt; lia]).
  rewrite A, B, C, D, E. destruct d; reflexivity.
Qed.
Lemma item40 freqs i g : freqs = [1; 101 / 100] -> (i < 2)%nat -> r_freq g = nth i freqs 0 ->
  let q := if w_doubled (fit_with_period g) then 2 else 1 in
  i_lo (item_at freqs i g) = q / (match i with O => 1005 / 1000 | _ => 1015 / 1000 end) /\
  i_hi (item_at freqs i g) = q / (match i with O => 995 / 1000 | _ => 1005 / 1000 end).
Proof.
  intros -> Hi HF. cbv zeta. set (q := if w_doubled (fit_with_period g) then 2 else 1).
  assert (HQ : 0 < q) by (unfold q; destruct (w_doubled _); lra).
  assert (EP : eps64 <= 1 / 2) by (unfold eps64; apply Rle_trans with (/ 2 ^ 1); [apply Rinv_le_contravar; [lra|apply Rle_pow; [lra|lia]]|lra]).
  assert (MM : forall a b, 0 < b -> b <= a -> Rmin (q / a) (q / b) = q / a /\ Rmax (q / a) (q / b) = q / b).
  { intros a b Hb Hab. assert (q / a <= q / b) by (apply div_le_div; lra). split; [apply Rmin_left|apply Rmax_right]; assumption. }
  unfold item_at. rewrite HF. destruct i as [|[|i]]; [| |lia]; cbn [nth i_lo i_hi]; fold q.
  - rewrite (Rabs_right (1 - 1)), (Rabs_right (101 / 100 - 1)), (Rmax_right (1 - 1)) by lra.
    rewrite (Rmax_left (1 - (101 / 100 - 1) / 2)) by lra.
    destruct (MM (1 + (101 / 100 - 1) / 2) (1 - (101 / 100 - 1) / 2)) as [-> ->]; [lra|lra|]. split; f_equal; lra.
  - rewrite (Rabs_right (101 / 100 - 1)), (Rabs_right (101 / 100 - 101 / 100)), (Rmax_left (101 / 100 - 1)) by lra.
    rewrite (Rmax_left (101 / 100 - (101 / 100 - 1) / 2)) by lra.
    destruct (MM (101 / 100 + (101 / 100 - 1) / 2) (101 / 100 - (101 / 100 - 1) / 2)) as [-> ->]; [lra|lra|]. split; f_equal; lra.
Qed.

Lemma single40 : exists r p, estimate lstsq40 hgfit f_cdf f_ppf light options40 obs40 = Ok r /\ p_days r = Some p /\ p_verdict r = "single_period".
Proof.
  destruct (estimate_ok lstsq40 hgfit f_cdf f_ppf light options40 obs40 2) as (r & p & H & HP).
  - exact options40_ok.
  - discriminate.
  - exact usable40.
  - rewrite covered40. lra.
  - rewrite grid40_min. cbn. lra.
  - discriminate.
  - left. reflexivity.
  - exact weighted40.
  - left. reflexivity.
  - rewrite fixed40. cbn. lia.
  - rewrite fixed40. cbn [clip_sigma options40 Nat.add Nat.mul]. replace (INR _) with 33 by (cbn; lra). lra.
  - exists r, p. split; [exact H|]. split; [exact HP|].
    apply estimate_inv in H. destruct H as (OK & _ & [(EE & _)|(SP & freqs & all & nf & sol & half & v & S)]); [discriminate|].
    destruct S as (S1 & S2 & S3 & S4 & S5 & S6 & EV & S7 & E0 & E1 & E2 & E3 & E4 & E5 & E6 & E7 & E8 & E9 & E10 & E11 & E12 & E13 & E14 & E15 & E16 & E17 & E18 & E19 & E20 & _ & E21 & DT & DY & DF & _).
    assert (p = w_period (s_chosen sol)) by congruence. subst p. clear HP E0.
    assert (OF : p_offsets r = false). { destruct (p_offsets r); [|reflexivity]. destruct (S4 eq_refl) as [A _]. discriminate. }
    rewrite OF, fixed40 in S3. subst nf. rewrite weighted40 in *.
    apply grid40 in S1. rewrite E1, EV. clear EV E1 E2 E3 E4 E5 E6 E7 E8 E9 E10 E11 E12 E13 E14 E15 E16 S4 S5.
    set (fit := fun order f => fit40 hgfit light all DT order f).
    (* unfold the choice *)
    unfold derive in S6. cbv zeta in S6. destruct (select_order _ _) as [ch|] eqn:CH; [|discriminate].
    assert (OC : r_order ch = 2%nat).
    { apply select_spec in CH. destruct CH as (low & high & CH & _).
      assert (I : In ch (keep_some (map (fun k => search (fun i => fit_frequency lstsq40 hgfit false (clip_sigma options40) all 3 k (nth i freqs 0))
                     (fun i => fit_unclipped lstsq40 hgfit false all 3 k (nth i freqs 0)) (staged options40) (List.length freqs)) (used_orders options40))))
        by (rewrite CH; apply in_or_app; right; left; reflexivity).
      apply cand_in in I. destruct I as [I _]. change (used_orders options40) with [2%nat] in I. destruct I as [I|[]]. congruence. }
    rewrite OC in S6. clear CH OC.
    destruct (argmin_from _ _) as [[best w]|] eqn:AM; [|discriminate].
    destruct (nth_error _ best) as [[bf|]|] eqn:B; try discriminate.
    apply fits_nth in B. destruct B as [HL B]. change (clip_sigma options40) with 100 in B.
    apply argmin_some in AM. destruct AM as (_ & AM & MIN). rewrite Nat.sub_0_r in AM.
    assert (SW : w = r_sigma bf).
    { rewrite nth_error_map in AM. rewrite (proj2 (fits_nth lstsq40 hgfit options40 false all 3 freqs 2 best bf)) in AM; [|auto]. cbn in AM. congruence. }
    subst w. clear AM.
    destruct (fit 2%nat (nth best freqs 0)) as (b' & B' & BC & BO & BFR & BP & BS & DFP); [lia|].
    assert (b' = bf) by congruence. subst b'.
    destruct (fit 2%nat 1) as (g & G & _ & _ & _ & GP & GS & _); [lia|].
    assert (SG : r_sigma bf <= r_sigma g).
    { apply (MIN 0%nat). rewrite nth_error_map. rewrite (proj2 (fits_nth lstsq40 hgfit options40 false all 3 freqs 2 0 g)); [reflexivity|].
      split; [rewrite S1; cbn; lia|]. rewrite S1. exact G. }
    rewrite (ss_one light all DT DY DF) in GS. pose proof (ss_pos light all DT DY DF (nth best freqs 0)) as SPOS.
    replace (INR (40 - (3 + 2 * 2))) with 33 in * by (cbn; lra).
    assert (SU : 0 < r_sigma bf <= 11 / 10 + 1 / 100). { split; [|]; [|assert (r_sigma g <= 11 / 10 + 1 / 100) by nra; lra]. nra. }
    assert (AMP : 20 <= amplitude bf) by (apply amplitude40; assumption).
    assert (FQ : 1 <= nth best freqs 0 <= 101 / 100).
    { rewrite S1 in HL. rewrite S1. clear -HL. destruct best as [|[|best]]; cbn in *; [lra|lra|lia]. }
    set (f := nth best freqs 0) in *.
    apply ok_inj in S6.
    assert (HC : s_chosen sol = fit_with_period bf) by (rewrite S6; reflexivity).
    assert (HA : s_amplitude sol = amplitude bf) by (rewrite S6; reflexivity).
    rewrite HC, HA, fwp_fit in *.
    set (k := w_doubled (fit_with_period bf)) in *.
    assert (PER : w_period (fit_with_period bf) = (if k then 2 else 1) / f) by (rewrite fwp_period, BFR; reflexivity).
    set (p := w_period (fit_with_period bf)) in *.
    assert (PB : 99 / 100 <= p <= 2 /\ p * f = (if k then 2 else 1)).
    { assert (Q : p * f = (if k then 2 else 1)) by (rewrite PER; field; lra). split; [|exact Q]. destruct k; nra. }
    assert (CL : (List.length (s_clusters sol) < 2)%nat /\ s_clusters sol <> [] /\
                 forall c, In c (s_clusters sol) -> Rabs (c_lo c - p) <= 2 * p /\ Rabs (c_hi c - p) <= 2 * p).
    { pose proof (f_equal s_clusters S6) as HCS. cbn [s_clusters] in HCS.
      clear -HCS FQ PB HL S1 DT DY DF BC BO BFR PER. set (fits := map _ (seq 0 _)) in HCS. set (acc := match filter _ _ with [] => _ | _ => _ end) in HCS.
      assert (FITS : forall i g, nth_error fits i = Some (Some g) -> (i < 2)%nat /\ r_freq g = nth i freqs 0 /\ w_doubled (fit_with_period g) = k).
      { intros i g Hg. apply fits_nth in Hg. destruct Hg as [HI Hg]. split; [rewrite S1 in HI; exact HI|].
        destruct (fit40 hgfit light all DT 2 (nth i freqs 0)) as (g' & G1 & G2 & G3 & G4 & _); [lia|]. change (clip_sigma options40) with 100 in Hg.
        assert (g' = g) by congruence. subst g'. split; [exact G4|]. unfold k. apply doubled_same; congruence. }
      clearbody fits acc. set (q := if k then 2 else 1) in *. assert (HQ : 1 <= q <= 2) by (unfold q; destruct k; lra).
      assert (ITEMS : forall i g, nth_error fits i = Some (Some g) ->
                i_lo (item_at freqs i g) = q / (match i with O => 1005 / 1000 | _ => 1015 / 1000 end) /\
                i_hi (item_at freqs i g) = q / (match i with O => 995 / 1000 | _ => 1005 / 1000 end) /\ (i < 2)%nat).
      { intros i g Hg. destruct (FITS i g Hg) as (A & B & C). destruct (item40 freqs i g S1 A B) as [I1 I2]. rewrite C in I1, I2. fold q in I1, I2. auto. }
      assert (BND : forall c, In c (clusters freqs fits acc) -> q / (1015 / 1000) <= c_lo c /\ c_hi c <= q / (995 / 1000)).
      { apply clusters_bound. intros x Hx. apply items_spec in Hx. destruct Hx as (i & g & _ & Hg & ->). destruct (ITEMS i g Hg) as (I1 & I2 & I3).
        rewrite I1, I2. split; apply div_le_div; try lra; destruct i; lra. }
      destruct (clusters_spec freqs fits acc) as (AP & INS & _ & _).
      assert (LEN : (List.length (clusters freqs fits acc) < 2)%nat).
      { destruct (clusters freqs fits acc) as [|a [|b cs]]; [cbn; lia|cbn; lia|]. exfalso.
        inversion AP as [|? ? FA _]; subst. inversion FA as [|? ? AB _]; subst.
        destruct (INS a (or_introl eq_refl)) as [(i & gi & _ & _ & Gi & _ & L1 & U1) _].
        destruct (INS b (or_intror (or_introl eq_refl))) as [(j & gj & _ & _ & Gj & _ & L2 & U2) _].
        destruct (ITEMS i gi Gi) as (I1 & I2 & I3). destruct (ITEMS j gj Gj) as (J1 & J2 & J3). rewrite I1, I2 in *. rewrite J1, J2 in *.
        assert (Q1 : q / (1015 / 1000) <= q / (1005 / 1000)) by (apply div_le_div; lra).
        assert (Q2 : q / (1005 / 1000) <= q / (995 / 1000)) by (apply div_le_div; lra).
        destruct i as [|[|i]], j as [|[|j]]; try lia; destruct AB; lra. }
      rewrite HCS. destruct (clusters freqs fits acc) as [|c0 cs] eqn:CE.
      - split; [cbn; lia|]. split; [discriminate|]. intros c [<-|[]]. cbn [c_lo c_hi]. rewrite Rminus_eq_0, Rabs_R0. lra.
      - split; [exact LEN|]. split; [discriminate|]. intros c Hc. destruct (BND c Hc) as [B1 B2].
        destruct (proj1 (INS c Hc)) as (i & g & _ & _ & Hg & _ & L1 & U1). destruct (ITEMS i g Hg) as (I1 & I2 & I3). rewrite I1, I2 in *.
        assert (V1 : q / (1015 / 1000) = q * (1000 / 1015)) by (field). assert (V2 : q / (995 / 1000) = q * (1000 / 995)) by field.
        assert (V3 : q / (1005 / 1000) = q * (1000 / 1005)) by field.
        assert (PQ : q * (100 / 101) <= p <= q) by (destruct PB as [_ PB]; nra).
        rewrite V1, V2 in *. split; apply Rabs_le; destruct i; lra. }
    destruct CL as (CL1 & CL2 & CL3).
    assert (REL : s_reliable sol = true).
    { assert (HR : s_reliable sol = match max_deviation p (s_clusters sol) with Some d => rle d (Rmax (2 * p) (7 / 24)) | None => false end).
      { pose proof (f_equal s_reliable S6) as HR. pose proof (f_equal s_clusters S6) as HS. cbn [s_reliable s_clusters] in HR, HS. rewrite HS. exact HR. }
      rewrite HR. destruct (max_dev_le p (s_clusters sol) (2 * p)) as (d & -> & Hd); [lra|exact CL2|exact CL3|]. apply rle_true.
      eapply Rle_trans; [exact Hd|apply Rmax_l]. }
    assert (PP : rlt 0 p = true) by (apply rlt_true; lra). rewrite PP in E17, E21.
    destruct E20 as (c & HCOV); [lra|].
    assert (COV : 7 / 10 <= c).
    { rewrite HCOV in E21. symmetry in E21. apply coverage_bins in E21. destruct E21 as (bins & ND & -> & HB).
      assert (LB : (List.length (map Z.of_nat (seq 0 20)) <= List.length bins)%nat).
      { apply NoDup_incl_length; [apply FinFun.Injective_map_NoDup; [intros a b; lia|apply seq_NoDup]|].
        intros z Hz. apply in_map_iff in Hz. destruct Hz as (b & <- & Hb). apply in_seq in Hb. apply HB. split; [lia|].
        exists (INR (if k then 2 * b else b)%nat / 20). split.
        - rewrite elapsed40. apply in_map_iff. eexists. split; [reflexivity|]. apply in_seq. destruct k; lia.
        - assert (X : INR (if k then (2 * b)%nat else b) / 20 / p = INR b / 20 * f).
          { apply (Rmult_eq_reg_r p); [|lra]. unfold Rdiv at 1. rewrite Rmult_assoc, Rinv_l, Rmult_1_r by lra. rewrite Rmult_assoc, (Rmult_comm f).
            destruct PB as [_ ->]. destruct k; [rewrite mult_INR; replace (INR 2) with 2 by (cbn; lra)|]; field. }
          rewrite X. assert (B19 : INR b <= 19) by (replace 19 with (INR 19) by (cbn; lra); apply le_INR; lia). pose proof (pos_INR b) as B0.
          assert (FP : frac_part (INR b / 20 * f) = INR b / 20 * f).
          { assert (BB : 0 <= INR b / 20 * f < 1) by nra. clear -BB. set (x := INR b / 20 * f) in *. clearbody x. unfold frac_part.
            destruct (base_Int_part x) as [P1 P2]. assert (Int_part x < 1)%Z by (apply lt_IZR; lra). assert (-1 < Int_part x)%Z by (apply lt_IZR; lra).
            replace (Int_part x) with 0%Z by lia. lra. }
          rewrite FP, <- INR_IZR_INZ. nra. }
      rewrite map_length, seq_length in LB. apply le_INR in LB. replace (INR 20) with 20 in LB by (cbn; lra). lra. }
    unfold snr_of in E18. assert (SR : rle (r_sigma bf) 0 = false) by (apply rle_false; lra). rewrite SR in E18.
    assert (SN : 3 <= amplitude bf / r_sigma bf).
    { apply (Rmult_le_reg_r (r_sigma bf)); [lra|]. unfold Rdiv. rewrite Rmult_assoc, Rinv_l, Rmult_1_r by lra. nra. }
    assert (RT : min_rotations options40 <= covered light obs40 / p).
    { cbn [min_rotations options40]. rewrite covered40. apply (Rmult_le_reg_r p); [lra|]. unfold Rdiv at 2. rewrite Rmult_assoc, Rinv_l, Rmult_1_r by lra. lra. }
    change (claim_doubled options40) with true. change (count_sufficient (map band obs40)) with true. rewrite REL.
    pose proof (classify_single (p_snr r) (p_coverage r) (p_rotations r) (min_rotations options40) (List.length (s_clusters sol)) k _ _ _ E18 SN HCOV COV E17 RT CL1) as CLS.
    set (v0 := classify _ _ _ _ _ _ _ _ _) in *. clearbody v0.
    assert (GL : guard_long p v0 = v0). { unfold guard_long. assert (L : rlt 240 (p * 24) = false) by (apply rlt_false; lra). rewrite L, andb_false_r. reflexivity. }
    rewrite GL. unfold guard_half. destruct (_ && _ && _); [|exact CLS].
    change (clip_sigma options40) with 100 in S7. rewrite OF, fixed40 in S7 || idtac.
    destruct (fit 6%nat (1 / 2 / p)) as (h & H6 & _ & _ & _ & HP6 & HS6 & _); [lia|]. rewrite S7, H6.
    pose proof (ss_half light all DT DY DF k f FQ) as H121. rewrite <- PER in H121. replace (INR (40 - (3 + 2 * 6))) with 25 in HS6 by (cbn; lra).
    assert (LT : rlt (r_sigma h) (r_sigma bf) = false) by (apply rlt_false; nra). rewrite LT. exact CLS.
Qed.
End Final.
