(* Lemmas on the choice between session offsets and none in the automatic mode of the rotation search. *)
From Coq Require Import Reals Lra.
From Coq Require Import List String Bool Lia Arith Sorted Permutation.
From Verif Require Import Base ListLemmas PhotModel RotModel RotScore RotFit RotDerive RotEst.
Import ListNotations.
Open Scope string_scope.
Open Scope list_scope.
Open Scope R_scope.

(* ---- a small specification, independent of the model's helpers ---- *)
(* the same options with another session mode *)
Definition with_mode (m : session_mode) (o : options) : options :=
  mkoptions (staged o) (orders o) (clip_sigma o) (min_rotations o) (max_frequency o) (grid_scale o) (max_period o)
            (early_exit o) m (min_per_group o) (bic_improvement o) (claim_doubled o).
(* two observations of different sessions *)
Definition two_sessions (l : list obs) : Prop := exists a b, In a l /\ In b l /\ night a <> night b.
(* every session has at least [n] observations in each filter it uses *)
Definition groups_of (n : nat) (l : list obs) : Prop :=
  forall a, In a l -> (n <= List.length (filter (fun b => String.eqb (night b) (night a) && String.eqb (band b) (band a)) l))%nat.
(* the session [s] has observations at two times; at least half of the sessions do *)
Definition is_long (light : R) (l : list obs) (s : string) : bool :=
  existsb (fun a => existsb (fun b => String.eqb (night a) s && String.eqb (night b) s && rlt (emission light a) (emission light b)) l) l.
Definition half_long (light : R) (l : list obs) : Prop :=
  let ns := nodup string_dec (map night l) in (List.length ns <= 2 * List.length (filter (is_long light l) ns))%nat.
(* the Bayesian information criterion of a reported fit, from the reported residual scatter, the number of observations
   used and the number of coefficients; infinite if the fit is exact *)
Definition information (l : list obs) (r : row) : option R :=
  match p_sigma r, p_order r with
  | Some s, Some k =>
      let n := INR (p_nfit r) in
      let m := INR (n_fixed (p_offsets r) (pairs l) + 2 * k) in
      let rss := s * s * (n - m) in
      if Rle_dec rss 0 then None else Some (n * ln (rss / n) + m * ln n)
  | _, _ => None
  end.
(* the first is smaller than the second by more than [d] *)
Definition improves (d : R) (a b : option R) : Prop :=
  match a, b with Some x, Some y => x + d < y | Some _, None => True | None, _ => False end.

(* ---- the summary of the sessions ---- *)
Lemma fold_rmin_in l : forall x, In (fold_left Rmin l x) (x :: l).
Proof.
  induction l as [|y l IH]; intros x; [left; reflexivity|]. cbn [fold_left]. destruct (IH (Rmin x y)) as [H|H]; [|right; right; exact H].
  rewrite <- H. unfold Rmin. destruct (Rle_dec x y); cbn; auto.
Qed.
Lemma fold_rmax_in l : forall x, In (fold_left Rmax l x) (x :: l).
Proof.
  induction l as [|y l IH]; intros x; [left; reflexivity|]. cbn [fold_left]. destruct (IH (Rmax x y)) as [H|H]; [|right; right; exact H].
  rewrite <- H. unfold Rmax. destruct (Rle_dec x y); cbn; auto.
Qed.
Lemma fold_rmin_le l : forall x y, In y (x :: l) -> fold_left Rmin l x <= y.
Proof.
  induction l as [|z l IH]; intros x y; cbn [fold_left]; [intros [->|[]]; lra|]. intros [->|[->|H]].
  - apply Rle_trans with (Rmin y z); [apply IH; left; reflexivity|apply Rmin_l].
  - apply Rle_trans with (Rmin x y); [apply IH; left; reflexivity|apply Rmin_r].
  - apply IH. right. exact H.
Qed.
Lemma fold_rmax_le l : forall x y, In y (x :: l) -> y <= fold_left Rmax l x.
Proof.
  induction l as [|z l IH]; intros x y; cbn [fold_left]; [intros [->|[]]; lra|]. intros [->|[->|H]].
  - apply Rle_trans with (Rmax y z); [apply Rmax_l|apply IH; left; reflexivity].
  - apply Rle_trans with (Rmax x y); [apply Rmax_r|apply IH; left; reflexivity].
  - apply IH. right. exact H.
Qed.
Lemma span_pos l : 0 < fmax l - fmin l <-> exists x y, In x l /\ In y l /\ x < y.
Proof.
  destruct l as [|a l]; cbn [fmax fmin]; [split; [lra|intros (x & _ & [] & _)]|]. split.
  - intros H. exists (fold_left Rmin l a), (fold_left Rmax l a). split; [apply fold_rmin_in|]. split; [apply fold_rmax_in|lra].
  - intros (x & y & Hx & Hy & L). pose proof (fold_rmin_le l a x Hx). pose proof (fold_rmax_le l a y Hy). lra.
Qed.
Lemma span_nonneg l : 0 <= fmax l - fmin l.
Proof.
  destruct l as [|a l]; cbn [fmax fmin]; [lra|]. pose proof (fold_rmin_le l a a (or_introl eq_refl)). pose proof (fold_rmax_le l a a (or_introl eq_refl)). lra.
Qed.

Lemma filter_all_length {A} (f : A -> bool) l : (List.length l <= List.length (filter f l))%nat -> forall x, In x l -> f x = true.
Proof.
  induction l as [|y l IH]; [intros _ x []|]. cbn. pose proof (filter_len f l) as F. destruct (f y) eqn:E; cbn.
  - intros H x [<-|Hx]; [exact E|]. apply IH; [lia|exact Hx].
  - intros H. lia.
Qed.
Lemma filter_id {A} (f : A -> bool) l : (forall x, In x l -> f x = true) -> filter f l = l.
Proof. induction l as [|y l IH]; [reflexivity|]. intros H. cbn. rewrite (H y (or_introl eq_refl)). f_equal. apply IH. intros x Hx. apply H. right. exact Hx. Qed.
Lemma sorted_pos s : StronglySorted (fun a b => rle a b = true) s -> forall k, (k < List.length s)%nat ->
  (0 < nth k s 0 <-> (List.length s - k <= List.length (filter (rlt 0) s))%nat).
Proof.
  induction 1 as [|x s S IH F]; intros k Hk; [cbn in Hk; lia|]. rewrite Forall_forall in F.
  assert (ALL : 0 < x -> filter (rlt 0) (x :: s) = x :: s).
  { intros Hx. apply filter_id. intros y [<-|Hy]; apply rlt_true; [exact Hx|]. specialize (F y Hy). apply rle_true in F. lra. }
  destruct k as [|k].
  - cbn [nth]. rewrite Nat.sub_0_r. split.
    + intros Hx. rewrite (ALL Hx). lia.
    + intros H. apply rlt_true. exact (filter_all_length _ _ H x (or_introl eq_refl)).
  - cbn [nth List.length] in *. destruct (Rlt_dec 0 x) as [Hx|Hx].
    + rewrite (ALL Hx). cbn [List.length]. split; [lia|]. intros _. assert (I : In (nth k s 0) s) by (apply nth_In; lia).
      specialize (F _ I). apply rle_true in F. lra.
    + cbn [filter]. assert (E : rlt 0 x = false) by (apply rlt_false; lra). rewrite E. rewrite IH by lia. reflexivity.
Qed.
Lemma sorted_rle l : StronglySorted (fun a b => rle a b = true) (sort rle l).
Proof.
  apply sort_sorted.
  - intros a b. unfold rle. destruct (Rle_dec a b), (Rle_dec b a); auto. lra.
  - intros a b c H K. apply rle_true in H, K. apply rle_true. lra.
Qed.
Lemma filter_perm {A} (f : A -> bool) l m : Permutation l m -> List.length (filter f l) = List.length (filter f m).
Proof. induction 1; cbn; try congruence; repeat (destruct (f _); cbn); congruence. Qed.
Lemma median_pos l : l <> [] -> (forall x, In x l -> 0 <= x) -> (0 < median l <-> (List.length l <= 2 * List.length (filter (rlt 0) l))%nat).
Proof.
  intros NE NN. unfold median. set (s := sort rle l). set (n := List.length l).
  assert (LS : List.length s = n) by (unfold s; apply sort_length).
  assert (PM : Permutation s l) by (symmetry; apply sort_perm).
  rewrite <- (filter_perm (rlt 0) s l PM).
  assert (N0 : (0 < n)%nat) by (unfold n; destruct l; [congruence|cbn; lia]).
  assert (D : (n / 2 < n)%nat) by (apply Nat.div_lt; lia).
  assert (SP := sorted_pos s (sorted_rle l) (n / 2)). rewrite LS in SP. specialize (SP D).
  pose proof (Nat.div_mod n 2). assert (M : (n mod 2 < 2)%nat) by (apply Nat.mod_upper_bound; lia).
  destruct (Nat.even n) eqn:E.
  - apply Nat.even_spec in E. destruct E as (m & E). assert (H2 : (n / 2 = m)%nat) by (rewrite E, Nat.mul_comm; apply Nat.div_mul; lia).
    assert (A : 0 <= nth (n / 2 - 1) s 0). { apply NN. apply (Permutation_in _ PM). apply nth_In. lia. }
    assert (AB : nth (n / 2 - 1) s 0 <= nth (n / 2) s 0).
    { assert (G : forall s, StronglySorted (fun a b => rle a b = true) s -> forall i, (Datatypes.S i < List.length s)%nat -> nth i s 0 <= nth (Datatypes.S i) s 0).
      { clear. induction 1 as [|x s S IH F]; intros i Hi; [cbn in Hi; lia|]. cbn [List.length] in Hi. destruct i as [|i].
        - cbn [nth]. rewrite Forall_forall in F. apply rle_true. apply F. apply nth_In. lia.
        - cbn [nth] in *. apply IH. lia. }
      replace (n / 2)%nat with (Datatypes.S (n / 2 - 1)) at 2 by lia. apply G; [apply sorted_rle|]. fold s. lia. }
    split.
    + intros P. assert (0 < nth (n / 2) s 0) by lra. apply SP in H0. lia.
    + intros P. assert (0 < nth (n / 2) s 0) by (apply SP; lia). lra.
  - assert (O : Nat.odd n = true) by (rewrite <- Nat.negb_even, E; reflexivity). apply Nat.odd_spec in O. destruct O as (m & O).
    assert (H2 : (n / 2 = m)%nat). { rewrite O. rewrite Nat.mul_comm, Nat.div_add_l by lia. rewrite Nat.div_small by lia. lia. }
    rewrite SP. lia.
Qed.

Lemma combine_maps {A B C} (f : A -> B) (g : A -> C) l : combine (map f l) (map g l) = map (fun x => (f x, g x)) l.
Proof. induction l; cbn; congruence. Qed.
Lemma filter_map_comm {A B} (f : A -> B) (p : B -> bool) l : filter p (map f l) = map f (filter (fun x => p (f x)) l).
Proof. induction l as [|x l IH]; [reflexivity|]. cbn. destruct (p (f x)); cbn; rewrite IH; reflexivity. Qed.
Lemma fold_min_ge n l : forall x, (n <= fold_left Nat.min l x <-> forall y, In y (x :: l) -> n <= y)%nat.
Proof.
  induction l as [|z l IH]; intros x; cbn [fold_left].
  - split; [intros H y [<-|[]]; exact H|intros H; apply H; left; reflexivity].
  - rewrite IH. split.
    + intros H y [<-|[<-|Hy]]; [specialize (H _ (or_introl eq_refl)); lia|specialize (H _ (or_introl eq_refl)); lia|apply H; right; exact Hy].
    + intros H y [<-|Hy]; [pose proof (H _ (or_introl eq_refl)); pose proof (H z (or_intror (or_introl eq_refl))); lia|apply H; right; right; exact Hy].
Qed.
Lemma uniq_str l x : In x (ordered_unique l) <-> In x l.
Proof. apply uniq_In. apply String.eqb_eq. Qed.

Definition sums (light : R) (l : list obs) : summary := summarize true (map (emission light) l) (pairs l).
Lemma nights_of l : map snd (pairs l) = map night l.
Proof. unfold pairs. rewrite map_map. reflexivity. Qed.
Lemma bands_of l : map fst (pairs l) = map band l.
Proof. unfold pairs. rewrite map_map. reflexivity. Qed.

Lemma sums_sessions light l : Nat.leb 2 (n_sessions (sums light l)) = true <-> two_sessions l.
Proof.
  rewrite Nat.leb_le. unfold sums, summarize. cbn [negb n_sessions]. rewrite nights_of.
  assert (ND : NoDup (ordered_unique (map night l))) by (apply uniq_NoDup; apply String.eqb_eq).
  split.
  - intros H. destruct (ordered_unique (map night l)) as [|a [|b q]] eqn:E; [cbn in H; lia|cbn in H; lia|].
    assert (A : In a (ordered_unique (map night l))) by (rewrite E; left; reflexivity).
    assert (B : In b (ordered_unique (map night l))) by (rewrite E; right; left; reflexivity).
    rewrite uniq_str, in_map_iff in A, B. destruct A as (x & <- & Hx), B as (y & <- & Hy). exists x, y. split; [exact Hx|]. split; [exact Hy|].
    intros C. inversion ND as [|? ? N _]. apply N. left. symmetry. exact C.
  - intros (a & b & Ha & Hb & N).
    assert (I : incl [night a; night b] (ordered_unique (map night l))).
    { intros x [<-|[<-|[]]]; apply uniq_str; apply in_map; assumption. }
    apply NoDup_incl_length in I; [exact I|]. constructor; [intros [Q|[]]; apply N; symmetry; exact Q|]. constructor; [intros []|constructor].
Qed.
Lemma sums_groups light l n : l <> [] -> Nat.leb n (min_group (sums light l)) = true <-> groups_of n l.
Proof.
  intros NE. rewrite Nat.leb_le. unfold sums, summarize. cbn [negb min_group]. rewrite nights_of, bands_of.
  set (cnt := fun s f => List.length (filter (fun p : string * string => String.eqb (snd p) s && String.eqb (fst p) f) (pairs l))).
  assert (CN : forall s f, cnt s f = List.length (filter (fun b => String.eqb (night b) s && String.eqb (band b) f) l)).
  { intros s f. unfold cnt, pairs. rewrite filter_map_comm, map_length. reflexivity. }
  set (counts := flat_map (fun s => filter (fun n => Nat.ltb 0 n) (map (cnt s) (ordered_unique (map band l)))) (ordered_unique (map night l))).
  change (n <= match counts with [] => 0%nat | x :: r => fold_left Nat.min r x end <-> groups_of n l)%nat.
  assert (IN : forall c, In c counts <-> exists a, In a l /\ c = cnt (night a) (band a)).
  { intros c. unfold counts. rewrite in_flat_map. split.
    - intros (s & Hs & Hc). apply filter_In in Hc. destruct Hc as [Hc P]. apply in_map_iff in Hc. destruct Hc as (f & <- & _).
      apply Nat.ltb_lt in P. rewrite CN in P. destruct (filter (fun b => String.eqb (night b) s && String.eqb (band b) f) l) as [|a q] eqn:E; [cbn in P; lia|].
      assert (A : In a (a :: q)) by (left; reflexivity). rewrite <- E in A. apply filter_In in A. destruct A as [A B]. apply andb_prop in B. destruct B as [B1 B2].
      apply String.eqb_eq in B1, B2. exists a. subst s f. auto.
    - intros (a & Ha & ->). exists (night a). split; [apply uniq_str; apply in_map; exact Ha|]. apply filter_In. split.
      + apply in_map_iff. exists (band a). split; [reflexivity|]. apply uniq_str. apply in_map. exact Ha.
      + apply Nat.ltb_lt. rewrite CN. assert (A : In a (filter (fun b => String.eqb (night b) (night a) && String.eqb (band b) (band a)) l)).
        { apply filter_In. split; [exact Ha|]. rewrite !String.eqb_refl. reflexivity. }
        destruct (filter _ l); [destruct A|cbn; lia]. }
  assert (NC : counts <> []).
  { destruct l as [|a q]; [congruence|]. intros C. assert (X : In (cnt (night a) (band a)) counts) by (apply IN; exists a; split; [left; reflexivity|reflexivity]).
    rewrite C in X. destruct X. }
  unfold groups_of. destruct counts as [|x q]; [congruence|]. rewrite fold_min_ge. split.
  - intros H a Ha. rewrite <- CN. apply H. apply IN. eauto.
  - intros H y Hy. apply IN in Hy. destruct Hy as (a & Ha & ->). rewrite CN. apply H. exact Ha.
Qed.
Lemma sums_span light l : l <> [] -> rlt 0 (median_span (sums light l)) = true <-> half_long light l.
Proof.
  intros NE. rewrite rlt_true. unfold sums, summarize. cbn [negb median_span]. rewrite nights_of.
  set (us := ordered_unique (map night l)).
  set (sp := fun s => fmax (map fst (filter (fun p : R * (string * string) => String.eqb (snd (snd p)) s) (combine (map (emission light) l) (pairs l)))) -
                      fmin (map fst (filter (fun p : R * (string * string) => String.eqb (snd (snd p)) s) (combine (map (emission light) l) (pairs l))))).
  change (0 < median (map sp us) <-> half_long light l).
  assert (EQ : forall s, map fst (filter (fun p : R * (string * string) => String.eqb (snd (snd p)) s) (combine (map (emission light) l) (pairs l)))
               = map (emission light) (filter (fun a => String.eqb (night a) s) l)).
  { intros s. unfold pairs. rewrite combine_maps, filter_map_comm, map_map. reflexivity. }
  assert (LG : forall s, rlt 0 (sp s) = is_long light l s).
  { intros s. apply eq_true_iff_eq. rewrite rlt_true. unfold sp. rewrite EQ, span_pos. unfold is_long. rewrite existsb_exists. split.
    - intros (x & y & Hx & Hy & L). apply in_map_iff in Hx, Hy. destruct Hx as (a & <- & Ha), Hy as (b & <- & Hb).
      apply filter_In in Ha, Hb. destruct Ha as [Ha Na], Hb as [Hb Nb]. exists a. split; [exact Ha|]. apply existsb_exists. exists b. split; [exact Hb|].
      rewrite Na, Nb. cbn [andb]. apply rlt_true. exact L.
    - intros (a & Ha & H). apply existsb_exists in H. destruct H as (b & Hb & H). apply andb_prop in H. destruct H as [H L]. apply andb_prop in H. destruct H as [Na Nb].
      exists (emission light a), (emission light b). split; [apply in_map; apply filter_In; auto|]. split; [apply in_map; apply filter_In; auto|]. apply rlt_true. exact L. }
  rewrite median_pos.
  - rewrite map_length, filter_map_comm, map_length. rewrite (filter_ext _ _ LG). unfold half_long.
    assert (PM : Permutation us (nodup string_dec (map night l))).
    { apply NoDup_Permutation; [apply uniq_NoDup; apply String.eqb_eq|apply NoDup_nodup|]. intros x. unfold us. rewrite uniq_str, nodup_In. reflexivity. }
    rewrite (filter_perm _ _ _ PM), (Permutation_length PM). reflexivity.
  - intros C. apply map_eq_nil in C. destruct l as [|a q]; [congruence|]. assert (X : In (night a) us) by (apply uniq_str; left; reflexivity). rewrite C in X. destruct X.
  - intros x Hx. apply in_map_iff in Hx. destruct Hx as (s & <- & _). apply span_nonneg.
Qed.

Section Auto.
Variable lstsq : list (list R) -> list R -> list R.
Variable hgfit : R -> R -> R * R.
Variable f_cdf : R -> Z -> Z -> R.
Variable f_ppf : R -> Z -> Z -> option R.
Variable light : R.
Let est := estimate lstsq hgfit f_cdf f_ppf light.
Let drv := derive lstsq hgfit f_cdf f_ppf.

Lemma derive_mode m o w all nf freqs : drv (with_mode m o) w all nf freqs = drv o w all nf freqs.
Proof. reflexivity. Qed.
Lemma mode_id o : with_mode (mode o) o = o.
Proof. destruct o; reflexivity. Qed.

Lemma derive_fit o w all nf freqs sol : drv o w all nf freqs = Ok sol ->
  exists k f, fit_frequency lstsq hgfit w (clip_sigma o) all nf k f = Some (w_fit (s_chosen sol)).
Proof.
  unfold drv, derive. destruct (select_order _ _) as [c|]; [|discriminate].
  cbv zeta. set (fits := map (fun i => fit_frequency lstsq hgfit w (clip_sigma o) all nf (r_order c) (nth i freqs 0)) (seq 0 (List.length freqs))).
  destruct (argmin_from _ _) as [[b q]|]; [|discriminate]. destruct (nth_error fits b) as [[bf|]|] eqn:E; try discriminate.
  cbv zeta. intros H. apply ok_inj in H. subst sol. cbn [s_chosen fit_with_period w_fit]. unfold fits in E. rewrite nth_error_map in E.
  destruct (nth_error (seq 0 (List.length freqs)) b) as [i|]; [|discriminate]. cbn in E. injection E as E. eauto.
Qed.

(* what the information criterion of the model is in terms of the reported numbers *)
Lemma bic_row o l all sol r off : List.length all = List.length l ->
  drv o false all (n_fixed off (pairs l)) (match build_grid (covered light l) (min_rotations o) (max_frequency o) (grid_scale o) (max_period o) with Ok f => f | Err _ => [] end) = Ok sol ->
  p_sigma r = Some (r_sigma (w_fit (s_chosen sol))) -> p_order r = Some (r_order (w_fit (s_chosen sol))) -> p_nfit r = r_nfit (w_fit (s_chosen sol)) ->
  p_offsets r = off -> information l r = bic (w_fit (s_chosen sol)).
Proof.
  intros LA D HS HO HN HF. apply derive_fit in D. destruct D as (k & f & D). apply fit_inv in D.
  destruct D as (_ & D2 & D3 & D4 & _ & kept & _ & _ & D5 & _). unfold information, bic. rewrite HS, HO, HN, HF, D2, <- D3.
  set (b := w_fit (s_chosen sol)) in *. clearbody b.
  assert (E1 : Nat.leb (r_nfit b) (r_npar b) = false) by (apply Nat.leb_gt; exact D4). rewrite E1. cbn [orb].
  unfold paper_sigma in D5. destruct (_ <=? 0)%Z eqn:Z0; [discriminate|]. injection D5 as D5 D6 D7.
  set (rss := rsum _) in *. assert (R0 : 0 <= rss) by apply rsum_sq_nonneg.
  assert (DF : IZR (Z.of_nat (r_nfit b) - Z.of_nat (r_npar b)) = INR (r_nfit b) - INR (r_npar b)) by (rewrite minus_IZR, <- !INR_IZR_INZ; reflexivity).
  assert (DP : 0 < INR (r_nfit b) - INR (r_npar b)) by (apply lt_INR in D4; lra).
  rewrite DF in D5. rewrite Rmax_left in D5.
  2:{ apply Rmult_le_pos; [exact R0|]. left. apply Rinv_0_lt_compat. exact DP. }
  assert (SQ : r_sigma b * r_sigma b * (INR (r_nfit b) - INR (r_npar b)) = rss).
  { rewrite <- D5, sqrt_sqrt; [field; lra|]. apply Rmult_le_pos; [exact R0|]. left. apply Rinv_0_lt_compat. exact DP. }
  rewrite SQ, <- D6. unfold rle. destruct (Rle_dec rss 0); reflexivity.
Qed.

(* the automatic mode gives the row of one of the other modes *)
Definition eligible (o : options) (l : list obs) : Prop := two_sessions l /\ groups_of (min_per_group o) l /\ half_long light l.
Lemma auto_choice o l r p : est o l = Ok r -> p_days r = Some p -> mode o = Auto ->
  exists b, est (with_mode Ignore o) l = Ok b /\ p_offsets b = false /\ p_days b <> None /\
    if has_sessions l then
      exists s, est (with_mode Use o) l = Ok s /\ p_offsets s = true /\ p_days s <> None /\
        (r = b \/ r = s /\ eligible o l) /\
        (weighted_of l = false -> (r = s <-> eligible o l /\ improves (bic_improvement o) (information l s) (information l b)))
    else r = b.
Proof.
  intros H PD MO. revert H. unfold est, estimate.
  change (options_ok (with_mode Ignore o)) with (options_ok o). change (options_ok (with_mode Use o)) with (options_ok o).
  destruct (options_ok o) eqn:OK; cbn [negb]; [|discriminate].
  destruct (validate l) as [vs|] eqn:V; cbn [bind]; [|discriminate].
  assert (NE : l <> []) by (apply validate_inv in V; apply V).
  assert (T : map (fun v => v_time v - v_delta v / light) vs = map (emission light) l).
  { eapply validate_map; [|exact V]. intros ob v Hv. apply validate_row_inv in Hv. unfold emission.
    destruct Hv as (-> & _ & _ & _ & _ & _ & -> & _). reflexivity. }
  assert (FS : map (fun v => (v_filter v, label "__missing_session__" (v_session v))) vs = pairs l).
  { eapply validate_map; [|exact V]. intros ob v Hv. apply validate_row_inv in Hv. destruct Hv as (_ & _ & _ & -> & -> & _). reflexivity. }
  assert (SG : map v_sigma vs = map o_sigma l).
  { eapply validate_map; [|exact V]. intros ob v Hv. apply validate_row_inv in Hv. tauto. }
  assert (US : existsb (fun v => match v_session v with Some _ => true | None => false end) vs = has_sessions l).
  { unfold has_sessions.
    pose proof (validate_map (fun v => match v_session v with Some _ => true | None => false end)
                  (fun o => match o_session o with Some _ => true | None => false end) l vs) as M.
    assert (G : forall A (f : A -> bool) m, existsb f m = existsb (fun b => b) (map f m)) by (induction m; cbn; congruence).
    rewrite (G _ _ vs), (G _ _ l). f_equal. apply M; [|exact V]. intros ob v Hv. apply validate_row_inv in Hv.
    destruct Hv as (_ & _ & _ & _ & -> & _). reflexivity. }
  pose proof (validate_length _ _ V) as LEN.
  rewrite T, FS, SG, US.
  assert (BD : map fst (pairs l) = map band l) by (unfold pairs; rewrite map_map; reflexivity).
  rewrite BD.
  set (t_rel := map (fun t => t - fmin (map (emission light) l)) (map (emission light) l)).
  assert (SP : fmax t_rel - fmin t_rel = covered light l) by apply span_shift.
  rewrite SP.
  assert (LT : List.length t_rel = List.length vs) by (unfold t_rel; rewrite !map_length; lia).
  set (y := map (fun v => v_mag v - 5 * log10 (v_r v * v_delta v)) vs).
  assert (LY : List.length y = List.length vs) by (unfold y; rewrite map_length; reflexivity).
  assert (LF : List.length (pairs l) = List.length vs) by (unfold pairs; rewrite map_length; lia).
  cbv zeta.
  cbn [with_mode staged orders clip_sigma min_rotations max_frequency grid_scale max_period early_exit mode min_per_group bic_improvement claim_doubled].
  destruct (if early_exit o then pre_solve (List.length l) (map band l) (covered light l) y (map o_sigma l) 2 (min_rotations o) (max_frequency o) else []) as [|e es] eqn:P.
  2:{ intros H. injection H as <-. discriminate PD. }
  destruct (rle (covered light l) 0) eqn:SPN; [discriminate|].
  set (ws := match weights_from_sigma (map o_sigma l) with Some w => w | None => map (fun _ => 1) vs end).
  assert (LW : List.length ws = List.length vs).
  { unfold ws. destruct (weights_from_sigma (map o_sigma l)) as [w|] eqn:W; [|rewrite map_length; reflexivity].
    apply weights_length in W. rewrite map_length in W. lia. }
  change (match weights_from_sigma (map o_sigma l) with Some _ => true | None => false end) with (weighted_of l).
  destruct (build_grid _ _ _ _ _) as [freqs|] eqn:BG; cbn [bind]; [|discriminate].
  set (base := data_of false (pairs l) t_rel y ws vs).
  set (sess := data_of true (pairs l) t_rel y ws vs).
  change (derive lstsq hgfit f_cdf f_ppf) with drv.
  fold (with_mode Ignore o). fold (with_mode Use o). rewrite !derive_mode.
  destruct (drv o (weighted_of l) base (n_fixed false (pairs l)) freqs) as [bsol|] eqn:DB; cbn [bind]; [|discriminate].
  rewrite MO. rewrite andb_false_r, !andb_true_r. cbn [bind].
  match goal with |- bind _ ?g = _ -> _ => set (G := g) end.
  assert (GS : forall sol off, exists w, G (sol, off) = Ok w /\ p_offsets w = off /\ p_days w <> None /\ p_sigma w = Some (r_sigma (w_fit (s_chosen sol))) /\
                 p_order w = Some (r_order (w_fit (s_chosen sol))) /\ p_nfit w = r_nfit (w_fit (s_chosen sol))).
  { intros sol off. unfold G. eexists. split; [reflexivity|]. cbn [p_offsets p_days p_sigma p_order p_nfit fst snd]. repeat split; try reflexivity. discriminate. }
  match goal with |- _ -> exists b, ?g = Ok b /\ _ => change g with (G (bsol, false)) end.
  destruct (GS bsol false) as (b & B1 & B2 & B3 & B4 & B5 & B6). rewrite B1.
  intros H. exists b. split; [reflexivity|]. split; [exact B2|]. split; [exact B3|].
  destruct (has_sessions l) eqn:HS.
  2:{ cbn [bind] in H. rewrite B1 in H. congruence. }
  destruct (drv o (weighted_of l) sess (n_fixed true (pairs l)) freqs) as [ssol|] eqn:DS; cbn [bind] in H |- *; [|discriminate].
  match goal with |- exists s, ?g = Ok s /\ _ => change g with (G (ssol, true)) end.
  destruct (GS ssol true) as (s & S1 & S2 & S3 & S4 & S5 & S6). rewrite S1.
  exists s. split; [reflexivity|]. split; [exact S2|]. split; [exact S3|].
  change (summarize true (map (emission light) l) (pairs l)) with (sums light l) in H.
  assert (EL : Nat.leb 2 (n_sessions (sums light l)) && Nat.leb (min_per_group o) (min_group (sums light l)) && rlt 0 (median_span (sums light l)) = true <-> eligible o l).
  { rewrite !andb_true_iff, sums_sessions, sums_groups, sums_span by exact NE. unfold eligible. tauto. }
  set (el := Nat.leb 2 (n_sessions (sums light l)) && Nat.leb (min_per_group o) (min_group (sums light l)) && rlt 0 (median_span (sums light l))) in *. clearbody el.
  set (lower := match bic (w_fit (s_chosen ssol)), bic (w_fit (s_chosen bsol)) with
                | Some a, Some b => rlt (a + bic_improvement o) b | Some _, None => true | None, _ => false end) in *.
  assert (LO : lower = true <-> improves (bic_improvement o) (bic (w_fit (s_chosen ssol))) (bic (w_fit (s_chosen bsol)))).
  { unfold lower, improves. destruct (bic (w_fit (s_chosen ssol))), (bic (w_fit (s_chosen bsol))); rewrite ?rlt_true; intuition discriminate. }
  clearbody lower.
  assert (NEQ : b <> s) by (intros C; rewrite C in B2; congruence).
  split.
  - destruct (el && lower) eqn:EE; cbn [bind] in H.
    + right. rewrite S1 in H. split; [congruence|]. apply EL. apply andb_prop in EE. apply EE.
    + left. rewrite B1 in H. congruence.
  - intros W. rewrite W in DB, DS.
    assert (I1 : information l s = bic (w_fit (s_chosen ssol))).
    { apply (bic_row o l sess ssol s true); auto; [unfold sess; rewrite data_length by assumption; exact LEN|rewrite BG; exact DS]. }
    assert (I2 : information l b = bic (w_fit (s_chosen bsol))).
    { apply (bic_row o l base bsol b false); auto; [unfold base; rewrite data_length by assumption; exact LEN|rewrite BG; exact DB]. }
    rewrite I1, I2, <- EL, <- LO. rewrite <- andb_true_iff.
    destruct (el && lower); cbn [bind] in H.
    + rewrite S1 in H. split; [reflexivity|congruence].
    + rewrite B1 in H. split; [congruence|discriminate].
Qed.
End Auto.
