(* Padding, batches and the choice of the best frequency. *)
From Coq Require Import Reals Lra Lia.
From Coq Require Import List String Bool ZArith.
From Verif Require Import Base StrOrder PhotModel RotModel RotScore RotFit JaxModel JaxSpec JaxLinear JaxLoop.
Import ListNotations.
Open Scope list_scope.
Open Scope R_scope.

(* ---- buckets ---- *)
Lemma bit_length_nonneg z : (0 <= bit_length z)%Z.
Proof. unfold bit_length. destruct (z =? 0)%Z; [lia|]. pose proof (Z.log2_nonneg (Z.abs z)). lia. Qed.
Lemma row_bucket_pow n f : row_bucket n f = (2 ^ bit_length (Z.max n f - 1))%Z.
Proof. unfold row_bucket. rewrite Z.shiftl_mul_pow2 by apply bit_length_nonneg. lia. Qed.
Lemma row_bucket_pos n f : (0 < row_bucket n f)%Z.
Proof. rewrite row_bucket_pow. apply Z.pow_pos_nonneg; [lia|apply bit_length_nonneg]. Qed.
Lemma row_bucket_ge n f : (Z.max n f <= row_bucket n f)%Z.
Proof.
  rewrite row_bucket_pow. set (m := Z.max n f). unfold bit_length. destruct (Z.eqb_spec (m - 1) 0) as [E|E]; [cbn; lia|].
  destruct (Z_le_gt_dec m 0) as [L|G].
  { pose proof (Z.log2_nonneg (Z.abs (m - 1))). pose proof (Z.pow_pos_nonneg 2 (Z.log2 (Z.abs (m - 1)) + 1) ltac:(lia) ltac:(lia)). lia. }
  rewrite Z.abs_eq by lia. pose proof (Z.log2_spec (m - 1) ltac:(lia)) as [_ H]. rewrite Z.add_1_r. lia.
Qed.
Lemma row_bucket_least n f k : (1 <= Z.max n f)%Z -> (0 <= k)%Z -> (Z.max n f <= 2 ^ k)%Z -> (row_bucket n f <= 2 ^ k)%Z.
Proof.
  intros H Hk L. rewrite row_bucket_pow. set (m := Z.max n f) in *. apply Z.pow_le_mono_r; [lia|]. unfold bit_length.
  destruct (Z.eqb_spec (m - 1) 0) as [E|E]; [exact Hk|]. rewrite Z.abs_eq by lia.
  assert (Z.log2 (m - 1) < k)%Z by (apply Z.log2_lt_pow2; lia). lia.
Qed.
Lemma next_multiple_spec v m : (1 < m)%Z -> let r := next_multiple v m in (v <= r < v + m)%Z /\ (r mod m = 0)%Z.
Proof.
  intros H. unfold next_multiple. rewrite (proj2 (Z.leb_gt m 1)) by lia. cbv zeta.
  pose proof (Z.div_mod (- v) m ltac:(lia)). pose proof (Z.mod_pos_bound (- v) m ltac:(lia)).
  split; [nia|]. apply Z.mod_mul. lia.
Qed.

(* ---- the best of fits ---- *)
Lemma better_assoc a b c : better (better a b) c = better a (better b c).
Proof.
  destruct a as [a|], b as [b|], c as [c|]; cbn; try reflexivity; try (destruct (rlt _ _); reflexivity).
  unfold rlt. destruct (Rlt_dec (r_sigma b) (r_sigma a)) as [A|A], (Rlt_dec (r_sigma c) (r_sigma b)) as [B|B]; cbn;
    unfold rlt; repeat (destruct (Rlt_dec _ _)); try reflexivity; try lra.
Qed.
Lemma better_none a : better None a = a.
Proof. destruct a; reflexivity. Qed.
Lemma best_fold l : forall b, fold_left better l b = better b (best_of l).
Proof.
  unfold best_of. induction l as [|x l IH]; intros b; [reflexivity|]. cbn [fold_left]. rewrite IH, (IH (better None x)), better_none.
  apply better_assoc.
Qed.
Lemma best_cons x l : best_of (x :: l) = better x (best_of l).
Proof. unfold best_of. cbn [fold_left]. rewrite best_fold, better_none. reflexivity. Qed.
Lemma best_app a b : best_of (a ++ b) = better (best_of a) (best_of b).
Proof. unfold best_of at 1. rewrite fold_left_app, best_fold. reflexivity. Qed.
Lemma argmin_best l : forall i, 
  match argmin_from i (map (option_map r_sigma) l) with
  | Some (j, s) => (i <= j)%nat /\ exists f, nth_error l (j - i) = Some (Some f) /\ best_of l = Some f /\ r_sigma f = s
  | None => best_of l = None
  end.
Proof.
  induction l as [|o l IH]; intros i; [reflexivity|]. cbn [map argmin_from]. specialize (IH (S i)). rewrite best_cons.
  destruct o as [f|]; cbn [option_map].
  - destruct (argmin_from (S i) (map (option_map r_sigma) l)) as [[j s]|].
    + destruct IH as (A & g & B & C & D). rewrite C. cbn [better]. rewrite D. destruct (rlt s (r_sigma f)).
      * split; [lia|]. exists g. replace (j - i)%nat with (S (j - S i)) by lia. repeat split; assumption.
      * split; [lia|]. exists f. rewrite Nat.sub_diag. repeat split.
    + split; [lia|]. exists f. rewrite Nat.sub_diag, IH. repeat split.
  - rewrite better_none. destruct (argmin_from (S i) (map (option_map r_sigma) l)) as [[j s]|]; [|exact IH].
    destruct IH as (A & g & B & C & D). split; [lia|]. exists g. replace (j - i)%nat with (S (j - S i)) by lia. repeat split; assumption.
Qed.
Lemma argmin_pad k : forall l i, argmin_from i (l ++ repeat None k) = argmin_from i l.
Proof.
  assert (Z : forall i, argmin_from i (repeat None k) = None) by (induction k as [|k IH]; intros i; [reflexivity|exact (IH (S i))]).
  induction l as [|[v|] l IH]; intros i; cbn [app argmin_from]; [apply Z|rewrite IH; reflexivity|apply IH].
Qed.

(* ---- the batches ---- *)
Lemma firstn_plus {A} a b (l : list A) : firstn (a + b) l = firstn a l ++ firstn b (skipn a l).
Proof. revert l. induction a as [|a IH]; intros [|x l]; cbn; try reflexivity; [destruct b; reflexivity|]. rewrite IH. reflexivity. Qed.
Lemma batches_concat size l : (1 <= size)%nat -> concat (batches size l) = l.
Proof.
  intros H. unfold batches.
  assert (G : forall m, concat (map (fun k => firstn size (skipn (k * size) l)) (seq 0 m)) = firstn (m * size) l).
  { induction m as [|m IH]; [reflexivity|]. rewrite seq_S, map_app, concat_app, IH. cbn [map concat]. rewrite app_nil_r.
    replace (S m * size)%nat with (m * size + size)%nat by lia. rewrite firstn_plus. reflexivity. }
  rewrite G. apply firstn_all2. pose proof (Nat.div_mod (List.length l + size - 1) size ltac:(lia)).
  pose proof (Nat.mod_upper_bound (List.length l + size - 1) size ltac:(lia)). nia.
Qed.

Section Batch.
Variable solver : list (list R) -> list R -> list R.
Variable hgfit : R -> R -> R * R.
Variable weighted : bool.
Variable clip : R.
Variable all : list datum.
Variables nf order : nat.
Hypothesis exact : solves solver.
Hypothesis HA : forall d, In d all -> List.length (d_fix d) = nf.

Let n_par := (nf + 2 * order)%nat.
Let F := fit_frequency (ridge_lstsq solver) hgfit weighted clip all nf order.
Let pr := prior hgfit (fmin (map (fun d => nth (nf - 2) (d_fix d) 0) all)).
Let prior_rows := [unit_row n_par (nf - 2); unit_row n_par (nf - 1)].

Definition agrees (pad : nat) (j : jfit) (o : option fitres) (f : R) : Prop :=
  j_score true j = option_map r_sigma o /\
  match o with
  | Some r => j_coeffs j = pad_cols nf pad (r_coeffs r) /\ List.length (r_coeffs r) = n_par /\ j_rss j = r_rss r /\ j_df j = r_df r /\
              j_nfit j = r_nfit r /\ r_freq r = f /\ r_order r = order /\ r_npar r = n_par /\ r_nclip r = (List.length all - r_nfit r)%nat
  | None => True
  end.

Lemma map_repeat {A B} (f : A -> B) x n : map f (repeat x n) = repeat (f x) n.
Proof. induction n as [|n IH]; [reflexivity|]. cbn. rewrite IH. reflexivity. Qed.
Lemma count_app a b : count (a ++ b) = (count a + count b)%nat.
Proof. unfold count. rewrite filter_app, app_length. reflexivity. Qed.
Lemma count_true n : count (repeat true n) = n.
Proof. unfold count. induction n as [|n IH]; [reflexivity|]. cbn. rewrite IH. reflexivity. Qed.
Lemma count_false n : count (repeat false n) = 0%nat.
Proof. unfold count. induction n as [|n IH]; [reflexivity|]. cbn. exact IH. Qed.
Lemma map_const {A B} (x : B) (l : list A) : map (fun _ => x) l = repeat x (List.length l).
Proof. induction l as [|a l IH]; [reflexivity|]. cbn. rewrite IH. reflexivity. Qed.

Lemma one_frequency pad floor f :
  agrees pad (jax_frequency solver weighted clip 8 (pad_rows weighted all nf floor)
                (if Nat.eqb pad 0 then prior_rows else map (pad_cols nf pad) prior_rows)
                [fst (fst pr); snd (fst pr)] [fst (snd pr); snd (snd pr)] nf pad order (f, true)) (F f) f.
Proof.
  set (q := (Z.to_nat (row_bucket (Z.of_nat (List.length all)) floor) - List.length all)%nat).
  set (pd := mkdatum 0 0 (zeros nf) 0).
  set (P := map (adj weighted) all ++ repeat pd q).
  assert (ER : pad_rows weighted all nf floor = map (fun d => (adj weighted d, true)) all ++ repeat (pd, false) q) by reflexivity.
  set (rows := pad_rows weighted all nf floor) in *.
  assert (E1 : map fst rows = P) by (rewrite ER, map_app, map_map, map_repeat; reflexivity).
  assert (E2 : map snd rows = repeat true (List.length all) ++ repeat false q) by (rewrite ER, map_app, map_map, map_repeat; cbn [snd]; rewrite map_const; reflexivity).
  assert (E3 : (if Nat.eqb pad 0 then prior_rows else map (pad_cols nf pad) prior_rows) = map (pad_cols nf pad) prior_rows).
  { destruct (Nat.eqb_spec pad 0) as [->|]; [|reflexivity]. cbn [prior_rows map]. rewrite !pad_none. reflexivity. }
  assert (HP : forall d, In d P -> List.length (d_fix d) = nf).
  { intros d Hd. apply in_app_or in Hd. destruct Hd as [Hd|Hd].
    - apply in_map_iff in Hd. destruct Hd as (x & <- & Hx). exact (HA x Hx).
    - apply repeat_spec in Hd. subst d. unfold pd, zeros. cbn. apply repeat_length. }
  assert (HN : P <> []).
  { unfold P. destruct all as [|x l] eqn:EA; [|discriminate]. cbn [map app]. unfold q. cbn [List.length].
    pose proof (row_bucket_pos (Z.of_nat 0) floor). destruct (Z.to_nat (row_bucket (Z.of_nat 0) floor)) eqn:EZ; [lia|discriminate]. }
  unfold jax_frequency. cbn [fst snd]. rewrite E3.
  rewrite (map_ext (fun r : datum * bool => snd r && true) snd) by (intros; apply andb_true_r).
  rewrite <- (map_map fst (fun d => (d_fix d ++ zeros pad) ++ fourier (d_t d) f order)).
  rewrite <- (map_map fst d_y), <- (map_map fst d_w). rewrite E1, E2, count_app, count_true, count_false, Nat.add_0_r. fold n_par.
  assert (LA : List.length (repeat true (List.length all) ++ repeat false q) = List.length P).
  { unfold P. rewrite !app_length, !repeat_length, map_length. reflexivity. }
  assert (MA : masked (repeat true (List.length all) ++ repeat false q) P = map (adj weighted) all).
  { unfold P. rewrite masked_app by (rewrite repeat_length, map_length; reflexivity). rewrite masked_false, app_nil_r.
    rewrite <- (map_length (adj weighted) all) at 1. apply masked_true. }
  pose proof (rounds_loop solver hgfit weighted clip all nf order pad f P exact HP HN 8 _ all LA MA) as K. cbv zeta in K.
  fold n_par prior_rows pr in K.
  set (j := jax_rounds 8 true clip _ (Z.of_nat n_par) (repeat true (List.length all) ++ repeat false q)) in *.
  unfold agrees, F, fit_frequency. fold n_par.
  assert (LE : Nat.leb (List.length all) n_par = true -> clip_loop (ridge_lstsq solver) hgfit 8 weighted clip all nf order f all = None).
  { intros L. cbn [clip_loop]. fold n_par. rewrite L. reflexivity. }
  assert (SAME : (if Nat.leb (List.length all) n_par then None else clip_loop (ridge_lstsq solver) hgfit 8 weighted clip all nf order f all)
     = clip_loop (ridge_lstsq solver) hgfit 8 weighted clip all nf order f all).
  { destruct (Nat.leb (List.length all) n_par); [rewrite LE by reflexivity|]; reflexivity. }
  rewrite SAME. destruct (clip_loop (ridge_lstsq solver) hgfit 8 weighted clip all nf order f all) as [r|].
  - destruct K as (K1 & K2 & K3 & K4 & K5 & K6 & K7 & K8 & K9 & K10 & K11 & _). split.
    + unfold j_score. rewrite K5, (proj2 (Z.ltb_lt _ _) K6), K3. reflexivity.
    + repeat split; assumption.
  - split; [exact K|exact I].
Qed.

(* the state of the loop over the batches *)
Definition state (acc : jax_result) (done : list R) : Prop :=
  x_scores acc = map (option_map r_sigma) (map F done) /\
  match x_best acc, best_of (map F done) with
  | Some (c, _, s, rss, df, n), Some r => c = r_coeffs r /\ s = r_sigma r /\ rss = r_rss r /\ df = r_df r /\ n = r_nfit r
  | None, None => True
  | _, _ => False
  end.

Lemma strip nf0 p c : List.length c = (nf0 + 2 * order)%nat ->
  (if Nat.eqb p 0 then pad_cols nf0 p c else firstn nf0 (pad_cols nf0 p c) ++ firstn (2 * order) (skipn (nf0 + p) (pad_cols nf0 p c))) = c.
Proof.
  intros L. destruct (Nat.eqb_spec p 0) as [->|N]; [apply pad_none|]. unfold pad_cols.
  assert (L1 : List.length (firstn nf0 c) = nf0) by (rewrite firstn_length; lia).
  rewrite firstn_app, L1, Nat.sub_diag, firstn_O, app_nil_r, firstn_firstn, Nat.min_id.
  rewrite skipn_app, L1. rewrite (skipn_all2 (firstn nf0 c)) by lia. cbn [app]. replace (nf0 + p - nf0)%nat with p by lia.
  rewrite skipn_app. unfold zeros. rewrite repeat_length, Nat.sub_diag, skipn_O, (skipn_all2 (repeat 0 p)) by (rewrite repeat_length; lia). cbn [app].
  rewrite (firstn_all2 (skipn nf0 c)) by (rewrite skipn_length; lia). apply firstn_skipn.
Qed.

Lemma batch_step pad size one acc done b :
  (forall f, agrees pad (one (f, true)) (F f) f) -> state acc done ->
  state (take_batch one nf pad order (List.length all) size acc b) (done ++ b).
Proof.
  intros HO [HS HB]. unfold take_batch. set (js := map (fun fv => (snd fv, one fv)) (fill size b)).
  set (k := (size - List.length b)%nat).
  assert (EJ : js = map (fun f => (true, one (f, true))) b ++ repeat (false, one (0, false)) k).
  { unfold js, fill. rewrite map_app, map_map, map_repeat. reflexivity. }
  assert (SC : map (fun p => j_score (fst p) (snd p)) js = map (option_map r_sigma) (map F b) ++ repeat None k).
  { rewrite EJ, map_app, !map_map, map_repeat. cbn [fst snd j_score andb]. f_equal.
    apply map_ext. intros f. exact (proj1 (HO f)). }
  rewrite SC. rewrite firstn_app. rewrite !map_length, Nat.sub_diag, firstn_O, app_nil_r.
  rewrite (firstn_all2 (map (option_map r_sigma) (map F b))) by (rewrite !map_length; lia).
  unfold argmin_inf. rewrite argmin_pad. pose proof (argmin_best (map F b) 0) as AB.
  unfold state. rewrite !map_app, best_app, HS.
  destruct (argmin_from 0 (map (option_map r_sigma) (map F b))) as [[i s]|].
  - destruct AB as (_ & r & A1 & A2 & A3). rewrite Nat.sub_0_r in A1. rewrite A2.
    rewrite nth_error_map in A1. destruct (nth_error b i) as [f|] eqn:EN; [|discriminate]. cbn in A1. injection A1 as A1.
    assert (NB : nth i (map snd js) (mkjfit [] [] None 0 0 0) = one (f, true)).
    { apply nth_error_nth. rewrite EJ, map_app, nth_error_app1.
      - rewrite map_map, nth_error_map, EN. reflexivity.
      - rewrite !map_length. apply nth_error_Some. congruence. }
    rewrite NB. destruct (HO f) as [O1 O2]. rewrite A1 in O1, O2. destruct O2 as (O2 & O3 & O4 & O5 & O6 & _).
    destruct (x_best acc) as [[[[[[c0 m0] s0] rss0] df0] n0]|], (best_of (map F done)) as [r0|]; try contradiction; cbn [better].
    + destruct HB as (B1 & B2 & B3 & B4 & B5). rewrite <- A3, B2. destruct (rlt (r_sigma r) (r_sigma r0)); cbn [x_scores x_best].
      * split; [reflexivity|]. rewrite O2. split; [apply strip; exact O3|]. repeat split; assumption.
      * split; [reflexivity|]. repeat split; assumption.
    + cbn [x_scores x_best]. split; [reflexivity|]. rewrite O2. split; [apply strip; exact O3|]. split; [symmetry; exact A3|]. repeat split; assumption.
  - rewrite AB. destruct (best_of (map F done)) as [r0|]; cbn [better x_scores x_best]; (split; [reflexivity|exact HB]).
Qed.

Lemma evaluate_state bs floor freqs :
  state (evaluate_jax solver weighted clip 8 all prior_rows [fst (fst pr); snd (fst pr)] [fst (snd pr); snd (snd pr)] nf order bs floor freqs) freqs.
Proof.
  unfold evaluate_jax. set (pad := Z.to_nat (next_multiple (Z.of_nat nf) 8 - Z.of_nat nf)). set (size := Nat.max 1 (Z.to_nat bs)).
  set (one := jax_frequency _ _ _ _ _ _ _ _ _ _ _).
  assert (HO : forall f, agrees pad (one (f, true)) (F f) f) by (intros f; apply one_frequency).
  assert (G : forall bl acc done, state acc done -> state (fold_left (take_batch one nf pad order (List.length all) size) bl acc) (done ++ concat bl)).
  { induction bl as [|b bl IH]; intros acc done H; cbn [fold_left concat]; [rewrite app_nil_r; exact H|].
    rewrite app_assoc. apply IH. apply batch_step; assumption. }
  pose proof (G (batches size freqs) (mkjax [] None) [] ltac:(split; [reflexivity|exact I])) as K.
  rewrite batches_concat in K by (unfold size; lia). exact K.
Qed.

(* the caller's view *)
Lemma indices_spec bs floor freqs :
  let fits := map F freqs in
  let v := jax_indices solver hgfit weighted clip all nf order bs floor freqs in
  fst (fst v) = map (option_map r_sigma) fits /\ snd v = best_of fits /\
  List.length (snd (fst v)) = List.length freqs /\
  (forall i f, nth_error (snd (fst v)) i = Some (Some f) -> nth_error fits i = Some (Some f) /\ best_of fits = Some f /\ exists s, argmin_from 0 (fst (fst v)) = Some (i, s)) /\
  (forall i s, argmin_from 0 (fst (fst v)) = Some (i, s) -> nth_error (snd (fst v)) i = nth_error fits i).
Proof.
  cbv zeta. unfold jax_indices. fold n_par. fold pr. fold prior_rows. destruct (evaluate_state bs floor freqs) as [HS HB].
  set (r := evaluate_jax _ _ _ _ _ _ _ _ _ _ _ _ _) in *. rewrite HS.
  pose proof (argmin_best (map F freqs) 0) as AB.
  assert (NN : forall i, nth_error (map (fun _ : R => @None fitres) freqs) i = None \/ nth_error (map (fun _ : R => @None fitres) freqs) i = Some None).
  { intros i. rewrite nth_error_map. destruct (nth_error freqs i); [right|left]; reflexivity. }
  destruct (argmin_from 0 (map (option_map r_sigma) (map F freqs))) as [[pos s]|] eqn:EA.
  - destruct AB as (_ & f & A1 & A2 & A3). rewrite Nat.sub_0_r in A1. rewrite A2 in HB.
    destruct (x_best r) as [[[[[[c m] s0] rss0] df0] n0]|]; [|contradiction]. destruct HB as (B1 & B2 & B3 & B4 & B5).
    pose proof A1 as A1'. rewrite nth_error_map in A1. destruct (nth_error freqs pos) as [q|] eqn:EN; [|discriminate]. cbn in A1. injection A1 as A1.
    destruct (one_frequency 0 0 q) as [_ O]. rewrite A1 in O. destruct O as (_ & _ & _ & _ & _ & O6 & O7 & O8 & O9).
    assert (EF : mkfitres (nth pos freqs 0) order c s0 rss0 df0 n_par n0 (List.length all - n0) = f).
    { rewrite (nth_error_nth freqs pos 0 EN). subst. rewrite <- O9. destruct f. cbn in *. subst. reflexivity. }
    rewrite EF. cbn [fst snd].
    assert (LP : (pos < List.length freqs)%nat) by (apply nth_error_Some; congruence).
    assert (LF : List.length (firstn pos (map (fun _ : R => @None fitres) freqs)) = pos) by (rewrite firstn_length, map_length; lia).
    assert (AT : nth_error (firstn pos (map (fun _ : R => @None fitres) freqs) ++ Some f :: skipn (S pos) (map (fun _ : R => @None fitres) freqs)) pos = Some (Some f)).
    { rewrite nth_error_app2 by lia. rewrite LF, Nat.sub_diag. reflexivity. }
    split; [reflexivity|]. split; [symmetry; exact A2|]. split.
    + rewrite app_length, LF. cbn [List.length]. rewrite skipn_length, map_length. lia.
    + split.
      * intros i g Hg. destruct (Nat.lt_trichotomy i pos) as [L|[->|L]].
        -- rewrite nth_error_app1 in Hg by lia. exfalso.
           assert (In (Some g) (map (fun _ : R => @None fitres) freqs)) by (rewrite <- (firstn_skipn pos); apply in_or_app; left; exact (nth_error_In _ _ Hg)).
           apply in_map_iff in H. destruct H as (? & ? & _). discriminate.
        -- rewrite AT in Hg. injection Hg as <-. split; [assumption|]. split; [assumption|]. exists s. exact EA.
        -- rewrite nth_error_app2 in Hg by lia. rewrite LF in Hg. destruct (i - pos)%nat as [|e] eqn:ED; [lia|]. cbn [nth_error] in Hg. exfalso.
           assert (In (Some g) (map (fun _ : R => @None fitres) freqs)) by (rewrite <- (firstn_skipn (S pos)); apply in_or_app; right; exact (nth_error_In _ _ Hg)).
           apply in_map_iff in H. destruct H as (? & ? & _). discriminate.
      * intros i s1 H. rewrite EA in H. injection H as <- <-. rewrite AT. symmetry. exact A1'.
  - rewrite AB in HB. destruct (x_best r) as [[[[[[? ?] ?] ?] ?] ?]|]; [contradiction|]. cbn [fst snd].
    split; [reflexivity|]. split; [symmetry; exact AB|]. split; [apply map_length|]. split.
    + intros i g Hg. exfalso. destruct (NN i) as [N|N]; rewrite N in Hg; discriminate.
    + intros i s1 H. rewrite EA in H. discriminate.
Qed.
End Batch.
