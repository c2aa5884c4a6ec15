(* What a solution of the period search satisfies, and when there is one. *)
From Coq Require Import Reals Lra.
From Coq Require Import List String Bool Permutation Sorted.
From Verif Require Import Base ListLemmas StrOrder PhotModel PhotH RotModel RotScore RotFit RotClus.
Import ListNotations.
Open Scope string_scope.
Open Scope list_scope.
Open Scope R_scope.

Lemma eps64_pos : 0 < eps64.
Proof. unfold eps64. apply Rinv_0_lt_compat, pow_lt. lra. Qed.

Lemma div_le_div a x y : 0 <= a -> 0 < x -> x <= y -> a / y <= a / x.
Proof. intros Ha Hx Hy. apply Rmult_le_compat_l; [exact Ha|]. apply Rinv_le_contravar; assumption. Qed.

Lemma item_contains freqs i f : eps64 <= r_freq f ->
  i_lo (item_at freqs i f) <= w_period (fit_with_period f) <= i_hi (item_at freqs i f).
Proof.
  intros H. pose proof eps64_pos as E. unfold item_at. cbn [i_lo i_hi].
  set (hs := Rmax _ _ / 2).
  assert (Hh : 0 <= hs). { unfold hs. apply Rmult_le_pos; [|lra]. eapply Rle_trans; [apply Rabs_pos|apply Rmax_l]. }
  clearbody hs. unfold fit_with_period. cbn [w_period w_doubled].
  set (k := if Nat.eqb _ 1 then 2 else 1). assert (Hk : 0 <= k) by (unfold k; destruct (Nat.eqb _ 1); lra). clearbody k.
  set (c := r_freq f) in *. assert (L : Rmax (c - hs) eps64 <= c) by (apply Rmax_lub; lra).
  assert (L0 : 0 < Rmax (c - hs) eps64) by (pose proof (Rmax_r (c - hs) eps64); lra).
  pose proof (div_le_div k _ _ Hk L0 L) as A. assert (B : k / (c + hs) <= k / c) by (apply div_le_div; lra).
  split; [eapply Rle_trans; [apply Rmin_l|exact B]|eapply Rle_trans; [exact A|apply Rmax_r]].
Qed.

Lemma fwp_fit f : w_fit (fit_with_period f) = f.
Proof. reflexivity. Qed.
Lemma fwp_period f : w_period (fit_with_period f) = (if w_doubled (fit_with_period f) then 2 else 1) / r_freq f.
Proof. reflexivity. Qed.

Lemma split_spec i l p o : split_primary i l = Some (p, o) -> Permutation (p :: o) l /\ In i (c_idx p).
Proof.
  revert p o. induction l as [|c l IH]; intros p o; cbn [split_primary]; [discriminate|].
  destruct (existsb (Nat.eqb i) (c_idx c)) eqn:E.
  - intros H. injection H as <- <-. split; [apply Permutation_refl|].
    apply existsb_exists in E. destruct E as (j & Hj & Ej). apply Nat.eqb_eq in Ej. subst j. exact Hj.
  - destruct (split_primary i l) as [[p0 o0]|]; [|discriminate]. intros H. injection H as <- <-.
    destruct (IH _ _ eq_refl) as [A B]. split; [|exact B]. eapply perm_trans; [apply perm_swap|]. apply perm_skip. exact A.
Qed.
Lemma split_total i l c : In c l -> In i (c_idx c) -> exists x, split_primary i l = Some x.
Proof.
  induction l as [|d l IH]; [intros []|]. intros H Hi. cbn [split_primary]. destruct (existsb _ _) eqn:E; [eauto|].
  destruct H as [->|H].
  - exfalso. assert (existsb (Nat.eqb i) (c_idx c) = true); [|congruence]. apply existsb_exists. exists i. split; [exact Hi|apply Nat.eqb_refl].
  - destruct (IH H Hi) as [[p o] ->]. eauto.
Qed.

Lemma fold_rmax_ge l : forall m, m <= fold_left Rmax l m /\ forall y, In y l -> y <= fold_left Rmax l m.
Proof.
  induction l as [|x l IH]; intros m; cbn [fold_left]; [split; [lra|intros y []]|].
  destruct (IH (Rmax m x)) as [A B]. pose proof (Rmax_l m x). pose proof (Rmax_r m x). split; [lra|]. intros y [<-|Hy]; [lra|auto].
Qed.
Lemma max_deviation_spec p cs d : max_deviation p cs = Some d ->
  0 < p /\ forall c, In c cs -> Rabs (c_lo c - p) <= d /\ Rabs (c_hi c - p) <= d.
Proof.
  unfold max_deviation. destruct (rle p 0) eqn:E; [discriminate|]. apply rle_false in E. intros H. split; [exact E|]. intros c Hc.
  set (f := fun c => Rmax (Rabs (c_lo c - p)) (Rabs (c_hi c - p))) in *.
  apply (in_map f) in Hc. destruct (map f cs) as [|x r]; [destruct Hc|]. injection H as <-.
  destruct (fold_rmax_ge r x) as [A B]. assert (M : f c <= fold_left Rmax r x) by (destruct Hc as [<-|Hc]; auto).
  unfold f in M at 1. pose proof (Rmax_l (Rabs (c_lo c - p)) (Rabs (c_hi c - p))). pose proof (Rmax_r (Rabs (c_lo c - p)) (Rabs (c_hi c - p))). lra.
Qed.

Lemma used_orders_in o k : In k (used_orders o) <-> In k (match orders o with [] => profile_orders | l => l end).
Proof. unfold used_orders. rewrite sort_In, (uniq_In Nat.eqb Nat.eqb_eq). tauto. Qed.

Opaque fit_with_period amplitude search fit_frequency fit_unclipped.
Section Derive.
Variable lstsq : list (list R) -> list R -> list R.
Variable hgfit : R -> R -> R * R.
Variable f_cdf : R -> Z -> Z -> R.
Variable f_ppf : R -> Z -> Z -> option R.
Variable o : options.
Variable weighted : bool.
Variable all : list datum.
Variable nf : nat.
Variable freqs : list R.
Let exact order i := fit_frequency lstsq hgfit weighted (clip_sigma o) all nf order (nth i freqs 0).
Let quick order i := fit_unclipped lstsq hgfit weighted all nf order (nth i freqs 0).
Let drv := derive lstsq hgfit f_cdf f_ppf o weighted all nf freqs.
Let cands := keep_some (map (fun k => search (exact k) (quick k) (staged o) (List.length freqs)) (used_orders o)).

(* a fit within the threshold of a fit *)
Definition acceptable (thr : option R) (f : fitres) : Prop := match thr with Some t => r_sigma f <= t | None => True end.

Lemma fits_nth order i f : nth_error (map (exact order) (seq 0 (List.length freqs))) i = Some (Some f) <-> (i < List.length freqs)%nat /\ exact order i = Some f.
Proof.
  rewrite nth_error_map. split.
  - destruct (nth_error (seq 0 (List.length freqs)) i) as [j|] eqn:E; [|discriminate]. cbn. intros H. injection H as H.
    assert (L : (i < List.length freqs)%nat) by (rewrite <- (seq_length (List.length freqs) 0); apply nth_error_Some; congruence).
    apply nth_error_nth with (d := 0%nat) in E. rewrite seq_nth in E by exact L. subst j. split; [exact L|exact H].
  - intros [L H]. rewrite (nth_error_nth' _ 0%nat) by (rewrite seq_length; exact L). rewrite seq_nth by exact L. cbn. rewrite H. reflexivity.
Qed.

Lemma cand_in c : In c cands -> In (r_order c) (used_orders o) /\ exists i, (i < List.length freqs)%nat /\ exact (r_order c) i = Some c.
Proof.
  unfold cands. rewrite keep_some_in, in_map_iff. intros (k & E & Hk). apply search_some in E. destruct E as (i & Hi & E).
  pose proof E as F. unfold exact in F. apply fit_inv in F. destruct F as (_ & F & _). rewrite F. eauto.
Qed.

Lemma derive_spec sol : (forall i, (i < List.length freqs)%nat -> eps64 <= nth i freqs 0) -> drv = Ok sol ->
  exists chosen i bf, select_order f_cdf cands = Some chosen /\
    (i < List.length freqs)%nat /\ exact (r_order chosen) i = Some bf /\ s_chosen sol = fit_with_period bf /\
    (forall j g, (j < List.length freqs)%nat -> exact (r_order chosen) j = Some g -> r_sigma bf <= r_sigma g) /\
    c_lo (s_primary sol) <= w_period (s_chosen sol) <= c_hi (s_primary sol) /\
    (exists others, s_alternates sol = map (fun c => w_period (c_best c)) others /\ Permutation (s_primary sol :: others) (s_clusters sol)) /\
    (forall p, In p (s_alternates sol) -> p < c_lo (s_primary sol) \/ c_hi (s_primary sol) < p) /\
    (forall j g, (j < List.length freqs)%nat -> exact (r_order chosen) j = Some g -> acceptable (sigma_threshold f_ppf bf) g ->
       exists c, In c (s_clusters sol) /\ c_lo c <= w_period (fit_with_period g) <= c_hi c) /\
    (s_reliable sol = true -> forall c, In c (s_clusters sol) ->
       Rabs (c_lo c - w_period (s_chosen sol)) <= Rmax (2 * w_period (s_chosen sol)) (7 / 24) /\
       Rabs (c_hi c - w_period (s_chosen sol)) <= Rmax (2 * w_period (s_chosen sol)) (7 / 24)) /\
    s_relunc sol = rel_uncertainty (w_period (s_chosen sol)) (c_lo (s_primary sol)) (c_hi (s_primary sol)) /\
    s_amplitude sol = amplitude bf.
Proof.
  intros Hf. unfold drv, derive. fold cands. change (keep_some _) with cands.
  destruct (select_order f_cdf cands) as [chosen|] eqn:S; [|discriminate].
  fold (exact (r_order chosen)).
  set (fits := map (exact (r_order chosen)) (seq 0 (List.length freqs))).
  change (map (fun i => fit_frequency lstsq hgfit weighted (clip_sigma o) all nf (r_order chosen) (nth i freqs 0)) (seq 0 (List.length freqs))) with fits.
  destruct (argmin_from 0 (map (option_map r_sigma) fits)) as [[best w]|] eqn:A; [|discriminate].
  destruct (nth_error fits best) as [[bf|]|] eqn:B; try discriminate.
  pose proof (argmin_some _ _ _ _ A) as (_ & A1 & A2). rewrite Nat.sub_0_r, nth_error_map, B in A1. cbn in A1. injection A1 as A1.
  assert (MIN : forall j g, nth_error fits j = Some (Some g) -> r_sigma bf <= r_sigma g).
  { intros j g Hg. rewrite A1. apply (A2 j). rewrite nth_error_map, Hg. reflexivity. }
  assert (FR : forall j g, nth_error fits j = Some (Some g) -> eps64 <= r_freq g).
  { intros j g Hg. apply fits_nth in Hg. destruct Hg as [L E]. unfold exact in E. apply fit_inv in E. destruct E as (E & _). rewrite E. apply Hf. exact L. }
  set (thr := sigma_threshold f_ppf bf).
  set (acc0 := filter _ _).
  assert (ACC0 : forall j, In j acc0 <-> exists g, nth_error fits j = Some (Some g) /\ acceptable thr g).
  { intros j. unfold acc0. rewrite filter_In. split.
    - intros (Hj & C). destruct (nth_error fits j) as [[g|]|]; try discriminate. exists g. split; [reflexivity|].
      unfold acceptable. destruct thr; [apply rle_true; exact C|exact I].
    - intros (g & E & C). split.
      + apply in_seq. apply fits_nth in E. lia.
      + rewrite E. unfold acceptable in C. destruct thr; [apply rle_true; exact C|reflexivity]. }
  set (acc := match acc0 with [] => [best] | _ => acc0 end).
  assert (BA : In best acc).
  { unfold acc. destruct acc0 as [|x r] eqn:E; [left; reflexivity|].
    destruct thr as [t|] eqn:T.
    - destruct (Rle_dec (r_sigma bf) t) as [L|L].
      + apply ACC0. exists bf. split; [exact B|exact L].
      + exfalso. assert (X : In x (x :: r)) by (left; reflexivity). apply ACC0 in X. destruct X as (g & G & C). cbn in C.
        specialize (MIN x g G). lra.
    - apply ACC0. exists bf. split; [exact B|exact I]. }
  assert (ACC : forall j, In j acc0 -> In j acc) by (unfold acc; destruct acc0; [intros j []|auto]).
  destruct (clusters_spec freqs fits acc) as (C1 & C2 & C3 & _).
  set (cs0 := clusters freqs fits acc) in *.
  destruct (C3 best bf BA B) as (cb & Hcb & Hib).
  assert (CS : match cs0 with [] => [mkcluster [best] (fit_with_period bf) (w_period (fit_with_period bf)) (w_period (fit_with_period bf))] | _ => cs0 end = cs0)
    by (destruct cs0; [destruct Hcb|reflexivity]).
  cbv zeta. rewrite CS. clear CS.
  destruct (split_total best cs0 cb Hcb Hib) as ([pc others] & SP). rewrite SP. cbn [fst snd].
  destruct (split_spec _ _ _ _ SP) as [PM IB].
  intros H. injection H as <-. cbn [s_chosen s_primary s_clusters s_alternates s_reliable s_relunc s_amplitude].
  exists chosen, best, bf. split; [reflexivity|].
  pose proof (proj1 (fits_nth _ _ _) B) as [LB EB].
  assert (PIN : In pc cs0) by (apply (Permutation_in _ PM); left; reflexivity).
  split; [exact LB|]. split; [exact EB|]. split; [reflexivity|]. split.
  { intros j g Hj E. apply (MIN j). apply fits_nth. auto. }
  split.
  { destruct (proj2 (C2 pc PIN) best IB) as (f & F1 & _ & _ & F2 & F3). rewrite B in F1. injection F1 as <-.
    pose proof (item_contains freqs best bf (FR _ _ B)). lra. }
  split; [exists others; split; [reflexivity|exact PM]|]. split.
  { intros p Hp. apply in_map_iff in Hp. destruct Hp as (c & <- & Hc).
    assert (CIN : In c cs0) by (apply (Permutation_in _ PM); right; exact Hc).
    destruct (proj1 (C2 c CIN)) as (i & f & _ & _ & F1 & F2 & F3 & F4). rewrite F2.
    pose proof (item_contains freqs i f (FR _ _ F1)) as K.
    assert (AP : ForallOrdPairs c_apart (pc :: others)) by (eapply ford_perm; [unfold c_apart; tauto|apply Permutation_sym; exact PM|exact C1]).
    inversion AP as [|? ? AF _]; subst. rewrite Forall_forall in AF. destruct (AF c Hc); [right|left]; lra. }
  split.
  { intros j g Hj E AC. assert (G : nth_error fits j = Some (Some g)) by (apply fits_nth; auto).
    assert (IJ : In j acc) by (apply ACC, ACC0; eauto).
    destruct (C3 j g IJ G) as (c & Hc & Hi). exists c. split; [exact Hc|].
    destruct (proj2 (C2 c Hc) j Hi) as (f & F1 & _ & _ & F2 & F3). rewrite G in F1. injection F1 as <-.
    pose proof (item_contains freqs j g (FR _ _ G)). lra. }
  split; [|split; reflexivity].
  destruct (max_deviation _ cs0) as [d|] eqn:D; [|discriminate]. intros R. apply rle_true in R.
  apply max_deviation_spec in D. destruct D as [_ D]. intros c Hc. destruct (D c Hc). lra.
Qed.

Lemma derive_ok k i f : In k (used_orders o) -> (i < List.length freqs)%nat -> exact k i = Some f -> exists sol, drv = Ok sol.
Proof.
  intros Hk Hi E. unfold drv, derive. change (keep_some _) with cands.
  assert (NE : cands <> []).
  { destruct (search_total (exact k) (quick k) (List.length freqs) (staged o) i f Hi E) as (g & G).
    assert (X : In g cands) by (apply keep_some_in, in_map_iff; eauto). intros C. rewrite C in X. destruct X. }
  destruct (select_total f_cdf cands NE) as (chosen & S). rewrite S.
  destruct (select_spec _ _ _ S) as (lo & hi & L & _). assert (IC : In chosen cands) by (rewrite L; apply in_elt).
  destruct (cand_in _ IC) as (_ & j & Hj & Ej).
  set (fits := map _ (seq 0 (List.length freqs))).
  assert (FJ : nth_error fits j = Some (Some chosen)) by (apply fits_nth; auto).
  destruct (argmin_from 0 (map (option_map r_sigma) fits)) as [[best w]|] eqn:A.
  2:{ exfalso. apply (argmin_none _ _ A j (r_sigma chosen)). rewrite nth_error_map, FJ. reflexivity. }
  pose proof (argmin_some _ _ _ _ A) as (_ & A1 & _). rewrite Nat.sub_0_r, nth_error_map in A1.
  destruct (nth_error fits best) as [[bf|]|]; try discriminate. eauto.
Qed.

Lemma derive_few : (forall k, In k (used_orders o) -> (List.length all <= nf + 2 * k)%nat) -> drv = Err ValueError.
Proof.
  intros H. unfold drv, derive. change (keep_some _) with cands.
  destruct (select_order f_cdf cands) as [c|] eqn:S; [|reflexivity]. exfalso.
  destruct (select_spec _ _ _ S) as (lo & hi & L & _). assert (IC : In c cands) by (rewrite L; apply in_elt).
  destruct (cand_in _ IC) as (Hk & j & Hj & Ej). unfold exact in Ej. rewrite fit_none_small in Ej; [discriminate|]. apply H. exact Hk.
Qed.
Lemma derive_err e : drv = Err e -> e = ValueError.
Proof.
  unfold drv, derive. destruct (select_order _ _); [|congruence]. destruct (argmin_from _ _) as [[? ?]|]; [|congruence].
  destruct (nth_error _ _) as [[?|]|]; congruence.
Qed.
End Derive.
