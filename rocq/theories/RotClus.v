(* Lemmas on the search over the grid, the choice of the order, the clusters of periods and the solution. *)
From Coq Require Import Reals Lra.
From Coq Require Import List String Bool Permutation Sorted.
From Verif Require Import Base ListLemmas StrOrder PhotModel PhotH RotModel RotScore RotFit.
Import ListNotations.
Open Scope string_scope.
Open Scope list_scope.
Open Scope R_scope.

(* ---- the search ---- *)
Lemma sample_bound ivs n i : In i (sample_indices ivs n) -> (i < n)%nat.
Proof.
  unfold sample_indices. destruct (Nat.eqb n 0) eqn:E; [intros []|]. apply Nat.eqb_neq in E. intros H.
  rewrite sort_In in H. rewrite (uniq_In Nat.eqb Nat.eqb_eq) in H. apply in_flat_map in H. destruct H as (p & _ & H).
  destruct H as [<-|[<-|H]]; [lia|lia|]. apply in_seq in H. lia.
Qed.

Definition stride_of (n : nat) : nat := Nat.max 1 ((n + 1023) / 1024).
Definition radius_of (n : nat) : nat := Nat.max 8 (4 * stride_of n).
(* the frequencies tried first: every stride-th one and the last one *)
Definition coarse_index (n c : nat) : Prop := (c < n)%nat /\ ((exists k, c = k * stride_of n)%nat \/ c = (n - 1)%nat).

Definition coarse_list (n : nat) : list nat :=
  let c0 := map (fun i => (i * stride_of n)%nat) (seq 0 ((n + stride_of n - 1) / stride_of n)) in
  if Nat.eqb (last c0 0%nat) (n - 1) then c0 else c0 ++ [(n - 1)%nat].

Lemma last_In {A} (l : list A) d : l <> [] -> In (last l d) l.
Proof. induction l as [|x l IH]; [congruence|]. intros _. destruct l; [left; reflexivity|]. right. apply IH. discriminate. Qed.

Lemma coarse_spec n c : (0 < n)%nat -> In c (coarse_list n) <-> coarse_index n c.
Proof.
  intros Hn. unfold coarse_list, coarse_index. set (st := stride_of n).
  assert (Hs : (1 <= st)%nat) by (unfold st, stride_of; lia). clearbody st.
  set (c0 := map _ _).
  assert (C0 : forall x, In x c0 <-> (x < n)%nat /\ exists k, (x = k * st)%nat).
  { intros x. unfold c0. rewrite in_map_iff. split.
    - intros (k & <- & Hk). apply in_seq in Hk. split; [|eauto].
      assert (K : (k + 1 <= (n + st - 1) / st)%nat) by lia.
      pose proof (Nat.mul_div_le (n + st - 1) st). nia.
    - intros (Hx & k & ->). exists k. split; [reflexivity|]. apply in_seq. split; [lia|].
      assert ((k + 1) <= (n + st - 1) / st)%nat; [|lia]. apply Nat.div_le_lower_bound; nia. }
  assert (NE : c0 <> []).
  { intros E. assert (X : In 0%nat c0) by (apply C0; split; [lia|exists 0%nat; lia]). rewrite E in X. destruct X. }
  destruct (Nat.eqb (last c0 0%nat) (n - 1)) eqn:E.
  - apply Nat.eqb_eq in E. rewrite C0. split; [intuition|]. intros (H & [K| ->]); [auto|].
    apply C0. rewrite <- E. apply last_In. exact NE.
  - rewrite in_app_iff, C0. cbn [In]. split; [intros [[H K]|[H|[]]]; split; auto; lia|].
    intros (H & [K| ->]); auto.
Qed.

Section Search.
Variable exact quick : nat -> option fitres.
Variable n : nat.

Lemma map_some_in l f : In (Some f) (map exact l) -> exists i, In i l /\ exact i = Some f.
Proof. intros H. apply in_map_iff in H. destruct H as (i & E & H). eauto. Qed.
Lemma in_map_some l i f : In i l -> exact i = Some f -> In (Some f) (map exact l).
Proof. intros H E. rewrite <- E. apply in_map. exact H. Qed.

Definition scores_of : list (option R) := map (fun i => option_map r_sigma (quick i)) (coarse_list n).
Definition final_of : list nat :=
  let final := sample_indices (candidate_intervals (coarse_list n) scores_of n (radius_of n) 12) n in
  match argmin_from 0 scores_of with
  | Some (p, _) =>
      let g := nth p (coarse_list n) 0%nat in
      let lo := (g - radius_of n)%nat in
      sort Nat.leb (uniq Nat.eqb (final ++ seq lo (Nat.min n (g + radius_of n + 1) - lo)))
  | None => final
  end.

Lemma search_unfold st : search exact quick st n =
  if Nat.eqb n 0 then None else
  if negb st || Nat.leb n (2 ^ 11) then best_of (map exact (seq 0 n)) else
  match best_of (map exact final_of) with Some f => Some f | None => best_of (map exact (seq 0 n)) end.
Proof. reflexivity. Qed.

Lemma final_bound i : In i final_of -> (i < n)%nat.
Proof.
  unfold final_of. destruct (argmin_from 0 scores_of) as [[p w]|]; [|apply sample_bound].
  intros H. rewrite sort_In in H. rewrite (uniq_In Nat.eqb Nat.eqb_eq) in H. apply in_app_or in H.
  destruct H as [H|H]; [exact (sample_bound _ _ _ H)|]. apply in_seq in H. lia.
Qed.

Lemma search_some st f : search exact quick st n = Some f -> exists i, (i < n)%nat /\ exact i = Some f.
Proof.
  rewrite search_unfold. destruct (Nat.eqb n 0); [discriminate|].
  assert (A : best_of (map exact (seq 0 n)) = Some f -> exists i, (i < n)%nat /\ exact i = Some f).
  { intros H. apply best_of_some in H. destruct H as [H _]. apply map_some_in in H. destruct H as (i & H & E).
    apply in_seq in H. exists i. split; [lia|exact E]. }
  destruct (negb st || Nat.leb n (2 ^ 11)); [exact A|].
  destruct (best_of (map exact final_of)) as [g|] eqn:E; [|exact A]. intros H. injection H as <-.
  apply best_of_some in E. destruct E as [E _]. apply map_some_in in E. destruct E as (i & Hi & Ei).
  exists i. split; [exact (final_bound i Hi)|exact Ei].
Qed.

Lemma search_total st i f : (i < n)%nat -> exact i = Some f -> exists g, search exact quick st n = Some g.
Proof.
  intros Hi E. rewrite search_unfold. destruct (Nat.eqb n 0) eqn:N; [apply Nat.eqb_eq in N; lia|].
  assert (A : exists g, best_of (map exact (seq 0 n)) = Some g).
  { destruct (best_of (map exact (seq 0 n))) as [g|] eqn:B; [eauto|]. exfalso.
    apply (best_of_none _ B f). apply (in_map_some _ i); [apply in_seq; lia|exact E]. }
  destruct (negb st || Nat.leb n (2 ^ 11)); [exact A|]. destruct (best_of (map exact final_of)); [eauto|exact A].
Qed.

Lemma search_full st f : search exact quick st n = Some f -> st = false \/ (n <= 2 ^ 11)%nat ->
  forall i g, (i < n)%nat -> exact i = Some g -> r_sigma f <= r_sigma g.
Proof.
  rewrite search_unfold. destruct (Nat.eqb n 0); [discriminate|]. intros H C i g Hi E.
  assert (B : negb st || Nat.leb n (2 ^ 11) = true).
  { destruct C as [-> |C]; [reflexivity|]. apply Nat.leb_le in C. rewrite C. apply orb_true_r. }
  rewrite B in H. apply best_of_some in H. apply (proj2 H). apply (in_map_some _ i); [apply in_seq; lia|exact E].
Qed.

Lemma search_staged f : search exact quick true n = Some f ->
  forall c q, coarse_index n c -> quick c = Some q ->
  exists m qm, coarse_index n m /\ quick m = Some qm /\
    (forall c' q', coarse_index n c' -> quick c' = Some q' -> r_sigma qm <= r_sigma q') /\
    forall i g, (i < n)%nat -> (i <= m + radius_of n)%nat -> (m <= i + radius_of n)%nat -> exact i = Some g -> r_sigma f <= r_sigma g.
Proof.
  intros H c q Hc Hq. assert (Hn : (0 < n)%nat) by (destruct Hc; lia).
  assert (NTH : forall c' q', coarse_index n c' -> quick c' = Some q' -> exists k, nth_error scores_of k = Some (Some (r_sigma q'))).
  { intros c' q' Hc' Hq'. apply coarse_spec in Hc'; [|exact Hn]. apply In_nth_error in Hc'. destruct Hc' as (k & Hk).
    exists k. unfold scores_of. rewrite nth_error_map, Hk. cbn. rewrite Hq'. reflexivity. }
  destruct (argmin_from 0 scores_of) as [[p w]|] eqn:A.
  2:{ exfalso. destruct (NTH c q Hc Hq) as (k & Hk). exact (argmin_none _ _ A k _ Hk). }
  pose proof (argmin_some _ _ _ _ A) as (_ & B & C). rewrite Nat.sub_0_r in B.
  unfold scores_of in B. rewrite nth_error_map in B. destruct (nth_error (coarse_list n) p) as [m|] eqn:M; [|discriminate].
  cbn in B. destruct (quick m) as [qm|] eqn:Qm; [|discriminate]. injection B as B.
  exists m, qm. split; [apply coarse_spec; [exact Hn|]; exact (nth_error_In _ _ M)|]. split; [exact Qm|]. split.
  { intros c' q' Hc' Hq'. destruct (NTH c' q' Hc' Hq') as (k & Hk). rewrite B. exact (C k _ Hk). }
  intros i g Hi L1 L2 E. rewrite search_unfold in H. destruct (Nat.eqb n 0); [discriminate|].
  assert (FULL : best_of (map exact (seq 0 n)) = Some f -> r_sigma f <= r_sigma g).
  { intros K. apply best_of_some in K. apply (proj2 K). apply (in_map_some _ i); [apply in_seq; lia|exact E]. }
  destruct (negb true || Nat.leb n (2 ^ 11)); [exact (FULL H)|].
  destruct (best_of (map exact final_of)) as [h|] eqn:F; [|exact (FULL H)]. injection H as ->.
  apply best_of_some in F. apply (proj2 F). apply (in_map_some _ i); [|exact E].
  unfold final_of. rewrite A. rewrite sort_In, (uniq_In Nat.eqb Nat.eqb_eq). apply in_or_app. right.
  rewrite (nth_error_nth _ _ _ M). apply in_seq. lia.
Qed.
End Search.

(* ---- the order ---- *)
Lemma select_spec f_cdf l c : select_order f_cdf l = Some c ->
  exists low high, l = low ++ c :: high /\
    (forall h, In h high -> f_test f_cdf c h <= 9 / 10) /\
    (forall b, In b low -> exists h, In h (skipn 1 l) /\ 9 / 10 < f_test f_cdf b h).
Proof.
  revert c. induction l as [|x l IH]; intros c; cbn [select_order]; [discriminate|].
  destruct (existsb _ l) eqn:E.
  - intros H. destruct (IH c H) as (lo & hi & -> & A & B). exists (x :: lo), hi. split; [reflexivity|]. split; [exact A|].
    apply existsb_exists in E. destruct E as (h & Hh & L). apply rlt_true in L. cbn [skipn].
    intros b [<-|Hb]; [eauto|]. destruct (B b Hb) as (h' & I & L'). exists h'. split; [|exact L'].
    destruct (lo ++ c :: hi); [destruct I|right; exact I].
  - intros H. injection H as <-. exists [], l. split; [reflexivity|]. split; [|intros b []].
    intros h Hh. destruct (Rle_dec (f_test f_cdf x h) (9 / 10)) as [R|R]; [exact R|]. exfalso.
    assert (existsb (fun h => rlt (9 / 10) (f_test f_cdf x h)) l = true); [|congruence].
    apply existsb_exists. exists h. split; [exact Hh|]. apply rlt_true. lra.
Qed.
Lemma select_total f_cdf l : l <> [] -> exists c, select_order f_cdf l = Some c.
Proof.
  induction l as [|x l IH]; [congruence|]. intros _. cbn [select_order]. destruct (existsb _ l) eqn:E; [|eauto].
  apply IH. destruct l; discriminate.
Qed.

(* ---- the clusters ---- *)
Lemma item_leb_total a b : item_leb a b = true \/ item_leb b a = true.
Proof.
  unfold item_leb. destruct (rlt (i_lo a) (i_lo b)) eqn:A, (rlt (i_lo b) (i_lo a)) eqn:B; auto.
  destruct (rlt (i_hi a) (i_hi b)) eqn:C, (rlt (i_hi b) (i_hi a)) eqn:D; auto.
  destruct (Nat.leb_spec (i_idx a) (i_idx b)); auto. right. apply Nat.leb_le. lia.
Qed.
Lemma item_leb_lo a b : item_leb a b = true -> i_lo a <= i_lo b.
Proof.
  unfold item_leb. destruct (rlt (i_lo a) (i_lo b)) eqn:A; [apply rlt_true in A; lra|].
  destruct (rlt (i_lo b) (i_lo a)) eqn:B; [discriminate|]. apply rlt_false in B. intros _. exact B.
Qed.
Lemma item_leb_trans a b c : item_leb a b = true -> item_leb b c = true -> item_leb a c = true.
Proof.
  unfold item_leb. intros H K.
  repeat match goal with
  | H : context [rlt ?x ?y] |- _ => let E := fresh in destruct (rlt x y) eqn:E; [apply rlt_true in E|apply rlt_false in E]
  end; try discriminate;
  repeat match goal with
  | |- context [rlt ?x ?y] => let E := fresh in destruct (rlt x y) eqn:E; [apply rlt_true in E|apply rlt_false in E]
  end; try reflexivity; try lra.
  apply Nat.leb_le in H, K. apply Nat.leb_le. lia.
Qed.

Lemma fold_max_ge l : forall m, m <= fold_left (fun m y => Rmax m (i_hi y)) l m /\ forall y, In y l -> i_hi y <= fold_left (fun m y => Rmax m (i_hi y)) l m.
Proof.
  induction l as [|x l IH]; intros m; cbn [fold_left]; [split; [lra|intros y []]|].
  destruct (IH (Rmax m (i_hi x))) as [A B]. pose proof (Rmax_l m (i_hi x)). pose proof (Rmax_r m (i_hi x)).
  split; [lra|]. intros y [<-|Hy]; [lra|auto].
Qed.
Lemma fold_min_le l : forall m, fold_left (fun m y => Rmin m (i_lo y)) l m <= m /\ forall y, In y l -> fold_left (fun m y => Rmin m (i_lo y)) l m <= i_lo y.
Proof.
  induction l as [|x l IH]; intros m; cbn [fold_left]; [split; [lra|intros y []]|].
  destruct (IH (Rmin m (i_lo x))) as [A B]. pose proof (Rmin_l m (i_lo x)). pose proof (Rmin_r m (i_lo x)).
  split; [lra|]. intros y [<-|Hy]; [lra|auto].
Qed.
Lemma fold_min_lb k l : forall m, k <= m -> (forall y, In y l -> k <= i_lo y) -> k <= fold_left (fun m y => Rmin m (i_lo y)) l m.
Proof.
  induction l as [|x l IH]; intros m Hm H; cbn [fold_left]; [exact Hm|]. apply IH; [|intros y Hy; apply H; right; exact Hy].
  apply Rmin_glb; [exact Hm|apply H; left; reflexivity].
Qed.
Lemma max_hi_ge g y : In y g -> i_hi y <= max_hi g.
Proof. destruct g as [|x r]; [intros []|]. cbn [max_hi]. destruct (fold_max_ge r (i_hi x)) as [A B]. intros [<-|H]; auto. Qed.
Lemma min_lo_le g y : In y g -> min_lo g <= i_lo y.
Proof. destruct g as [|x r]; [intros []|]. cbn [min_lo]. destruct (fold_min_le r (i_lo x)) as [A B]. intros [<-|H]; auto. Qed.
Lemma min_lo_ge g k : g <> [] -> (forall y, In y g -> k <= i_lo y) -> k <= min_lo g.
Proof.
  destruct g as [|x r]; [congruence|]. intros _ H. cbn [min_lo]. apply fold_min_lb; [apply H; left; reflexivity|].
  intros y Hy. apply H. right. exact Hy.
Qed.

(* groups keep every item and their intervals are apart by more than the tolerance *)
Definition apart (g h : list item) : Prop := max_hi g + / 10 ^ 12 < min_lo h.
Lemma merge_concat l : forall cur, concat (merge_items cur l) = cur ++ l.
Proof.
  induction l as [|x l IH]; intros cur; cbn [merge_items]; [cbn; rewrite !app_nil_r; reflexivity|].
  destruct (rle _ _); [rewrite IH, <- app_assoc; reflexivity|]. cbn [concat]. rewrite IH. reflexivity.
Qed.
Lemma merge_nonempty l : forall cur g, cur <> [] -> In g (merge_items cur l) -> g <> [].
Proof.
  induction l as [|x l IH]; intros cur g Hc; cbn [merge_items]; [intros [<-|[]]; exact Hc|].
  destruct (rle _ _); [apply IH; destruct cur; discriminate|]. intros [<-|H]; [exact Hc|]. apply (IH [x] g); [discriminate|exact H].
Qed.
Lemma merge_apart l : forall cur, cur <> [] -> Sorted.StronglySorted (fun a b => i_lo a <= i_lo b) (cur ++ l) ->
  ForallOrdPairs apart (merge_items cur l).
Proof.
  induction l as [|x l IH]; intros cur Hc Hs; cbn [merge_items]; [repeat constructor|].
  destruct (rle _ _) eqn:E.
  - apply IH; [destruct cur; discriminate|]. rewrite <- app_assoc. exact Hs.
  - apply rle_false in E.
    assert (Hx : StronglySorted (fun a b => i_lo a <= i_lo b) (x :: l)).
    { clear -Hs. induction cur; [exact Hs|]. apply IHcur. cbn in Hs. inversion Hs; assumption. }
    constructor; [|apply IH; [discriminate|exact Hx]].
    apply Forall_forall. intros g Hg. unfold apart. apply Rlt_le_trans with (i_lo x); [exact E|].
    apply min_lo_ge; [exact (merge_nonempty _ [x] g ltac:(discriminate) Hg)|].
    intros y Hy. assert (I : In y ([x] ++ l)) by (rewrite <- merge_concat; apply in_concat; eauto).
    cbn in I. destruct I as [<-|I]; [lra|]. inversion Hx as [|? ? ? F]; subst. rewrite Forall_forall in F. auto.
Qed.

Definition c_apart (a b : cluster) : Prop := c_hi a < c_lo b \/ c_hi b < c_lo a.
Lemma ford_perm {A} (R : A -> A -> Prop) l m : (forall x y, R x y -> R y x) -> Permutation l m -> ForallOrdPairs R l -> ForallOrdPairs R m.
Proof.
  intros S P. induction P; intros H; auto.
  - inversion H; subst. constructor; auto. rewrite Forall_forall in *. intros y Hy. apply H2. apply (Permutation_in _ (Permutation_sym P)). exact Hy.
  - inversion H as [|? ? F H']; subst. inversion H' as [|? ? F' H'']; subst.
    constructor; [|constructor; auto].
    + constructor; [|exact F']. apply S. inversion F; assumption.
    + inversion F; assumption.
Qed.
Lemma ford_map {A B} (R : A -> A -> Prop) (Q : B -> B -> Prop) (f : A -> B) l :
  (forall x y, R x y -> Q (f x) (f y)) -> ForallOrdPairs R l -> ForallOrdPairs Q (map f l).
Proof.
  intros H K. induction K; [constructor|]. cbn. constructor; [|exact IHK].
  rewrite Forall_forall in *. intros y Hy. apply in_map_iff in Hy. destruct Hy as (z & <- & Hz). auto.
Qed.

Definition items_of (freqs : list R) (fits : list (option fitres)) (accepted : list nat) : list item :=
  keep_some (map (fun i => match nth_error fits i with Some (Some f) => Some (item_at freqs i f) | _ => None end) accepted).

Lemma items_spec freqs fits acc x : In x (items_of freqs fits acc) <->
  exists i f, In i acc /\ nth_error fits i = Some (Some f) /\ x = item_at freqs i f.
Proof.
  unfold items_of. rewrite keep_some_in, in_map_iff. split.
  - intros (i & E & H). destruct (nth_error fits i) as [[f|]|] eqn:N; try discriminate. injection E as <-. eauto.
  - intros (i & f & H & N & ->). exists i. rewrite N. auto.
Qed.

Lemma best_fwp_in l : forall x, In (fold_left better_fwp l x) (x :: l).
Proof.
  induction l as [|y l IH]; intros x; cbn [fold_left]; [left; reflexivity|].
  destruct (IH (better_fwp x y)) as [H|H]; [|right; right; exact H]. rewrite <- H. unfold better_fwp.
  destruct (rlt _ _); [right; left; reflexivity|left; reflexivity].
Qed.

Lemma best_fwp_min l : forall x y, In y (x :: l) -> r_sigma (w_fit (fold_left better_fwp l x)) <= r_sigma (w_fit y).
Proof.
  induction l as [|z l IH]; intros x y; cbn [fold_left]; [intros [<-|[]]; lra|].
  intros H. assert (B : r_sigma (w_fit (better_fwp x z)) <= r_sigma (w_fit x) /\ r_sigma (w_fit (better_fwp x z)) <= r_sigma (w_fit z)).
  { unfold better_fwp. destruct (rlt _ _) eqn:E; [apply rlt_true in E|apply rlt_false in E]; lra. }
  pose proof (IH (better_fwp x z) (better_fwp x z) (or_introl eq_refl)).
  destruct H as [<-|[<-|H]]; [lra|lra|]. apply IH. right. exact H.
Qed.

(* what is known of every cluster: where it comes from, its best period and its interval *)
Lemma clusters_spec freqs fits acc :
  ForallOrdPairs c_apart (clusters freqs fits acc) /\
  (forall c, In c (clusters freqs fits acc) ->
     (exists i f, In i (c_idx c) /\ In i acc /\ nth_error fits i = Some (Some f) /\ c_best c = fit_with_period f /\
        c_lo c <= i_lo (item_at freqs i f) /\ i_hi (item_at freqs i f) <= c_hi c) /\
     (forall i, In i (c_idx c) -> exists f, nth_error fits i = Some (Some f) /\ In i acc /\
        r_sigma (w_fit (c_best c)) <= r_sigma f /\
        c_lo c <= i_lo (item_at freqs i f) /\ i_hi (item_at freqs i f) <= c_hi c)) /\
  (forall i f, In i acc -> nth_error fits i = Some (Some f) -> exists c, In c (clusters freqs fits acc) /\ In i (c_idx c)) /\
  StronglySorted (fun a b => r_sigma (w_fit (c_best a)) <= r_sigma (w_fit (c_best b))) (clusters freqs fits acc).
Proof.
  unfold clusters. fold (items_of freqs fits acc).
  pose proof (sort_sorted item_leb item_leb_total item_leb_trans (items_of freqs fits acc)) as SS.
  pose proof (fun x => sort_In item_leb (items_of freqs fits acc) x) as SI.
  destruct (sort item_leb (items_of freqs fits acc)) as [|x r].
  { split; [constructor|]. split; [intros c []|]. split; [|constructor]. intros i f Hi Hf. exfalso.
    apply (SI (item_at freqs i f)). apply items_spec. eauto. }
  set (gs := merge_items [x] r).
  assert (CC : concat gs = x :: r) by apply merge_concat.
  assert (NE : forall g, In g gs -> g <> []) by (intros g; apply merge_nonempty; discriminate).
  assert (IT : forall g y, In g gs -> In y g -> exists i f, In i acc /\ nth_error fits i = Some (Some f) /\ y = item_at freqs i f).
  { intros g y Hg Hy. apply items_spec. apply SI. rewrite <- CC. apply in_concat. eauto. }
  split; [|split; [|split]].
  - apply (ford_perm c_apart (map (fun g => cluster_of g (i_fwp x)) gs)).
    + unfold c_apart. tauto.
    + apply sort_perm.
    + apply (ford_map apart); [|apply merge_apart; [discriminate|]].
      * intros g h A. left. cbn. unfold apart in A. assert (0 < / 10 ^ 12) by (apply Rinv_0_lt_compat, pow_lt; lra). lra.
      * cbn [app]. clear -SS. induction SS as [|a l S IH F]; constructor; auto.
        rewrite Forall_forall in *. intros y Hy. apply item_leb_lo. exact (F y Hy).
  - intros c Hc. rewrite sort_In in Hc. apply in_map_iff in Hc. destruct Hc as (g & <- & Hg).
    pose proof (NE g Hg) as Hne. destruct g as [|y g']; [congruence|].
    cbn [cluster_of c_idx c_best c_lo c_hi]. set (g := y :: g') in *.
    split.
    + pose proof (best_fwp_in (map i_fwp g') (i_fwp y)) as B.
      change (i_fwp y :: map i_fwp g') with (map i_fwp g) in B. apply in_map_iff in B. destruct B as (z & Ez & Hz).
      destruct (IT g z Hg Hz) as (i & f & Hi & Hf & Ey). exists i, f.
      split; [apply in_map_iff; exists z; split; [subst z; reflexivity|exact Hz]|].
      split; [exact Hi|]. split; [exact Hf|]. split; [rewrite <- Ez, Ey; reflexivity|].
      rewrite <- Ey. split; [exact (min_lo_le g z Hz)|exact (max_hi_ge g z Hz)].
    + intros i Hi. apply in_map_iff in Hi. destruct Hi as (z & Ez & Hz).
      destruct (IT g z Hg Hz) as (i' & f & Hi & Hf & Ey). exists f.
      assert (i = i') by (rewrite <- Ez, Ey; reflexivity). subst i'.
      split; [exact Hf|]. split; [exact Hi|]. split.
      * pose proof (best_fwp_min (map i_fwp g') (i_fwp y) (i_fwp z)) as M. 
        rewrite Ey in M at 2. cbn [item_at i_fwp fit_with_period w_fit] in M. apply M.
        change (i_fwp y :: map i_fwp g') with (map i_fwp g). apply in_map. exact Hz.
      * rewrite <- Ey. split; [exact (min_lo_le g z Hz)|exact (max_hi_ge g z Hz)].
  - intros i f Hi Hf.
    assert (I : In (item_at freqs i f) (x :: r)) by (apply SI; apply items_spec; eauto).
    rewrite <- CC in I. apply in_concat in I. destruct I as (g & Hg & I).
    exists (cluster_of g (i_fwp x)). split; [rewrite sort_In; apply (in_map (fun g => cluster_of g (i_fwp x))); exact Hg|].
    cbn [cluster_of c_idx]. apply in_map_iff. exists (item_at freqs i f). auto.
  - assert (T : forall a b, cluster_leb a b = true \/ cluster_leb b a = true).
    { intros a b. unfold cluster_leb. rewrite !rle_true. destruct (Rle_or_lt (r_sigma (w_fit (c_best a))) (r_sigma (w_fit (c_best b)))); [left|right]; lra. }
    assert (TR : forall a b c, cluster_leb a b = true -> cluster_leb b c = true -> cluster_leb a c = true).
    { intros a b c. unfold cluster_leb. rewrite !rle_true. lra. }
    pose proof (sort_sorted cluster_leb T TR (map (fun g => cluster_of g (i_fwp x)) gs)) as S.
    clear -S. induction S as [|a l S IH F]; constructor; auto.
    rewrite Forall_forall in *. intros y Hy. apply rle_true. apply (F y Hy).
Qed.
