(* The staged search looks around each of its best local minima. *)
From Coq Require Import Reals Lra.
From Coq Require Import List String Bool Permutation Sorted Lia Arith.
From Verif Require Import Base ListLemmas StrOrder PhotModel PhotH RotModel RotScore RotFit RotClus.
Import ListNotations.
Open Scope list_scope.
Open Scope R_scope.

(* c, d are coarse indices next to each other *)
Definition adjacent (n c d : nat) : Prop :=
  coarse_index n c /\ coarse_index n d /\ (c < d)%nat /\ forall x, coarse_index n x -> ~ (c < x < d)%nat.
(* the quick fit at c is no worse than those at the coarse indices next to it *)
Definition coarse_minimum (quick : nat -> option fitres) (n c : nat) (q : fitres) : Prop :=
  coarse_index n c /\ quick c = Some q /\
  (forall d r, adjacent n c d -> quick d = Some r -> r_sigma q <= r_sigma r) /\
  (forall d r, adjacent n d c -> quick d = Some r -> r_sigma q <= r_sigma r).

(* ---- intervals ---- *)
Definition inside (i : nat) (p : nat * nat) : Prop := (fst p <= i <= snd p)%nat.
Lemma merge_from_cover : forall l cur, StronglySorted (fun a b => (fst a <= fst b)%nat) (cur :: l) ->
  forall x i, In x (cur :: l) -> inside i x -> exists y, In y (merge_from cur l) /\ inside i y.
Proof.
  unfold inside. induction l as [|z l IH]; intros cur S x i I H; cbn [merge_from].
  - destruct I as [<-|[]]. exists cur. split; [left; reflexivity|exact H].
  - apply StronglySorted_inv in S as [S F]. apply StronglySorted_inv in S as [S G]. inversion F as [|? ? F1 F2]; subst.
    destruct (Nat.leb_spec (fst z) (snd cur + 1)) as [L|L].
    + assert (SS : StronglySorted (fun a b : nat * nat => (fst a <= fst b)%nat) ((fst cur, Nat.max (snd cur) (snd z)) :: l)) by (constructor; [exact S|exact F2]).
      destruct I as [<-|[<-|I]].
      * apply (IH _ SS (fst cur, Nat.max (snd cur) (snd z)) i); [left; reflexivity|cbn [fst snd]; lia].
      * apply (IH _ SS (fst cur, Nat.max (snd cur) (snd z)) i); [left; reflexivity|cbn [fst snd]; lia].
      * apply (IH _ SS x i); [right; exact I|exact H].
    + destruct I as [<-|I]; [exists cur; split; [left; reflexivity|exact H]|].
      destruct (IH z (SSorted_cons _ S G) x i I H) as (y & Y1 & Y2). exists y. split; [right; exact Y1|exact Y2].
Qed.
Lemma merge_cover : forall l x i, In x l -> inside i x -> exists y, In y (merge_intervals l) /\ inside i y.
Proof.
  intros l x i I H. unfold merge_intervals. set (m := map _ l).
  assert (IX : In (Nat.min (fst x) (snd x), Nat.max (fst x) (snd x)) (sort by_start m)).
  { apply sort_In. unfold m. apply (in_map (fun p : nat * nat => (Nat.min (fst p) (snd p), Nat.max (fst p) (snd p)))). exact I. }
  assert (SS : StronglySorted (fun a b => (fst a <= fst b)%nat) (sort by_start m)).
  { assert (S0 : StronglySorted (fun a b => by_start a b = true) (sort by_start m)).
    { apply sort_sorted; unfold by_start.
      - intros a b. destruct (Nat.leb_spec (fst a) (fst b)), (Nat.leb_spec (fst b) (fst a)); auto; lia.
      - intros a b c. rewrite !Nat.leb_le. lia. }
    clear - S0. induction S0 as [|a t S IH F]; constructor; [exact IH|]. eapply Forall_impl; [|exact F]. intros b B. unfold by_start in B. apply Nat.leb_le. exact B. }
  destruct (sort by_start m) as [|z r]; [destruct IX|].
  apply (merge_from_cover r z SS _ i IX). unfold inside in *. cbn [fst snd]. lia.
Qed.
Lemma sample_cover : forall ivs n y i, In y ivs -> inside i y -> (i < n)%nat -> In i (sample_indices ivs n).
Proof.
  intros ivs n y i I H L. unfold sample_indices, inside in *. destruct (Nat.eqb_spec n 0); [lia|].
  rewrite sort_In, (uniq_In Nat.eqb Nat.eqb_eq). destruct ivs as [|z r] eqn:E; [destruct I|]. rewrite <- E in *.
  apply in_flat_map. exists y. split; [exact I|]. right. right. apply in_seq. lia.
Qed.

(* ---- choice of centres ---- *)
Definition apart (s c e : nat) : Prop := (c + s <= e \/ e + s <= c)%nat.
Lemma pick_in : forall idx n r count s pre p post chosen, (List.length chosen + List.length pre < count)%nat -> (1 <= s)%nat ->
  (forall e, In e chosen -> apart s (nth p idx 0%nat) e) -> (forall k, In k pre -> apart s (nth p idx 0%nat) (nth k idx 0%nat)) ->
  In ((nth p idx 0%nat - r)%nat, Nat.min (n - 1) (nth p idx 0%nat + r)) (pick idx n r count s chosen (pre ++ p :: post)).
Proof.
  intros idx n r count s. induction pre as [|k pre IH]; intros p post chosen L S C K; cbn [app pick].
  - destruct (existsb _ chosen) eqn:E.
    + apply existsb_exists in E as (e & I & B). apply Nat.ltb_lt in B. specialize (C e I). unfold apart in C.
      destruct (Nat.leb_spec (nth p idx 0%nat) e); lia.
    + left. reflexivity.
  - cbn [List.length] in L. destruct (existsb _ chosen).
    + apply IH; [lia|exact S|exact C|]. intros k' I. apply K. right. exact I.
    + right. destruct (Nat.leb_spec count (Datatypes.S (List.length chosen))) as [B|B]; [lia|].
      apply IH; [cbn [List.length]; lia|exact S| |].
      * intros e [<-|I]; [apply K; left; reflexivity|apply C; exact I].
      * intros k' I. apply K. right. exact I.
Qed.

(* ---- the coarse grid ---- *)
Lemma seq_last : forall (f : nat -> nat) m, (0 < m)%nat -> last (map f (seq 0 m)) 0%nat = f (m - 1)%nat.
Proof.
  intros f m H. destruct m as [|m]; [lia|]. rewrite seq_S, map_app. cbn [map]. rewrite last_last. f_equal. lia.
Qed.
Definition count_of (n : nat) : nat := ((n + stride_of n - 1) / stride_of n)%nat.
Lemma stride_pos : forall n, (1 <= stride_of n)%nat.
Proof. intro n. unfold stride_of. lia. Qed.
Lemma count_bounds : forall n, (0 < n)%nat -> (0 < count_of n /\ n <= count_of n * stride_of n /\ (count_of n - 1) * stride_of n < n)%nat.
Proof.
  intros n H. pose proof (stride_pos n) as S. unfold count_of. set (s := stride_of n) in *. clearbody s.
  assert (s <> 0)%nat as N by lia. pose proof (Nat.div_mod (n + s - 1) s N) as D. pose proof (Nat.mod_upper_bound (n + s - 1) s N) as U.
  set (k := ((n + s - 1) / s)%nat) in *. set (m := ((n + s - 1) mod s)%nat) in *. clearbody k m. nia.
Qed.
Lemma coarse_nth : forall n p c, (0 < n)%nat -> nth_error (coarse_list n) p = Some c ->
  ((p < count_of n)%nat /\ c = (p * stride_of n)%nat) \/ (p = count_of n /\ c = (n - 1)%nat /\ ((count_of n - 1) * stride_of n < n - 1)%nat).
Proof.
  intros n p c H N. destruct (count_bounds n H) as (C0 & C1 & C2). unfold coarse_list in N. fold (count_of n) in N.
  assert (LC : last (map (fun i => (i * stride_of n)%nat) (seq 0 (count_of n))) 0%nat = ((count_of n - 1) * stride_of n)%nat) by (apply (seq_last (fun i => (i * stride_of n)%nat)); exact C0).
  cbv zeta in N. rewrite LC in N.
  assert (A : forall q x, nth_error (map (fun i => (i * stride_of n)%nat) (seq 0 (count_of n))) q = Some x -> (q < count_of n)%nat /\ x = (q * stride_of n)%nat).
  { intros q x Q. assert (L : (q < count_of n)%nat) by (rewrite <- (seq_length (count_of n) 0), <- (map_length (fun i => (i * stride_of n)%nat)); apply nth_error_Some; congruence).
    split; [exact L|]. rewrite nth_error_map, (nth_error_nth' _ 0%nat) in Q by (rewrite seq_length; exact L). rewrite seq_nth in Q by exact L. cbn in Q. injection Q as <-. reflexivity. }
  destruct (Nat.eqb_spec ((count_of n - 1) * stride_of n) (n - 1)) as [E|E]; [left; exact (A _ _ N)|].
  destruct (Nat.lt_ge_cases p (count_of n)) as [L|L].
  - rewrite nth_error_app1 in N by (rewrite map_length, seq_length; exact L). left. exact (A _ _ N).
  - rewrite nth_error_app2 in N by (rewrite map_length, seq_length; exact L). rewrite map_length, seq_length in N.
    destruct (p - count_of n)%nat as [|j] eqn:Z; [|destruct j; discriminate]. cbn in N. injection N as <-. right. split; [lia|]. split; [reflexivity|]. lia.
Qed.
Lemma coarse_mono : forall n p p' c c', (0 < n)%nat -> nth_error (coarse_list n) p = Some c -> nth_error (coarse_list n) p' = Some c' -> (p < p')%nat -> (c < c')%nat.
Proof.
  intros n p p' c c' H N N' L. pose proof (stride_pos n) as S.
  destruct (coarse_nth n p c H N) as [[A1 ->]|(A1 & A2 & A3)]; destruct (coarse_nth n p' c' H N') as [[B1 ->]|(B1 & B2 & B3)]; try lia; try nia.
Qed.
Lemma coarse_step : forall n p c d, (0 < n)%nat -> nth_error (coarse_list n) p = Some c -> nth_error (coarse_list n) (Datatypes.S p) = Some d -> (d - c <= stride_of n)%nat.
Proof.
  intros n p c d H N N'. destruct (count_bounds n H) as (C0 & C1 & C2).
  destruct (coarse_nth n p c H N) as [[A1 ->]|(A1 & A2 & A3)]; destruct (coarse_nth n _ d H N') as [[B1 ->]|(B1 & B2 & B3)]; try lia; try nia.
Qed.
Lemma coarse_apart : forall n p p' c c', (0 < n)%nat -> nth_error (coarse_list n) p = Some c -> nth_error (coarse_list n) p' = Some c' -> p <> p' ->
  (c + stride_of n < n)%nat -> apart (stride_of n) c c'.
Proof.
  intros n p p' c c' H N N' L Q. unfold apart. pose proof (stride_pos n) as S. destruct (count_bounds n H) as (C0 & C1 & C2).
  destruct (coarse_nth n p c H N) as [[A1 ->]|(A1 & A2 & A3)]; destruct (coarse_nth n p' c' H N') as [[B1 ->]|(B1 & B2 & B3)]; try lia.
  destruct (Nat.lt_trichotomy p p') as [T|[T|T]]; [left; nia|contradiction|right; nia].
Qed.
Lemma consecutive_in : forall (l : list nat) x y, In (x, y) (combine l (tl l)) -> exists p, nth_error l p = Some x /\ nth_error l (Datatypes.S p) = Some y.
Proof.
  induction l as [|a l IH]; intros x y I; [destruct I|]. destruct l as [|b l]; [destruct I|]. cbn [tl combine] in I. destruct I as [I|I].
  - injection I as <- <-. exists 0%nat. split; reflexivity.
  - destruct (IH x y I) as (p & P1 & P2). exists (Datatypes.S p). split; assumption.
Qed.
Lemma median_bound : forall l s, (forall x y, In (x, y) (combine l (tl l)) -> (y - x <= s)%nat) -> (median_step l <= s)%nat.
Proof.
  intros l s H. unfold median_step. set (d := sort Nat.leb _).
  assert (B : forall k, (nth k d 0 <= s)%nat).
  { intro k. destruct (nth_in_or_default k d 0%nat) as [I|E]; [|lia]. unfold d in I at 2. apply sort_In in I. apply in_map_iff in I as ((x & y) & <- & I). cbn [fst snd]. apply H. exact I. }
  set (a := nth _ d _). set (b := nth (List.length d / 2) d 0%nat). assert (A := B (List.length d / 2 - 1)%nat). assert (BB := B (List.length d / 2)%nat). fold a in A. fold b in BB.
  destruct (Nat.even (List.length d)); [|exact BB]. pose proof (Nat.div_mod (a + b) 2 ltac:(lia)) as D. pose proof (Nat.mod_upper_bound (a + b) 2 ltac:(lia)) as U.
  destruct (Nat.even (a + b)) eqn:E; [lia|]. destruct (Nat.even ((a + b) / 2)); [lia|].
  assert (M : ((a + b) mod 2 = 1)%nat).
  { destruct ((a + b) mod 2)%nat as [|[|]] eqn:Z; try lia. exfalso. rewrite <- Nat.negb_odd in E. apply negb_false_iff in E.
    apply Nat.odd_spec in E as (k & K). rewrite K in Z. rewrite Nat.add_comm, Nat.mul_comm, Nat.mod_add in Z by lia. discriminate. }
  lia.
Qed.

Lemma nodup_map_inj : forall {A B} (f : A -> B) l, (forall x y, In x l -> In y l -> f x = f y -> x = y) -> NoDup l -> NoDup (map f l).
Proof.
  intros A B f l. induction l as [|a l IH]; intros J N; [constructor|]. inversion N as [|? ? N1 N2]; subst. cbn [map]. constructor.
  - intro K. apply in_map_iff in K as (x & X1 & X2). apply N1. rewrite <- (J x a); [exact X2|right; exact X2|left; reflexivity|exact X1].
  - apply IH; [|exact N2]. intros x y X Y. apply J; right; assumption.
Qed.

Section Staged.
Variable exact quick : nat -> option fitres.
Variable n : nat.
Hypothesis npos : (0 < n)%nat.

Lemma finite_score : forall p, finite_at (scores_of quick n) p =
  match nth_error (coarse_list n) p with Some c => option_map r_sigma (quick c) | None => None end.
Proof.
  intro p. unfold finite_at, scores_of. rewrite nth_error_map. destruct (nth_error (coarse_list n) p) as [c|]; [|reflexivity]. cbn. destruct (quick c); reflexivity.
Qed.
Lemma coarse_index_nth : forall c, coarse_index n c <-> exists p, nth_error (coarse_list n) p = Some c.
Proof.
  intro c. rewrite <- (coarse_spec n c npos). split; [apply In_nth_error|]. intros (p & P). exact (nth_error_In _ _ P).
Qed.
Lemma adjacent_nth : forall c d, adjacent n c d <-> exists p, nth_error (coarse_list n) p = Some c /\ nth_error (coarse_list n) (Datatypes.S p) = Some d.
Proof.
  intros c d. split.
  - intros (C & D & L & B). apply coarse_index_nth in C as (p & P). apply coarse_index_nth in D as (r & Rr). exists p. split; [exact P|].
    destruct (Nat.lt_trichotomy r (Datatypes.S p)) as [T|[->|T]]; [|exact Rr|].
    + exfalso. assert (r = p \/ r < p)%nat as [->|T'] by lia; [rewrite P in Rr; injection Rr as ->; lia|]. pose proof (coarse_mono n r p d c npos Rr P T'). lia.
    + exfalso. destruct (nth_error (coarse_list n) (Datatypes.S p)) as [x|] eqn:X.
      * apply (B x); [apply coarse_index_nth; eauto|]. split; [exact (coarse_mono n p _ c x npos P X ltac:(lia))|exact (coarse_mono n _ r x d npos X Rr T)].
      * apply nth_error_None in X. assert (r < List.length (coarse_list n))%nat by (apply nth_error_Some; congruence). lia.
  - intros (p & P & Q). split; [apply coarse_index_nth; eauto|]. split; [apply coarse_index_nth; eauto|]. split; [exact (coarse_mono n p _ c d npos P Q ltac:(lia))|].
    intros x X [L1 L2]. apply coarse_index_nth in X as (r & Rr). destruct (Nat.lt_trichotomy r p) as [T|[->|T]].
    + pose proof (coarse_mono n r p x c npos Rr P T). lia.
    + rewrite P in Rr. injection Rr as ->. lia.
    + assert (r = Datatypes.S p \/ Datatypes.S p < r)%nat as [->|T'] by lia; [rewrite Q in Rr; injection Rr as ->; lia|]. pose proof (coarse_mono n _ r d x npos Q Rr T'). lia.
Qed.
Lemma rle_iff : forall x y, rle x y = true <-> x <= y.
Proof. intros. unfold rle. destruct (Rle_dec x y); split; intros; try discriminate; auto; contradiction. Qed.

Definition is_minimum (p : nat) : bool := match finite_at (scores_of quick n) p with
  | Some v => below v (match p with O => None | Datatypes.S j => finite_at (scores_of quick n) j end) && below v (finite_at (scores_of quick n) (Datatypes.S p))
  | None => false end.
Lemma minimum_iff : forall p, is_minimum p = true <-> exists c q, nth_error (coarse_list n) p = Some c /\ coarse_minimum quick n c q.
Proof.
  intro p. unfold is_minimum. rewrite finite_score. destruct (nth_error (coarse_list n) p) as [c|] eqn:P; [|split; [discriminate|intros (c & q & X & _); discriminate]].
  destruct (quick c) as [q|] eqn:Q; cbn [option_map].
  2:{ split; [discriminate|]. intros (c' & q & X & _ & Y & _). injection X as <-. congruence. }
  rewrite andb_true_iff. split.
  - intros [L Rr]. exists c, q. split; [reflexivity|]. split; [apply coarse_index_nth; eauto|]. split; [exact Q|]. split.
    + intros d r AD QD. apply adjacent_nth in AD as (p' & P' & D'). assert (p' = p) as ->.
      { destruct (Nat.lt_trichotomy p p') as [T|[T|T]]; [|congruence|]; exfalso; [pose proof (coarse_mono n _ _ _ _ npos P P' T)|pose proof (coarse_mono n _ _ _ _ npos P' P T)]; lia. }
      rewrite finite_score, D', QD in Rr. cbn in Rr. apply rle_iff. exact Rr.
    + intros d r AD QD. apply adjacent_nth in AD as (p' & P' & D'). assert (Datatypes.S p' = p) as E.
      { destruct (Nat.lt_trichotomy p (Datatypes.S p')) as [T|[T|T]]; [|congruence|]; exfalso; [pose proof (coarse_mono n _ _ _ _ npos P D' T)|pose proof (coarse_mono n _ _ _ _ npos D' P T)]; lia. }
      subst p. rewrite finite_score, P', QD in L. cbn in L. apply rle_iff. exact L.
  - intros (c' & q' & X & _ & Y & M1 & M2). injection X as <-. rewrite Q in Y. injection Y as <-. split.
    + destruct p as [|j]; [reflexivity|]. rewrite finite_score. destruct (nth_error (coarse_list n) j) as [d|] eqn:D; [|reflexivity].
      destruct (quick d) as [r|] eqn:QD; [|reflexivity]. cbn. apply rle_iff. apply (M2 d r); [|exact QD]. apply adjacent_nth. eauto.
    + rewrite finite_score. destruct (nth_error (coarse_list n) (Datatypes.S p)) as [d|] eqn:D; [|reflexivity].
      destruct (quick d) as [r|] eqn:QD; [|reflexivity]. cbn. apply rle_iff. apply (M1 d r); [|exact QD]. apply adjacent_nth. eauto.
Qed.
Lemma minima_when : forall p, is_minimum p = true -> forall k, In k (local_minima (scores_of quick n)) <-> is_minimum k = true.
Proof.
  intros p M k. unfold local_minima. set (valid := filter _ (seq 0 _)). set (minima := filter _ valid).
  assert (V : forall k, In k minima <-> is_minimum k = true).
  { intro j. unfold minima, valid. rewrite !filter_In. unfold is_minimum. split; [intros [_ H]; exact H|]. intro H. split; [|exact H].
    destruct (finite_at (scores_of quick n) j) eqn:E; [|discriminate]. split; [|reflexivity]. apply in_seq. split; [lia|]. cbn.
    unfold finite_at in E. apply nth_error_Some. destruct (nth_error (scores_of quick n) j); congruence. }
  destruct minima as [|x r] eqn:E; [exfalso; apply V in M; destruct M|]. apply V.
Qed.
Lemma minima_nodup : NoDup (local_minima (scores_of quick n)).
Proof. unfold local_minima. set (v := filter _ (seq 0 _)). assert (V : NoDup v) by (apply NoDup_filter, seq_NoDup). set (m := filter _ v). assert (NoDup m) by (apply NoDup_filter, V). destruct m; assumption. Qed.

Lemma search_minima f c q : search exact quick true n = Some f -> coarse_minimum quick n c q -> (c + stride_of n < n)%nat ->
  (forall l, NoDup l -> (forall d, In d l -> exists r, coarse_minimum quick n d r /\ r_sigma r <= r_sigma q) -> (List.length l <= 12)%nat) ->
  forall i g, (i < n)%nat -> (i <= c + radius_of n)%nat -> (c <= i + radius_of n)%nat -> exact i = Some g -> r_sigma f <= r_sigma g.
Proof.
  intros H M NL FEW i g Hi L1 L2 E. pose proof M as (CI & QC & _). pose proof CI as CN. apply coarse_index_nth in CN as (p & P).
  assert (IM : is_minimum p = true) by (apply minimum_iff; eauto).
  set (key := fun k => match finite_at (scores_of quick n) k with Some v => v | None => 0 end).
  set (ps := sort (fun i j => rle (key i) (key j)) (local_minima (scores_of quick n))).
  assert (IN : In p ps) by (apply sort_In, (minima_when p IM); exact IM). apply in_split in IN as (pre & post & SP).
  assert (ND : NoDup ps) by (eapply Permutation_NoDup; [apply sort_perm|apply minima_nodup]).
  assert (SS : StronglySorted (fun i j => rle (key i) (key j) = true) ps).
  { apply sort_sorted.
    - intros a b. destruct (Rle_lt_dec (key a) (key b)); [left|right]; apply rle_iff; lra.
    - intros a b e. rewrite !rle_iff. lra. }
  assert (KP : key p = r_sigma q) by (unfold key; rewrite finite_score, P, QC; reflexivity).
  assert (PRE : forall k, In k pre -> k <> p /\ exists d r, nth_error (coarse_list n) k = Some d /\ coarse_minimum quick n d r /\ r_sigma r <= r_sigma q).
  { intros k K. split.
    - intros ->. rewrite SP in ND. apply NoDup_remove_2 in ND. apply ND, in_or_app. left. exact K.
    - assert (KI : In k ps) by (rewrite SP; apply in_or_app; left; exact K). apply sort_In in KI. apply (minima_when p IM) in KI. apply minimum_iff in KI as (d & r & D & MD).
      exists d, r. split; [exact D|]. split; [exact MD|]. rewrite <- KP. replace (r_sigma r) with (key k) by (unfold key; rewrite finite_score, D; destruct MD as (_ & -> & _); reflexivity).
      apply rle_iff. rewrite SP in SS. clear - SS K. induction pre as [|a pre IH]; [destruct K|]. cbn in SS. apply StronglySorted_inv in SS as [S1 S2]. destruct K as [->|K]; [|exact (IH S1 K)].
      rewrite Forall_forall in S2. apply S2, in_or_app. right. left. reflexivity. }
  assert (LEN : (List.length pre < 12)%nat).
  { specialize (FEW (map (fun k => nth k (coarse_list n) 0%nat) (p :: pre))). rewrite map_length in FEW. cbn [List.length] in FEW. apply FEW.
    - apply nodup_map_inj.
      + intros x y X Y EQ. assert (NX : forall z, In z (p :: pre) -> nth_error (coarse_list n) z = Some (nth z (coarse_list n) 0%nat)).
        { intros z [<-|Z]; [rewrite P; f_equal; symmetry; apply nth_error_nth; exact P|]. destruct (PRE z Z) as (_ & d & _ & D & _). rewrite D. f_equal. symmetry. apply nth_error_nth. exact D. }
        pose proof (NX x X) as X'. pose proof (NX y Y) as Y'. destruct (Nat.lt_trichotomy x y) as [T|[T|T]]; [|exact T|]; exfalso;
          [pose proof (coarse_mono n _ _ _ _ npos X' Y' T)|pose proof (coarse_mono n _ _ _ _ npos Y' X' T)]; lia.
      + constructor; [intro K; exact (proj1 (PRE p K) eq_refl)|]. rewrite SP in ND. clear - ND. induction pre as [|a l IH]; [constructor|]. cbn in ND. inversion ND as [|? ? N1 N2]; subst.
        constructor; [intro K; apply N1, in_or_app; left; exact K|exact (IH N2)].
    - intros d I. apply in_map_iff in I as (k & <- & [<-|K]).
      + rewrite (nth_error_nth _ _ _ P). exists q. split; [exact M|lra].
      + destruct (PRE k K) as (_ & d & r & D & MD & Rr). rewrite (nth_error_nth _ _ _ D). exists r. split; [exact MD|exact Rr]. }
  set (stride := match coarse_list n with [] => 1%nat | [_] => 1%nat | _ => Nat.max 1 (median_step (coarse_list n)) end).
  assert (SB : (1 <= stride <= stride_of n)%nat).
  { pose proof (stride_pos n) as SP1. assert (MB : (median_step (coarse_list n) <= stride_of n)%nat).
    { apply median_bound. intros x y I. apply consecutive_in in I as (k & K1 & K2). exact (coarse_step n k x y npos K1 K2). }
    unfold stride. destruct (coarse_list n) as [|? [|]]; lia. }
  assert (NP : nth p (coarse_list n) 0%nat = c) by (apply nth_error_nth; exact P).
  assert (PK : In ((c - radius_of n)%nat, Nat.min (n - 1) (c + radius_of n)) (pick (coarse_list n) n (radius_of n) 12 stride [] ps)).
  { rewrite SP, <- NP. apply pick_in; [cbn [List.length]; lia|lia|intros e []|]. intros k K. destruct (PRE k K) as (NK & d & r & D & _).
    rewrite NP, (nth_error_nth _ _ _ D). destruct (coarse_apart n p k c d npos P D (fun e => NK (eq_sym e)) NL) as [A|A]; [left|right]; lia. }
  destruct (merge_cover _ _ i PK) as (y & Y1 & Y2); [unfold inside; cbn [fst snd]; lia|].
  assert (FI : In i (sample_indices (candidate_intervals (coarse_list n) (scores_of quick n) n (radius_of n) 12) n)) by (apply (sample_cover _ _ y i); [exact Y1|exact Y2|exact Hi]).
  assert (FO : In i (final_of quick n)).
  { unfold final_of. destruct (argmin_from 0 (scores_of quick n)) as [[k w]|]; [|exact FI]. rewrite sort_In, (uniq_In Nat.eqb Nat.eqb_eq). apply in_or_app. left. exact FI. }
  rewrite search_unfold in H. destruct (Nat.eqb n 0); [discriminate|].
  assert (FULL : best_of (map exact (seq 0 n)) = Some f -> r_sigma f <= r_sigma g).
  { intros K. apply best_of_some in K. apply (proj2 K). apply (in_map_some exact _ i); [apply in_seq; lia|exact E]. }
  destruct (negb true || Nat.leb n (2 ^ 11)); [exact (FULL H)|]. destruct (best_of (map exact (final_of quick n))) as [h|] eqn:F; [|exact (FULL H)]. injection H as ->.
  apply best_of_some in F. apply (proj2 F). apply (in_map_some exact _ i); [exact FO|exact E].
Qed.
End Staged.
