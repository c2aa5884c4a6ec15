(* Claims C299-C301: sorted linkages. *)
From Coq Require Import ZArith List Bool Permutation Sorted Lia.
From Verif Require Import Base SrtModel SrtSpec SrtProofs.
Import ListNotations.
Open Scope Z_scope.

(* ---------------------------------------------------------------- C299 ---- *)
(* two observations with the same id: the member comes twice *)
Theorem C299_refuted : exists (ms : list (Z * Z)) os, (exists out, sort_members fst snd ms os out) /\ forall out, sort_members fst snd ms os out -> ~ Permutation out ms.
Proof.
  exists [(1, 7)], [(7, (60000, 0)); (7, (60001, 0))]. split.
  - eexists. eexists. eexists. split; [reflexivity|]. split; [reflexivity|]. split; [|reflexivity]. cbn. repeat constructor.
  - intros out (j & s & Pj & Ps & _ & ->) P. rewrite Pj in Ps. apply Permutation_length in P.
    assert (Q : Permutation (map fst s) [0%nat; 0%nat]) by (apply (Permutation_map fst) in Ps; exact Ps).
    apply Permutation_sym, Permutation_length_2_inv in Q. destruct Q as [Q|Q]; rewrite Q in P; cbn in P; discriminate.
Qed.
Print Assumptions C299_refuted.

(* ids of observations are unique: some result exists, and each result holds each member once *)
Theorem C299_partial : forall {A} (link obs : A -> Z) ms os, NoDup (map fst os) ->
  (exists out, sort_members link obs ms os out) /\ forall out, sort_members link obs ms os out -> Permutation out ms.
Proof.
  intros A link obs ms os N. split.
  - destruct (sort_exists (fun a b : jrow => key_leb (snd a) (snd b) = true) (fun a b => key_total _ _) (fun a b c => key_trans _ _ _) (left_join link obs ms os)) as (s & P & S).
    exists (take ms (map fst s)), (left_join link obs ms os), s. auto.
  - intros out H. apply (sort_members_rows link obs ms os out N H).
Qed.
Print Assumptions C299_partial.
(* a member without an observation is kept *)
Example C299_case : sort_members fst snd [(2, 7); (1, 9); (2, 8)] [(8, (60000, 5)); (7, (60001, 0))] [(1, 9); (2, 8); (2, 7)] /\ NoDup [8; 7].
Proof.
  split.
  - exists (left_join fst snd [(2, 7); (1, 9); (2, 8)] [(8, (60000, 5)); (7, (60001, 0))]), [(1%nat, (1, None)); (2%nat, (2, Some (60000, 5))); (0%nat, (2, Some (60001, 0)))].
    split; [reflexivity|]. split; [|split; [|reflexivity]].
    + change (left_join fst snd [(2, 7); (1, 9); (2, 8)] [(8, (60000, 5)); (7, (60001, 0))]) with [(0%nat, (2, Some (60001, 0))); (1%nat, (1, @None (Z * Z))); (2%nat, (2, Some (60000, 5)))].
      apply Permutation_sym. apply (Permutation_cons_app [(1%nat, (1, None)); (2%nat, (2, Some (60000, 5)))] [] (0%nat, (2, Some (60001, 0)))). reflexivity.
    + repeat constructor.
  - constructor; [cbn; lia|]. constructor; [cbn; lia|]. constructor.
Qed.

(* ---------------------------------------------------------------- C300 ---- *)
Theorem C300 : forall {A} (link obs : A -> Z) ms os out, NoDup (map fst os) -> sort_members link obs ms os out ->
  in_order (fun a b => link a < link b \/
    (link a = link b /\ (no_time os (obs b) \/ exists t u, has_time os (obs a) t /\ has_time os (obs b) u /\ not_later t u))) out.
Proof.
  intros A link obs ms os out N H. destruct (sort_members_rows link obs ms os out N H) as [_ S]. apply strongly_in_order in S.
  intros l1 a l2 b l3 E. specialize (S l1 a l2 b l3 E). unfold key_leb, key in S. cbn [fst snd] in S.
  destruct (Z.eqb_spec (link a) (link b)); [right; split; auto|left; lia].
  destruct (lookup os (obs b)) as [[d' n']|] eqn:B; [|left; apply lookup_none; auto]. right.
  destruct (lookup os (obs a)) as [[d n]|] eqn:C; [|discriminate]. exists (d, n), (d', n').
  split; [apply lookup_some; auto|]. split; [apply lookup_some; auto|]. unfold not_later. cbn. destruct (Z.eqb_spec d d'); lia.
Qed.
Print Assumptions C300.
Theorem C300_linkages : forall {A} (link : A -> Z) ls, (exists out, sort_linkages link ls out)
  /\ forall out, sort_linkages link ls out -> Permutation out ls /\ in_order (fun a b => link a <= link b) out.
Proof.
  intros A link ls. split.
  - destruct (sort_exists (fun a b : nat * Z => snd a <=? snd b = true) ltac:(cbv beta; intros; rewrite !Z.leb_le; lia) ltac:(cbv beta; intros ? ? ?; rewrite !Z.leb_le; lia) (map (fun il => (fst il, link (snd il))) (indexed ls))) as (s & P & S).
    exists (take ls (map fst s)), s. auto.
  - intros out (s & P & S & ->). destruct (sorted_rows link ls s P) as [Q E]. split; auto. apply strongly_in_order.
    apply (strongly_map link Z.le). rewrite <- E. apply (strongly_map snd Z.le). clear - S. induction S as [|a l S IH F]; constructor; auto.
    rewrite Forall_forall in *. intros b Hb. apply F in Hb. lia.
Qed.
Print Assumptions C300_linkages.
Example C300_case : sort_linkages (A := Z * Z) fst [(3, 0); (1, 1)] [(1, 1); (3, 0)].
Proof. exists [(1%nat, 1); (0%nat, 3)]. split; [apply perm_swap|]. split; [repeat constructor|reflexivity]. Qed.

(* ---------------------------------------------------------------- C301 ---- *)
Theorem C301 : forall {A} (link obs : A -> Z) ms ms' os os' out out',
  NoDup (map fst os) -> Permutation ms ms' -> Permutation os os' ->
  in_order (fun a b => ~ (link a = link b /\ forall t, has_time os (obs a) t <-> has_time os (obs b) t)) ms ->
  sort_members link obs ms os out -> sort_members link obs ms' os' out' -> out = out'.
Proof.
  intros A link obs ms ms' os os' out out' N Pm Po D H H'.
  assert (N' : NoDup (map fst os')) by (eapply Permutation_NoDup; [apply Permutation_map, Po|exact N]).
  assert (K : forall m, key link obs os' m = key link obs os m).
  { intros m. unfold key. f_equal. destruct (lookup os (obs m)) as [t|] eqn:E.
    - apply lookup_some; auto. apply lookup_some in E; auto. unfold has_time in *. eapply Permutation_in; eauto.
    - apply lookup_none; auto. apply (proj1 (lookup_none os (obs m) N)) in E. intros t I. apply (E t). eapply Permutation_in; [apply Permutation_sym, Po|exact I]. }
  destruct (sort_members_rows link obs ms os out N H) as [P S]. destruct (sort_members_rows link obs ms' os' out' N' H') as [P' S'].
  apply (sorted_unique (fun a b => key_leb (key link obs os a) (key link obs os b) = true)); auto.
  - intros a b Ia Ib L L'. pose proof (key_antisym _ _ L L') as E. apply (Permutation_in _ P) in Ia. apply (Permutation_in _ P) in Ib.
    assert (X : forall a b l1 l2 l3, ms = l1 ++ a :: l2 ++ b :: l3 -> key link obs os a = key link obs os b -> False).
    { intros x y l1 l2 l3 M Kxy. apply (D _ _ _ _ _ M). unfold key in Kxy. inversion Kxy as [[K1 K2]]. split; auto. intros t. rewrite <- !lookup_some by auto. rewrite K2. tauto. }
    apply in_split in Ia. destruct Ia as (l1 & l2 & M). rewrite M in Ib. apply in_app_iff in Ib. destruct Ib as [Ib|[Ib|Ib]]; auto; exfalso.
    + apply in_split in Ib. destruct Ib as (k1 & k2 & ->). apply (X b a k1 k2 l2); auto. rewrite M, <- app_assoc. reflexivity.
    + apply in_split in Ib. destruct Ib as (k1 & k2 & ->). apply (X a b l1 k1 k2); auto.
  - clear - S' K. induction S' as [|a l S IH F]; constructor; auto. rewrite Forall_forall in *. intros b Hb. rewrite <- !K. auto.
  - rewrite P, Pm. symmetry. exact P'.
Qed.
Print Assumptions C301.
Example C301_case : in_order (fun a b : Z * Z => ~ (fst a = fst b /\ forall t, has_time [(8, (60000, 5)); (7, (60001, 0))] (snd a) t <-> has_time [(8, (60000, 5)); (7, (60001, 0))] (snd b) t)) [(2, 7); (1, 9); (2, 8)].
Proof.
  apply strongly_in_order. repeat constructor; cbn; intros [E Q]; try lia. specialize (Q (60001, 0)). unfold has_time in Q. cbn in Q. destruct Q as [Q _].
  destruct Q as [Q|[Q|[]]]; auto; congruence.
Qed.
