(* Proofs about Timestamp.link. *)
From Verif Require Import Base TimeModel TimeSpec TimeProofs.
From Coq Require Import String QArith.
Open Scope Z_scope.
Open Scope list_scope.

(* truncation of a row to a unit, the specification of rounded *)
Definition trunc_row (p : precision) (r : row) : row :=
  mkrow (days r) (nanos r - nanos r mod unit_ns p).

Lemma row_eqb_spec : forall a b, row_eqb a b = true <-> a = b.
Proof.
  intros [d n] [d' n']. unfold row_eqb; simpl. rewrite andb_true_iff, !Z.eqb_eq.
  split; [intros [-> ->]; reflexivity|]. intros H; injection H as -> ->; auto.
Qed.

Lemma combine_seq_In : forall {A} (l : list A) s i x,
  In (i, x) (combine (seq s (List.length l)) l) <-> (s <= i)%nat /\ nth_error l (i - s) = Some x.
Proof.
  intros A l; induction l as [|y ys IH]; intros s i x; simpl.
  - split; [intros []|]. intros [_ H]. destruct (i - s)%nat; discriminate.
  - rewrite IH. split.
    + intros [H|[H1 H2]].
      * injection H as -> ->. rewrite Nat.sub_diag. split; [lia|reflexivity].
      * split; [lia|]. replace (i - s)%nat with (Datatypes.S (i - Datatypes.S s)) by lia. exact H2.
    + intros [H1 H2]. destruct (Nat.eq_dec i s) as [->|Hne].
      * rewrite Nat.sub_diag in H2. left. injection H2 as ->. reflexivity.
      * right. split; [lia|]. replace (i - s)%nat with (Datatypes.S (i - Datatypes.S s)) in H2 by lia. exact H2.
Qed.

Lemma keyed_spec : forall p t, Forall normal (rows t) -> p <> OtherPrecision ->
  keyed p t = Ok (map (fun x => (trunc_row p (snd x), x)) (combine (seq 0 (List.length (rows t))) (rows t))).
Proof.
  intros p t Hn Hp. unfold keyed. rewrite rounded_table by auto. simpl. f_equal.
  fold (trunc_row p). generalize 0%nat as s. induction (rows t) as [|r l IH]; intros s; simpl; [reflexivity|].
  inversion Hn; subst. f_equal. apply IH. assumption.
Qed.

Lemma seq_combine_sorted : forall {A} (l : list A) s,
  StronglySorted Nat.lt (map fst (combine (seq s (List.length l)) l)).
Proof.
  intros A l; induction l as [|x xs IH]; intros s; simpl; constructor; [apply IH|].
  apply Forall_forall. intros i Hi. apply in_map_iff in Hi. destruct Hi as [[j y] [E Hin]].
  simpl in E; subst j. apply combine_seq_In in Hin. lia.
Qed.

Lemma filter_sorted : forall {A} (f : A -> bool) (k : A -> nat) l,
  StronglySorted Nat.lt (map k l) -> StronglySorted Nat.lt (map k (filter f l)).
Proof.
  intros A f k l; induction l as [|x xs IH]; simpl; intros H; [constructor|].
  inversion H as [|? ? Hs Hf]; subst. destruct (f x); simpl; [|auto].
  constructor; [auto|]. rewrite Forall_forall in *. intros i Hi. apply Hf.
  apply in_map_iff in Hi. destruct Hi as [y [E Hin]]. apply filter_In in Hin.
  apply in_map_iff. exists y. tauto.
Qed.

Lemma filter_map_comm : forall {A B} (f : B -> bool) (g : A -> B) l,
  filter f (map g l) = map g (filter (fun x => f (g x)) l).
Proof. intros A B f g l; induction l as [|x xs IH]; simpl; [reflexivity|]. destruct (f (g x)); simpl; rewrite IH; reflexivity. Qed.

Definition side_exact (p : precision) (t : timestamp) (k : row) (l : list (nat * row)) : Prop :=
  (forall i r, In (i, r) l <-> nth_error (rows t) i = Some r /\ trunc_row p r = k) /\
  StronglySorted Nat.lt (map fst l).

Lemma side_of_keyed : forall p t k,
  side_exact p t k (map snd (filter (fun x => row_eqb (fst x) k)
     (map (fun x => (trunc_row p (snd x), x)) (combine (seq 0 (List.length (rows t))) (rows t))))).
Proof.
  intros p t k. rewrite filter_map_comm, map_map. simpl. rewrite map_id. split.
  - intros i r. rewrite filter_In, combine_seq_In, row_eqb_spec, Nat.sub_0_r. simpl.
    split; [tauto|]. intros [H1 H2]. split; [split; [lia|exact H1]|exact H2].
  - apply filter_sorted, seq_combine_sorted.
Qed.

Lemma link_same_spec : forall p t o, p <> OtherPrecision ->
  Forall normal (rows t) -> Forall normal (rows o) ->
  exists gs, link_same p t o = Ok gs /\
    NoDup (map (fun g => fst (fst g)) gs) /\
    (forall g, In g gs ->
       side_exact p t (fst (fst g)) (snd (fst g)) /\ side_exact p o (fst (fst g)) (snd g) /\
       (snd (fst g) <> [] \/ snd g <> [])) /\
    (forall i r, nth_error (rows t) i = Some r -> exists g, In g gs /\ In (i, r) (snd (fst g))) /\
    (forall i r, nth_error (rows o) i = Some r -> exists g, In g gs /\ In (i, r) (snd g)).
Proof.
  intros p t o Hp Ht Ho. unfold link_same. rewrite !keyed_spec by auto. cbn [bind].
  set (lt := map _ (combine (seq 0 (List.length (rows t))) (rows t))).
  set (lo := map _ (combine (seq 0 (List.length (rows o))) (rows o))).
  eexists. split; [reflexivity|].
  assert (Keys : map fst lt = map (trunc_row p) (rows t)).
  { unfold lt. rewrite map_map. simpl. generalize 0%nat. induction (rows t) as [|x xs IH]; intros s; simpl; [reflexivity|].
    f_equal. apply IH. inversion Ht; assumption. }
  assert (Keyo : map fst lo = map (trunc_row p) (rows o)).
  { unfold lo. rewrite map_map. simpl. generalize 0%nat. induction (rows o) as [|x xs IH]; intros s; simpl; [reflexivity|].
    f_equal. apply IH. inversion Ho; assumption. }
  split; [|split; [|split]].
  - rewrite map_map. simpl. rewrite map_id. apply uniq_NoDup. intros x y. apply row_eqb_spec.
  - intros g Hg. apply in_map_iff in Hg. destruct Hg as [k [<- Hk]]. cbn [fst snd].
    split; [apply side_of_keyed|]. split; [apply side_of_keyed|].
    apply uniq_In in Hk; [|intros x y; apply row_eqb_spec]. apply in_app_iff in Hk.
    destruct Hk as [Hk|Hk]; [left|right].
    + rewrite Keys in Hk. apply in_map_iff in Hk. destruct Hk as [r [Hr Hin]].
      apply In_nth_error in Hin. destruct Hin as [i Hi].
      intro E. assert (F : In (i, r) []) by (rewrite <- E; apply side_of_keyed; auto). destruct F.
    + rewrite Keyo in Hk. apply in_map_iff in Hk. destruct Hk as [r [Hr Hin]].
      apply In_nth_error in Hin. destruct Hin as [i Hi].
      intro E. assert (F : In (i, r) []) by (rewrite <- E; apply side_of_keyed; auto). destruct F.
  - intros i r Hr. eexists. split.
    + apply in_map_iff. exists (trunc_row p r). split; [reflexivity|].
      apply uniq_In; [intros x y; apply row_eqb_spec|]. apply in_app_iff. left. rewrite Keys.
      apply in_map. eapply nth_error_In; eauto.
    + cbn [fst snd]. apply side_of_keyed. auto.
  - intros i r Hr. eexists. split.
    + apply in_map_iff. exists (trunc_row p r). split; [reflexivity|].
      apply uniq_In; [intros x y; apply row_eqb_spec|]. apply in_app_iff. right. rewrite Keyo.
      apply in_map. eapply nth_error_In; eauto.
    + cbn [fst snd]. apply side_of_keyed. auto.
Qed.
