(* Shared vocabulary: exceptions as values, list helpers, stable sorting,
   first-occurrence de-duplication.  Definitions only plus their basic lemmas.
   Nothing here models adam_core directly; the Python primitives each helper
   stands for are named in its comment. *)
From Coq Require Export List Arith ZArith Lia Bool Permutation Sorted.
From Coq Require Export ZifyBool.
Export ListNotations.

(* Python / pyarrow exceptions that can reach the caller. *)
Inductive err : Type :=
| ValueError | IndexError | KeyError | AssertionError | AttributeError
| OverflowError | TypeError | ArrowInvalid | ZeroDivisionError
| RuntimeError | InvalidOperation | ParseError | StopFuel.

Inductive result (A : Type) : Type :=
| Ok (a : A)
| Err (e : err).
Arguments Ok {A} a.
Arguments Err {A} e.

Definition bind {A B} (m : result A) (f : A -> result B) : result B :=
  match m with Ok a => f a | Err e => Err e end.

Definition is_ok {A} (m : result A) : bool :=
  match m with Ok _ => true | Err _ => false end.

Fixpoint mapM {A B} (f : A -> result B) (l : list A) : result (list B) :=
  match l with
  | [] => Ok []
  | x :: xs => bind (f x) (fun y => bind (mapM f xs) (fun ys => Ok (y :: ys)))
  end.

(* zipped list, [None] when the lengths differ (numpy / Arrow raise) *)
Fixpoint zip_opt {A B} (l : list A) (m : list B) : option (list (A * B)) :=
  match l, m with
  | [], [] => Some []
  | x :: xs, y :: ys =>
      match zip_opt xs ys with Some r => Some ((x, y) :: r) | None => None end
  | _, _ => None
  end.

Definition wrap64 (z : Z) : Z := ((z + 2 ^ 63) mod 2 ^ 64 - 2 ^ 63)%Z.
Definition in_int64 (z : Z) : Prop := (- 2 ^ 63 <= z < 2 ^ 63)%Z.
Definition in_int64b (z : Z) : bool := ((- 2 ^ 63 <=? z) && (z <? 2 ^ 63))%Z.

(* Stable sort by a boolean "less or equal": Arrow sort_indices / quivr sort_by /
   numpy argsort(kind="stable") with the key comparison [leb]. *)
Section Sort.
  Context {A : Type} (leb : A -> A -> bool).

  Fixpoint insert (x : A) (l : list A) : list A :=
    match l with
    | [] => [x]
    | y :: ys => if leb x y then x :: y :: ys else y :: insert x ys
    end.

  Fixpoint sort (l : list A) : list A :=
    match l with
    | [] => []
    | x :: xs => insert x (sort xs)
    end.

  Lemma insert_perm : forall x l, Permutation (x :: l) (insert x l).
  Proof.
    intros x l; induction l as [|y ys IH]; simpl; [reflexivity|].
    destruct (leb x y); [reflexivity|].
    rewrite perm_swap. constructor. exact IH.
  Qed.

  Lemma sort_perm : forall l, Permutation l (sort l).
  Proof.
    induction l as [|x xs IH]; simpl; [reflexivity|].
    rewrite <- insert_perm. constructor. exact IH.
  Qed.

  Lemma sort_length : forall l, length (sort l) = length l.
  Proof. intros l. symmetry. apply Permutation_length, sort_perm. Qed.

  Lemma sort_In : forall l x, In x (sort l) <-> In x l.
  Proof.
    intros l x; split; apply Permutation_in; [symmetry|]; apply sort_perm.
  Qed.

  Hypothesis leb_total : forall x y, leb x y = true \/ leb y x = true.
  Hypothesis leb_trans : forall x y z, leb x y = true -> leb y z = true -> leb x z = true.

  Definition le (x y : A) : Prop := leb x y = true.

  Lemma insert_sorted : forall x l,
    StronglySorted le l -> StronglySorted le (insert x l).
  Proof.
    intros x l; induction l as [|y ys IH]; simpl; intros H.
    - constructor; constructor.
    - inversion H as [|? ? Hs Hf]; subst.
      destruct (leb x y) eqn:E.
      + constructor; [exact H|]. constructor; [exact E|].
        eapply Forall_impl; [|exact Hf]. intros z Hz. eapply leb_trans; eauto.
      + constructor; [apply IH; exact Hs|].
        assert (Hyx : le y x).
        { destruct (leb_total x y) as [Ht|Ht]; [congruence|exact Ht]. }
        assert (Hp : Permutation (x :: ys) (insert x ys)) by apply insert_perm.
        eapply Permutation_Forall; [exact Hp|]. constructor; assumption.
  Qed.

  Lemma sort_sorted : forall l, StronglySorted le (sort l).
  Proof.
    induction l as [|x xs IH]; simpl; [constructor|]. apply insert_sorted, IH.
  Qed.

  (* With an antisymmetric order (unique keys) the sorted list is determined by
     the multiset: this is what makes a final sort schedule independent. *)
  Lemma sorted_perm_unique : forall l m,
    (forall x y, In x l -> In y l -> le x y -> le y x -> x = y) ->
    StronglySorted le l -> StronglySorted le m -> Permutation l m -> l = m.
  Proof.
    induction l as [|x xs IH]; intros m Hanti Hl Hm Hp.
    - apply Permutation_nil in Hp. subst. reflexivity.
    - destruct m as [|y ys].
      + symmetry in Hp. apply Permutation_nil in Hp. discriminate.
      + inversion Hl as [|? ? Hls Hlf]; subst.
        inversion Hm as [|? ? Hms Hmf]; subst.
        assert (Hxy : x = y).
        { assert (Hin : In x (y :: ys)) by (eapply Permutation_in; [exact Hp|left; reflexivity]).
          assert (Hin' : In y (x :: xs)) by (eapply Permutation_in; [symmetry; exact Hp|left; reflexivity]).
          destruct Hin as [Hin|Hin]; [congruence|].
          destruct Hin' as [Hin'|Hin']; [congruence|].
          apply Hanti; [left; reflexivity|right; exact Hin'| |].
          - rewrite Forall_forall in Hlf. apply Hlf, Hin'.
          - rewrite Forall_forall in Hmf. apply Hmf, Hin. }
        subst y. f_equal. apply IH; auto.
        * intros a b Ha Hb. apply Hanti; right; assumption.
        * eapply Permutation_cons_inv; exact Hp.
  Qed.

  Lemma sort_perm_eq : forall l m,
    (forall x y, In x l -> In y l -> le x y -> le y x -> x = y) ->
    Permutation l m -> sort l = sort m.
  Proof.
    intros l m Hanti Hp. apply sorted_perm_unique.
    - intros x y Hx Hy. apply Hanti; apply sort_In; assumption.
    - apply sort_sorted.
    - apply sort_sorted.
    - rewrite <- (sort_perm l), <- (sort_perm m). exact Hp.
  Qed.

  Lemma sort_sorted_id : forall l, StronglySorted le l -> sort l = l.
  Proof.
    induction l as [|x xs IH]; simpl; intros H; [reflexivity|].
    inversion H as [|? ? Hs Hf]; subst. rewrite IH by exact Hs.
    destruct xs as [|y ys]; simpl; [reflexivity|].
    inversion Hf as [|? ? Hxy Hr]; subst. unfold le in Hxy. rewrite Hxy. reflexivity.
  Qed.
End Sort.

(* Stability: elements with equal keys keep their order. *)
Section Stable.
  Context {A : Type} (leb : A -> A -> bool) (p : A -> bool).
  (* [p] selects one key class: its members are mutually <= *)
  Hypothesis p_class : forall x y, p x = true -> p y = true -> leb x y = true.

  Lemma insert_filter : forall x l,
    filter p (insert leb x l) = filter p (x :: l).
  Proof.
    intros x l; induction l as [|y ys IH]; simpl; [reflexivity|].
    destruct (leb x y) eqn:E; simpl; [reflexivity|].
    rewrite IH. simpl. destruct (p x) eqn:Px, (p y) eqn:Py; try reflexivity.
    rewrite (p_class x y Px Py) in E. discriminate.
  Qed.

  Lemma sort_filter : forall l, filter p (sort leb l) = filter p l.
  Proof.
    induction l as [|x xs IH]; simpl; [reflexivity|].
    rewrite insert_filter. simpl. rewrite IH. reflexivity.
  Qed.
End Stable.

(* First occurrences, in order: pyarrow unique(), pandas drop_duplicates(keep="first"). *)
Section Uniq.
  Context {A : Type} (eqb : A -> A -> bool).
  Hypothesis eqb_spec : forall x y, eqb x y = true <-> x = y.

  Definition memb (x : A) (l : list A) : bool := existsb (eqb x) l.

  Fixpoint uniq_aux (seen l : list A) : list A :=
    match l with
    | [] => []
    | x :: xs => if memb x seen then uniq_aux seen xs else x :: uniq_aux (x :: seen) xs
    end.
  Definition uniq (l : list A) : list A := uniq_aux [] l.

  Lemma memb_In : forall x l, memb x l = true <-> In x l.
  Proof.
    intros x l. unfold memb. rewrite existsb_exists. split.
    - intros [y [Hy He]]. apply eqb_spec in He. subst. exact Hy.
    - intros H. exists x. split; [exact H|]. apply eqb_spec. reflexivity.
  Qed.

  Lemma uniq_aux_In : forall l seen x,
    In x (uniq_aux seen l) <-> In x l /\ ~ In x seen.
  Proof.
    induction l as [|y ys IH]; simpl; intros seen x; [tauto|].
    destruct (memb y seen) eqn:E.
    - apply memb_In in E. rewrite IH. split.
      + intros [H1 H2]; auto.
      + intros [[H1|H1] H2]; [subst; contradiction|auto].
    - assert (Hn : ~ In y seen) by (intro H; apply memb_In in H; congruence).
      simpl. rewrite IH. simpl. split.
      + intros [H|[H1 H2]]; [subst; auto|]. split; [auto|]. intro; apply H2; auto.
      + intros [[H|H] H2]; [auto|].
        destruct (eqb y x) eqn:Ee.
        * apply eqb_spec in Ee. auto.
        * right. split; [exact H|]. intros [H3|H3]; [|contradiction].
          subst. assert (eqb x x = true) by (apply eqb_spec; reflexivity). congruence.
  Qed.

  Lemma uniq_In : forall l x, In x (uniq l) <-> In x l.
  Proof. intros. unfold uniq. rewrite uniq_aux_In. simpl. tauto. Qed.

  Lemma uniq_aux_NoDup : forall l seen, NoDup (uniq_aux seen l).
  Proof.
    induction l as [|y ys IH]; simpl; intros seen; [constructor|].
    destruct (memb y seen) eqn:E; [apply IH|].
    constructor; [|apply IH]. rewrite uniq_aux_In. simpl. tauto.
  Qed.

  Lemma uniq_NoDup : forall l, NoDup (uniq l).
  Proof. intros. apply uniq_aux_NoDup. Qed.

  Lemma uniq_aux_NoDup_id : forall l seen,
    NoDup l -> (forall x, In x l -> ~ In x seen) -> uniq_aux seen l = l.
  Proof.
    induction l as [|y ys IH]; simpl; intros seen Hn Hd; [reflexivity|].
    inversion Hn as [|? ? Hy Hys]; subst.
    destruct (memb y seen) eqn:E.
    - apply memb_In in E. exfalso. apply (Hd y); auto.
    - f_equal. apply IH; [exact Hys|]. intros x Hx [H|H].
      + subst. contradiction.
      + apply (Hd x); auto.
  Qed.

  Lemma uniq_NoDup_id : forall l, NoDup l -> uniq l = l.
  Proof. intros l H. apply uniq_aux_NoDup_id; [exact H|]. simpl; auto. Qed.
End Uniq.

Lemma mapM_length : forall {A B} (f : A -> result B) l r,
  mapM f l = Ok r -> length r = length l.
Proof.
  intros A B f l; induction l as [|x xs IH]; simpl; intros r H.
  - injection H as <-. reflexivity.
  - destruct (f x) as [y|e]; simpl in H; [|discriminate].
    destruct (mapM f xs) as [ys|e]; simpl in H; [|discriminate].
    injection H as <-. simpl. f_equal. apply IH. reflexivity.
Qed.

Lemma mapM_nth : forall {A B} (f : A -> result B) l r i x,
  mapM f l = Ok r -> nth_error l i = Some x ->
  exists y, f x = Ok y /\ nth_error r i = Some y.
Proof.
  intros A B f l; induction l as [|a l IH]; simpl; intros r i x H Hn.
  - destruct i; discriminate.
  - destruct (f a) as [y|e] eqn:E; simpl in H; [|discriminate].
    destruct (mapM f l) as [ys|e] eqn:E2; simpl in H; [|discriminate].
    injection H as <-. destruct i as [|i]; simpl in *.
    + injection Hn as <-. exists y. auto.
    + apply IH; auto.
Qed.

Lemma mapM_ok : forall {A B} (f : A -> result B) l,
  (forall x, In x l -> exists y, f x = Ok y) -> exists r, mapM f l = Ok r.
Proof.
  intros A B f l; induction l as [|a l IH]; simpl; intros H.
  - exists []. reflexivity.
  - destruct (H a) as [y Hy]; [auto|]. rewrite Hy. simpl.
    destruct IH as [r Hr]; [intros; apply H; auto|]. rewrite Hr. simpl. eauto.
Qed.

Lemma mapM_err : forall {A B} (f : A -> result B) l e,
  mapM f l = Err e -> exists x, In x l /\ f x = Err e.
Proof.
  intros A B f l; induction l as [|a l IH]; simpl; intros e H; [discriminate|].
  destruct (f a) as [y|e'] eqn:E; simpl in H.
  - destruct (mapM f l) as [ys|e''] eqn:E2; simpl in H; [discriminate|].
    injection H as ->. destruct (IH e eq_refl) as [x [Hx Hf]]. eauto.
  - injection H as ->. eauto.
Qed.

Lemma zip_opt_length : forall {A B} (l : list A) (m : list B) r,
  zip_opt l m = Some r -> length l = length m /\ length r = length l.
Proof.
  intros A B l; induction l as [|x xs IH]; destruct m as [|y ys]; simpl; intros r H; try discriminate.
  - injection H as <-. auto.
  - destruct (zip_opt xs ys) eqn:E; [|discriminate]. injection H as <-.
    destruct (IH _ _ E). simpl. lia.
Qed.

Lemma zip_opt_some : forall {A B} (l : list A) (m : list B),
  length l = length m -> exists r, zip_opt l m = Some r.
Proof.
  intros A B l; induction l as [|x xs IH]; destruct m as [|y ys]; simpl; intros H; try discriminate.
  - eauto.
  - destruct (IH ys) as [r Hr]; [lia|]. rewrite Hr. eauto.
Qed.

Lemma zip_opt_nth : forall {A B} (l : list A) (m : list B) r i x,
  zip_opt l m = Some r -> nth_error l i = Some x ->
  exists y, nth_error m i = Some y /\ nth_error r i = Some (x, y).
Proof.
  intros A B l; induction l as [|a l IH]; destruct m as [|b m]; simpl; intros r i x H Hn; try discriminate.
  - destruct i; discriminate.
  - destruct (zip_opt l m) eqn:E; [|discriminate]. injection H as <-.
    destruct i; simpl in *; [injection Hn as <-; eauto|]. eapply IH; eauto.
Qed.

Lemma zip_opt_In : forall {A B} (l : list A) (m : list B) r x y,
  zip_opt l m = Some r -> In (x, y) r -> In x l /\ In y m.
Proof.
  intros A B l; induction l as [|a l IH]; destruct m as [|b m]; simpl; intros r x y H Hn; try discriminate.
  - injection H as <-. destruct Hn.
  - destruct (zip_opt l m) eqn:E; [|discriminate]. injection H as <-.
    destruct Hn as [Hn|Hn]; [injection Hn as <- <-; auto|].
    destruct (IH _ _ _ _ E Hn). auto.
Qed.

Lemma wrap64_id : forall z, in_int64 z -> wrap64 z = z.
Proof.
  intros z H. unfold wrap64, in_int64 in *. rewrite Z.mod_small by lia. lia.
Qed.

Lemma wrap64_range : forall z, in_int64 (wrap64 z).
Proof.
  intros z. unfold wrap64, in_int64.
  pose proof (Z.mod_pos_bound (z + 2^63) (2^64) ltac:(lia)). lia.
Qed.

Lemma wrap64_cong : forall z, exists k, wrap64 z = (z + k * 2 ^ 64)%Z.
Proof.
  intros z. unfold wrap64.
  exists (- ((z + 2^63) / 2^64))%Z.
  pose proof (Z.div_mod (z + 2^63) (2^64) ltac:(lia)). lia.
Qed.

Lemma in_int64b_spec : forall z, in_int64b z = true <-> in_int64 z.
Proof. intros z. unfold in_int64b, in_int64. lia. Qed.

Lemma filter_app_perm : forall {A} (p : A -> bool) l,
  Permutation l (filter p l ++ filter (fun x => negb (p x)) l).
Proof.
  intros A p l; induction l as [|x xs IH]; simpl; [reflexivity|].
  destruct (p x); simpl.
  - constructor. exact IH.
  - rewrite IH at 1. apply Permutation_middle.
Qed.
