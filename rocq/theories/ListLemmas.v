(* Generic list lemmas. *)
From Verif Require Import Base.

Lemma In_firstn {A} n (l : list A) x : In x (firstn n l) -> In x l.
Proof. revert n; induction l; destruct n; cbn; intuition eauto. Qed.
Lemma In_skipn {A} n (l : list A) x : In x (skipn n l) -> In x l.
Proof. revert n; induction l; destruct n; cbn; intuition eauto. Qed.
Lemma NoDup_skipn {A} n (l : list A) : NoDup l -> NoDup (skipn n l).
Proof. intros H; revert n; induction H; destruct n; cbn; auto; constructor; auto. Qed.
Lemma NoDup_firstn {A} n (l : list A) : NoDup l -> NoDup (firstn n l).
Proof.
  intros H; revert n; induction H; destruct n; cbn; constructor; auto.
  intros C. apply H. eapply In_firstn; eauto.
Qed.
Lemma skipn_map_ {A B} (f : A -> B) n l : map f (skipn n l) = skipn n (map f l).
Proof. revert n; induction l; destruct n; cbn; auto. Qed.
Lemma firstn_map_ {A B} (f : A -> B) n l : map f (firstn n l) = firstn n (map f l).
Proof. revert n; induction l; destruct n; cbn; auto. f_equal; auto. Qed.
Lemma NoDup_app_snoc {A} (l : list A) x : NoDup l -> ~ In x l -> NoDup (l ++ [x]).
Proof.
  induction 1 as [|y r Hy Hr IH]; cbn; intros H. constructor; auto. constructor.
  constructor. rewrite in_app_iff. cbn. intuition. apply IH. tauto.
Qed.
Lemma filter_rev_ {A} (f : A -> bool) l : filter f (rev l) = rev (filter f l).
Proof.
  induction l as [|x r IH]; cbn; auto. rewrite filter_app, IH. cbn.
  destruct (f x); cbn; auto. now rewrite app_nil_r.
Qed.
Lemma filter_len {A} (f : A -> bool) l : length (filter f l) <= length l.
Proof. induction l as [|x r IH]; cbn; auto. destruct (f x); cbn; lia. Qed.
Lemma nth_error_ext {A} (l l' : list A) :
  length l = length l' ->
  (forall i a b, nth_error l i = Some a -> nth_error l' i = Some b -> a = b) -> l = l'.
Proof.
  revert l'. induction l as [|x r IH]; destruct l' as [|y r']; cbn; intros L H; try discriminate; auto.
  f_equal. apply (H 0 x y); auto. apply IH. lia. intros i a b. apply (H (S i)).
Qed.
Lemma map_ext_Forall {A B} (f g : A -> B) l : Forall (fun x => f x = g x) l -> map f l = map g l.
Proof. induction 1; cbn; congruence. Qed.
Lemma find_some_iff {A} (f : A -> bool) l : (exists x, In x l /\ f x = true) -> exists y, find f l = Some y.
Proof.
  intros (x & I & F). induction l as [|y r IH]; [easy|]. cbn. destruct (f y) eqn:E; eauto.
  destruct I as [->|I]; [congruence|]. auto.
Qed.
