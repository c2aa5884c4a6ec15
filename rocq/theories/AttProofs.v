(* Proofs about AttModel.v. *)
From Coq Require Import QArith ZArith String Ascii List Bool Lia DecimalString DecimalZ.
From Verif Require Import Base ListLemmas AttModel AttSpec.
Import ListNotations.
Open Scope string_scope.
Open Scope list_scope.
Open Scope nat_scope.

(* ---- texts ---- *)
Fixpoint clean (s : string) : bool := match s with EmptyString => true | String c r => negb (Ascii.eqb c "|") && clean r end.
Lemma app_assoc_s : forall a b c : string, ((a ++ b) ++ c = a ++ (b ++ c))%string.
Proof. induction a as [|x a IH]; intros b c; [reflexivity|]. cbn. rewrite IH. reflexivity. Qed.
Lemma clean_app : forall a b, clean (a ++ String "|" b)%string = false.
Proof. induction a as [|x a IH]; intros b; [reflexivity|]. cbn. rewrite IH. apply andb_false_r. Qed.
Lemma split_last : forall a b x y, clean x = true -> clean y = true -> (a ++ String "|" x = b ++ String "|" y)%string -> a = b /\ x = y.
Proof.
  induction a as [|c a IH]; intros [|d b] x y X Y E; cbn in E.
  - injection E as ->. split; reflexivity.
  - injection E as _ ->. rewrite clean_app in X. discriminate.
  - injection E as _ <-. rewrite clean_app in Y. discriminate.
  - injection E as -> E. destruct (IH b x y X Y E) as [-> ->]. split; reflexivity.
Qed.
Lemma uint_clean : forall d, clean (NilEmpty.string_of_uint d) = true.
Proof. induction d; cbn; assumption || reflexivity. Qed.
Lemma zdec_clean : forall z, clean (zdec z) = true.
Proof. intros z. unfold zdec. destruct (Z.to_int z); cbn; apply uint_clean. Qed.
Lemma zdec_inj : forall a b, zdec a = zdec b -> a = b.
Proof.
  intros a b H. unfold zdec in H. apply (f_equal NilEmpty.int_of_string) in H. rewrite !NilEmpty.isi in H. injection H as H.
  rewrite <- (DecimalZ.of_to a), <- (DecimalZ.of_to b), H. reflexivity.
Qed.
Lemma key_inj : forall c d n c' d' n', key c d n = key c' d' n' -> c = c' /\ d = d' /\ n = n'.
Proof.
  intros c d n c' d' n' H. unfold key in H.
  assert (A : forall c d n, (c ++ "|" ++ zdec d ++ "|" ++ zdec n = (c ++ "|" ++ zdec d) ++ "|" ++ zdec n)%string) by (intros; rewrite !app_assoc_s; reflexivity).
  rewrite !A in H. apply split_last in H as [H1 H2]; [|apply zdec_clean..]. apply split_last in H1 as [H1 H3]; [|apply zdec_clean..].
  split; [exact H1|]. split; apply zdec_inj; assumption.
Qed.

(* ---- alignment ---- *)
Lemma existsb_in : forall x l, existsb (String.eqb x) l = true <-> In x l.
Proof.
  intros x l. rewrite existsb_exists. split.
  - intros [y [H E]]. apply String.eqb_eq in E. subst y. exact H.
  - intros H. exists x. split; [exact H|apply String.eqb_refl].
Qed.
Lemma distinct_nodup : forall l, distinct l = true <-> NoDup l.
Proof.
  induction l as [|x l IH]; cbn; split; intros H; [constructor|reflexivity|..].
  - apply andb_prop in H as [A B]. constructor; [|apply IH; exact B]. intros I. apply existsb_in in I. rewrite I in A. discriminate.
  - inversion H as [|? ? A B]; subst. apply IH in B. rewrite B, andb_true_r. apply negb_true_iff, not_true_iff_false. intros I. apply A, existsb_in, I.
Qed.
Lemma index_some : forall x l i, index_in x l = Some i -> nth_error l i = Some x.
Proof.
  intros x. induction l as [|y l IH]; intros i H; cbn in H; [discriminate|]. destruct (String.eqb_spec x y) as [->|].
  - injection H as <-. reflexivity.
  - destruct (index_in x l) as [j|]; [|discriminate]. cbn in H. injection H as <-. cbn. apply IH. reflexivity.
Qed.
Lemma index_none : forall x l, index_in x l = None -> ~ In x l.
Proof.
  intros x. induction l as [|y l IH]; intros H I; cbn in H; [exact I|]. destruct (String.eqb_spec x y) as [->|N]; [discriminate|].
  destruct (index_in x l); [discriminate|]. destruct I as [I|I]; [congruence|exact (IH eq_refl I)].
Qed.
Lemma index_in_in : forall x l, In x l -> exists i, index_in x l = Some i.
Proof. intros x l H. destruct (index_in x l) as [i|] eqn:E; [exists i; reflexivity|]. exfalso. exact (index_none x l E H). Qed.
Lemma nodup_pos : forall (l : list string) i j x, NoDup l -> nth_error l i = Some x -> nth_error l j = Some x -> i = j.
Proof.
  intros l i j x H A B. rewrite NoDup_nth_error in H. apply H; [apply nth_error_Some; congruence|congruence].
Qed.
Lemma align_ok : forall ok ek idx, align ok ek = Ok idx <-> NoDup ok /\ Forall2 (fun k i => nth_error ok i = Some k) ek idx.
Proof.
  intros ok ek idx. unfold align. destruct (distinct ok) eqn:D; cbn [negb].
  - apply distinct_nodup in D. split.
    + intros H. split; [exact D|]. revert idx H. induction ek as [|k ek IH]; intros idx H; cbn in H; [injection H as <-; constructor|].
      destruct (index_in k ok) as [i|] eqn:E; [|discriminate]. cbn [bind] in H. destruct (mapM _ ek) as [r|] eqn:M; [|discriminate]. cbn [bind] in H. injection H as <-.
      constructor; [apply index_some; exact E|apply IH; reflexivity].
    + intros [_ F]. induction F as [|k i ek idx A F IH]; [reflexivity|]. cbn. destruct (index_in_in k ok) as [j Hj]; [eapply nth_error_In; exact A|].
      rewrite Hj. cbn [bind]. rewrite IH. cbn [bind]. apply index_some in Hj. rewrite (nodup_pos _ _ _ _ D Hj A). reflexivity.
  - split; [discriminate|]. intros [A _]. apply distinct_nodup in A. congruence.
Qed.
Lemma align_err : forall ok ek e, align ok ek = Err e -> e = ValueError /\ (~ NoDup ok \/ exists k, In k ek /\ ~ In k ok).
Proof.
  intros ok ek e H. unfold align in H. destruct (distinct ok) eqn:D; cbn [negb] in H.
  - apply mapM_err in H as [k [I H]]. destruct (index_in k ok) eqn:E; [discriminate|]. injection H as <-. split; [reflexivity|]. right. exists k. split; [exact I|apply index_none; exact E].
  - injection H as <-. split; [reflexivity|]. left. intros A. apply distinct_nodup in A. congruence.
Qed.
Lemma search_at : forall leb l k, (forall a b, leb a b = true \/ leb b a = true) -> (forall a b, leb a b = true -> leb b a = true -> a = b) ->
  StronglySorted (fun a b => leb a b = true) l -> In k l -> nth_error l (searchsorted leb l k) = Some k.
Proof.
  intros leb l k T A. induction l as [|x l IH]; intros S I; [destruct I|]. inversion S as [|? ? S1 S2]; subst. cbn [searchsorted]. destruct (leb k x) eqn:E.
  - cbn. f_equal. destruct I as [->|I]; [reflexivity|]. rewrite Forall_forall in S2. apply A; [apply S2; exact I|exact E].
  - cbn. destruct I as [->|I]; [destruct (T k k); congruence|]. apply IH; assumption.
Qed.
Lemma argsort_in : forall leb l p, In p (argsort leb l) -> nth_error l (snd p) = Some (fst p).
Proof.
  intros leb l p H. unfold argsort in H. apply (Permutation_in _ (Permutation_sym (sort_perm _ _))) in H.
  assert (G : forall n p, In p (combine l (seq n (List.length l))) -> n <= snd p /\ nth_error l (snd p - n) = Some (fst p)).
  { clear. induction l as [|x l IH]; intros n p H; [destruct H|]. cbn in H. destruct H as [<-|H].
    - cbn. split; [lia|]. rewrite Nat.sub_diag. reflexivity.
    - apply IH in H as [A B]. split; [lia|]. replace (snd p - n) with (S (snd p - S n)) by lia. exact B. }
  apply G in H as [_ H]. rewrite Nat.sub_0_r in H. exact H.
Qed.
Lemma argsort_keys : forall leb l, Permutation l (map fst (argsort leb l)).
Proof.
  intros leb l. unfold argsort. assert (E : map fst (combine l (seq 0 (List.length l))) = l).
  { generalize 0. induction l as [|x l IH]; intros n; [reflexivity|]. cbn. rewrite IH. reflexivity. }
  rewrite <- E at 1. apply Permutation_map, sort_perm.
Qed.
Lemma argsort_sorted : forall leb l, (forall a b, leb a b = true \/ leb b a = true) -> (forall a b c, leb a b = true -> leb b c = true -> leb a c = true) ->
  StronglySorted (fun a b => leb a b = true) (map fst (argsort leb l)).
Proof.
  intros leb l T Tr. unfold argsort. assert (S : StronglySorted (fun a b : string * nat => leb (fst a) (fst b) = true) (sort (fun a b => leb (fst a) (fst b)) (combine l (seq 0 (List.length l))))).
  { apply sort_sorted; [intros; apply T|intros a b c; apply Tr]. }
  induction S as [|p m S IH F]; [constructor|]. cbn. constructor; [exact IH|]. apply Forall_forall. intros y Hy. apply in_map_iff in Hy as [q [<- Hq]]. rewrite Forall_forall in F. apply F. exact Hq.
Qed.
Lemma sorted_same : forall leb, (forall a b, leb a b = true \/ leb b a = true) -> (forall a b c, leb a b = true -> leb b c = true -> leb a c = true) ->
  (forall a b, leb a b = true -> leb b a = true -> a = b) ->
  forall ok ek idx, align_sorted leb ok ek = Ok idx <-> align ok ek = Ok idx.
Proof.
  intros leb T Tr A ok ek idx. rewrite align_ok. unfold align_sorted. destruct (distinct ok) eqn:D; cbn [negb].
  2:{ split; [discriminate|]. intros [B _]. apply distinct_nodup in B. congruence. }
  apply distinct_nodup in D. set (s := argsort leb ok).
  assert (At : forall k p, nth_error s (searchsorted leb (map fst s) k) = Some p -> nth_error ok (snd p) = Some (fst p)) by (intros k p H; apply (argsort_in leb), (nth_error_In s _ H)).
  assert (Fd : forall k, In k ok -> exists p, nth_error s (searchsorted leb (map fst s) k) = Some p /\ fst p = k).
  { intros k I. assert (H : nth_error (map fst s) (searchsorted leb (map fst s) k) = Some k).
    { apply search_at; try assumption; [apply argsort_sorted; assumption|]. eapply Permutation_in; [apply argsort_keys|exact I]. }
    rewrite nth_error_map in H. destruct (nth_error s _) as [p|]; [|discriminate]. cbn in H. injection H as H. exists p. split; [reflexivity|exact H]. }
  split.
  - intros H. split; [exact D|]. destruct (mapM _ ek) as [r|] eqn:M; [|discriminate]. cbn [bind] in H. destruct (forallb _ _) eqn:F; [|discriminate]. injection H as ->.
    revert idx M F. induction ek as [|k ek IH]; intros idx M F; cbn in M; [injection M as <-; constructor|].
    destruct (nth_error s _) as [p|] eqn:Es; [|discriminate]. cbn [bind] in M. destruct (mapM _ ek) as [r|]; [|discriminate]. cbn [bind] in M. injection M as <-. cbn in F. apply andb_prop in F as [F1 F2].
    constructor; [|apply IH; [reflexivity|exact F2]]. apply At in Es. apply String.eqb_eq in F1. rewrite (nth_error_nth _ _ _ Es) in F1. rewrite <- F1. exact Es.
  - intros [_ F].
    assert (M : mapM (fun k => match nth_error s (searchsorted leb (map fst s) k) with Some p => Ok (snd p) | None => Err IndexError end) ek = Ok idx).
    { induction F as [|k i ek idx B F IH]; [reflexivity|]. cbn [mapM]. destruct (Fd k) as [p [E1 E2]]; [eapply nth_error_In; exact B|]. rewrite E1. cbn [bind]. rewrite IH. cbn [bind].
      apply At in E1. rewrite E2 in E1. rewrite (nodup_pos _ _ _ _ D E1 B). reflexivity. }
    rewrite M. cbn [bind]. assert (C : forallb (fun q => String.eqb (nth (fst q) ok "") (snd q)) (combine idx ek) = true).
    { clear M. induction F as [|k i ek idx B F IH]; [reflexivity|]. cbn. rewrite (nth_error_nth _ _ _ B), String.eqb_refl. exact IH. }
    rewrite C. reflexivity.
Qed.

(* ---- parameters ---- *)
Open Scope Q_scope.
Lemma least_in : forall l, l <> [] -> In (least l) l.
Proof.
  intros l NE. unfold least. assert (D : In (hd 0 l) l) by (destruct l; [contradiction|left; reflexivity]). revert D. generalize (hd 0 l). intros d.
  assert (A : forall k, fold_right (fun x m => if Qle_bool x m then x else m) d k = d \/ In (fold_right (fun x m => if Qle_bool x m then x else m) d k) k).
  { induction k as [|x k IH]; [left; reflexivity|]. cbn [fold_right]. destruct (Qle_bool x _); [right; left; reflexivity|]. destruct IH as [E|E]; [left; exact E|right; right; exact E]. }
  intros D. destruct (A l) as [->|E]; assumption.
Qed.
Lemma greatest_in : forall l, l <> [] -> In (greatest l) l.
Proof.
  intros l NE. unfold greatest. assert (D : In (hd 0 l) l) by (destruct l; [contradiction|left; reflexivity]). revert D. generalize (hd 0 l). intros d.
  assert (A : forall k, fold_right (fun x m => if Qle_bool m x then x else m) d k = d \/ In (fold_right (fun x m => if Qle_bool m x then x else m) d k) k).
  { induction k as [|x k IH]; [left; reflexivity|]. cbn [fold_right]. destruct (Qle_bool _ x); [right; left; reflexivity|]. destruct IH as [E|E]; [left; exact E|right; right; exact E]. }
  intros D. destruct (A l) as [->|E]; assumption.
Qed.
Lemma not_le : forall a b, Qle_bool a b = false -> b <= a.
Proof. intros a b H. destruct (Qlt_le_dec a b) as [L|L]; [|exact L]. apply Qlt_le_weak, Qle_bool_iff in L. congruence. Qed.
Lemma least_le : forall l x, In x l -> least l <= x.
Proof.
  intros l x H. unfold least. generalize (hd 0 l). intros d. induction l as [|y l IH]; [destruct H|]. cbn [fold_right]. set (m := fold_right _ d l) in *. destruct (Qle_bool y m) eqn:E.
  - apply Qle_bool_iff in E. destruct H as [->|H]; [apply Qle_refl|eapply Qle_trans; [exact E|apply IH; exact H]].
  - destruct H as [->|H]; [apply not_le; exact E|apply IH; exact H].
Qed.
Lemma greatest_ge : forall l x, In x l -> x <= greatest l.
Proof.
  intros l x H. unfold greatest. generalize (hd 0 l). intros d. induction l as [|y l IH]; [destruct H|]. cbn [fold_right]. set (m := fold_right _ d l) in *. destruct (Qle_bool m y) eqn:E.
  - apply Qle_bool_iff in E. destruct H as [->|H]; [apply Qle_refl|eapply Qle_trans; [apply IH; exact H|exact E]].
  - destruct H as [->|H]; [apply not_le; exact E|apply IH; exact H].
Qed.
Lemma level_iff : forall l, l <> [] -> (Qeq_bool (least l) (greatest l) = true <-> forall x y, In x l -> In y l -> x == y).
Proof.
  intros l NE. split.
  - intros E x y X Y. apply Qeq_bool_iff in E. pose proof (least_le l x X). pose proof (least_le l y Y). pose proof (greatest_ge l x X). pose proof (greatest_ge l y Y).
    apply Qle_antisym; [rewrite (Qle_trans _ _ _ H1 (Qle_refl _)) || idtac|]; rewrite <- E in *; eapply Qle_trans; eassumption.
  - intros H. apply Qeq_bool_iff. apply H; [apply least_in|apply greatest_in]; exact NE.
Qed.
Lemma valid_iff : forall os id h g, In (id, (h, g)) (valid_rows os) <-> has_param os id h g.
Proof.
  intros os id h g. unfold valid_rows, has_param. rewrite in_flat_map. split.
  - intros [o [I H]]. exists o. destruct (b_H o) as [x|]; [|destruct H]. destruct (b_G o) as [y|]; [|destruct H]. destruct H as [H|[]]. injection H as <- <- <-. repeat split; assumption || reflexivity.
  - intros [o [I [<- [H G]]]]. exists o. split; [exact I|]. rewrite H, G. left. reflexivity.
Qed.
Lemma group_iff : forall os id h g, In (h, g) (group (valid_rows os) id) <-> has_param os id h g.
Proof.
  intros os id h g. unfold group. rewrite in_map_iff. split.
  - intros [[i [x y]] [E H]]. cbn in E. injection E as -> ->. apply filter_In in H as [I E]. apply String.eqb_eq in E. cbn in E. subst i. apply valid_iff. exact I.
  - intros H. exists (id, (h, g)). split; [reflexivity|]. apply filter_In. split; [apply valid_iff; exact H|apply String.eqb_refl].
Qed.
Lemma conflict_iff : forall os id, (exists h g, has_param os id h g) ->
  (conflict (valid_rows os) id = false <-> forall h g h' g', has_param os id h g -> has_param os id h' g' -> h == h' /\ g == g').
Proof.
  intros os id [h0 [g0 H0]]. unfold conflict. set (gr := group (valid_rows os) id). assert (I0 : In (h0, g0) gr) by (apply group_iff; exact H0).
  assert (N1 : map fst gr <> []) by (intros Z; apply map_eq_nil in Z; rewrite Z in I0; exact I0). assert (N2 : map snd gr <> []) by (intros Z; apply map_eq_nil in Z; rewrite Z in I0; exact I0).
  rewrite orb_false_iff, !negb_false_iff, !level_iff by assumption. split.
  - intros [A B] h g h' g' H H'. apply group_iff in H, H'. split.
    + apply A; [exact (in_map fst _ _ H)|exact (in_map fst _ _ H')].
    + apply B; [exact (in_map snd _ _ H)|exact (in_map snd _ _ H')].
  - intros A. split; intros x y X Y; apply in_map_iff in X as [[h g] [<- X]]; apply in_map_iff in Y as [[h' g'] [<- Y]]; apply group_iff in X, Y; destruct (A _ _ _ _ X Y); assumption.
Qed.
(* a row has the parameters of its identifier *)
Definition row_params (os : list hgrow) (id : string) (r : option (Q * Q)) : Prop :=
  match r with
  | Some (h, g) => (exists h' g', has_param os id h' g') /\ forall h' g', has_param os id h' g' -> h == h' /\ g == g'
  | None => forall h g, ~ has_param os id h g
  end.
Lemma hg_ok : forall os ids r, hg_params os ids = Ok r -> agreeing os /\ Forall2 (row_params os) ids r.
Proof.
  intros os ids r H. unfold hg_params in H. destruct (valid_rows os) as [|v0 v1] eqn:V.
  - injection H as <-. assert (N : forall id h g, ~ has_param os id h g) by (intros id h g Z; apply valid_iff in Z; rewrite V in Z; exact Z).
    split; [intros id h g h' g' Z; destruct (N _ _ _ Z)|]. induction ids as [|i ids IH]; constructor; [exact (N i)|exact IH].
  - rewrite <- V in *. clear v0 v1 V. destruct (existsb _ _) eqn:E; [discriminate|]. injection H as <-.
    assert (A : agreeing os).
    { intros id h g h' g' H H'. assert (C : conflict (valid_rows os) id = false).
      { apply not_true_iff_false. intros Z. apply not_true_iff_false in E. apply E. apply existsb_exists. exists id. split; [|exact Z]. apply in_map_iff. exists (id, (h, g)). split; [reflexivity|apply valid_iff; exact H]. }
      rewrite conflict_iff in C by (exists h, g; exact H). exact (C h g h' g' H H'). }
    split; [exact A|]. induction ids as [|i ids IH]; [constructor|]. cbn [map]. constructor; [|exact IH]. clear IH E.
    destruct (group (valid_rows os) i) as [|p gr] eqn:G.
    + intros h g Z. apply group_iff in Z. rewrite G in Z. exact Z.
    + change (row_params os i (Some (least (map fst (p :: gr)), least (map snd (p :: gr))))). rewrite <- G. cbn [row_params]. assert (N1 : map fst (group (valid_rows os) i) <> []) by (rewrite G; discriminate). assert (N2 : map snd (group (valid_rows os) i) <> []) by (rewrite G; discriminate).
      apply least_in in N1, N2. apply in_map_iff in N1 as [[h1 g1] [E1 I1]]. apply in_map_iff in N2 as [[h2 g2] [E2 I2]]. cbn in E1, E2. rewrite <- E1, <- E2. apply group_iff in I1, I2. split; [exists h1, g1; exact I1|].
      intros h' g' Z. split; [exact (proj1 (A _ _ _ _ _ I1 Z))|exact (proj2 (A _ _ _ _ _ I2 Z))].
Qed.
Lemma hg_err : forall os ids e, hg_params os ids = Err e -> e = ValueError /\ ~ agreeing os.
Proof.
  intros os ids e H. unfold hg_params in H. destruct (valid_rows os) as [|v0 v1] eqn:V; [discriminate|]. rewrite <- V in *. clear v0 v1 V. destruct (existsb _ _) eqn:E; [|discriminate]. injection H as <-. split; [reflexivity|].
  intros A. apply existsb_exists in E as [id [I C]]. apply in_map_iff in I as [[i [h g]] [<- I]]. cbn in C. apply valid_iff in I.
  assert (C' : conflict (valid_rows os) i = false) by (apply conflict_iff; [exists h, g; exact I|intros; eapply A; eassumption]). congruence.
Qed.
Close Scope Q_scope.
