(* Lemmas about SrtModel.v. *)
From Coq Require Import ZArith List Bool Permutation Sorted Lia.
From Verif Require Import Base SrtModel SrtSpec.
Import ListNotations.
Open Scope Z_scope.

(* ---- rows by index ---- *)
Lemma indexed_nth {A} (ms : list A) : forall i m, In (i, m) (indexed ms) -> nth_error ms i = Some m.
Proof.
  intros i m. unfold indexed. assert (G : forall l k, In (i, m) (combine (seq k (length l)) l) -> (k <= i)%nat /\ nth_error l (i - k) = Some m).
  { induction l as [|x l IH]; intros k; cbn; [tauto|]. intros [E|H].
    - inversion E; subst. rewrite Nat.sub_diag. split; auto.
    - apply IH in H. destruct H as [L N]. split; [lia|]. replace (i - k)%nat with (S (i - S k))%nat by lia. exact N. }
  intros H. apply G in H. rewrite Nat.sub_0_r in H. tauto.
Qed.
Lemma indexed_snd {A} (ms : list A) : map snd (indexed ms) = ms.
Proof. unfold indexed. generalize 0%nat. induction ms as [|m ms IH]; intros k; cbn; f_equal; auto. Qed.

Lemma take_back {A} (ms : list A) q : (forall i m, In (i, m) q -> nth_error ms i = Some m) -> take ms (map fst q) = map snd q.
Proof.
  induction q as [|[i m] q IH]; cbn; intros H; auto. unfold take in *. cbn. rewrite (H i m) by auto. cbn. f_equal. apply IH. auto.
Qed.

Lemma sorted_rows {A K} (f : A -> K) (ms : list A) (sorted : list (nat * K)) :
  Permutation sorted (map (fun im => (fst im, f (snd im))) (indexed ms)) ->
  Permutation (take ms (map fst sorted)) ms /\ map snd sorted = map f (take ms (map fst sorted)).
Proof.
  intros P. apply Permutation_map_inv in P. destruct P as (q & -> & P).
  assert (E : take ms (map fst (map (fun im : nat * A => (fst im, f (snd im))) q)) = map snd q).
  { rewrite map_map. cbn. apply take_back. intros i m H. apply indexed_nth. eapply Permutation_in; [apply Permutation_sym, P|exact H]. }
  rewrite E. split.
  - rewrite <- (indexed_snd ms). apply Permutation_map. apply Permutation_sym. exact P.
  - rewrite !map_map. reflexivity.
Qed.

(* ---- the time of a member ---- *)
Definition lookup (os : list observation) (id : Z) : option (Z * Z) :=
  match filter (fun o => fst o =? id) os with o :: _ => Some (snd o) | [] => None end.
Lemma hits_unique os id : NoDup (map fst os) -> filter (fun o : observation => fst o =? id) os = match lookup os id with Some t => [(id, t)] | None => [] end.
Proof.
  unfold lookup. induction os as [|[k t] os IH]; cbn; intros N; auto. inversion N; subst. specialize (IH H2).
  destruct (Z.eqb_spec k id); [|exact IH]. subst. cbn. f_equal.
  match goal with |- ?f = [] => destruct f as [|o r] eqn:F end; auto. exfalso. apply H1.
  match type of F with ?f = _ => assert (X : In o f) by (rewrite F; left; auto) end.
  apply filter_In in X. destruct X as [X Y]. apply Z.eqb_eq in Y. rewrite <- Y. apply in_map. exact X.
Qed.
Lemma lookup_some os id t : NoDup (map fst os) -> (lookup os id = Some t <-> has_time os id t).
Proof.
  intros N. pose proof (hits_unique os id N) as H. unfold has_time. split; intros X.
  - rewrite X in H. assert (Y : In (id, t) (filter (fun o : observation => fst o =? id) os)) by (rewrite H; left; auto). apply filter_In in Y. tauto.
  - assert (Y : In (id, t) (filter (fun o : observation => fst o =? id) os)) by (apply filter_In; split; auto; cbn; apply Z.eqb_refl).
    rewrite H in Y. destruct (lookup os id); [|destruct Y]. destruct Y as [Y|[]]. congruence.
Qed.
Lemma lookup_none os id : NoDup (map fst os) -> (lookup os id = None <-> no_time os id).
Proof.
  intros N. split.
  - intros H t I. apply (lookup_some os id t N) in I. congruence.
  - intros H. destruct (lookup os id) eqn:E; auto. apply lookup_some in E; auto. destruct (H _ E).
Qed.

Definition key {A} (link obs : A -> Z) os (m : A) : Z * option (Z * Z) := (link m, lookup os (obs m)).
Lemma join_unique {A} (link obs : A -> Z) ms os : NoDup (map fst os) ->
  left_join link obs ms os = map (fun im => (fst im, key link obs os (snd im))) (indexed ms).
Proof.
  intros N. unfold left_join. induction (indexed ms) as [|[i m] l IH]; cbn [flat_map map]; auto. rewrite IH.
  unfold join_one. cbn [fst snd]. pose proof (hits_unique os (obs m) N) as U. unfold observation in *. rewrite U. unfold key. destruct (lookup os (obs m)); reflexivity.
Qed.

Lemma strongly_map {A B} (f : A -> B) (R : B -> B -> Prop) l : StronglySorted (fun a b => R (f a) (f b)) l <-> StronglySorted R (map f l).
Proof.
  induction l as [|a l IH]; cbn; split; intros H; constructor; inversion H; subst; try (apply IH; auto); auto.
  - rewrite Forall_map. auto.
  - rewrite Forall_map in H3. auto.
Qed.
Lemma strongly_in_order {A} (R : A -> A -> Prop) l : StronglySorted R l -> in_order R l.
Proof.
  induction 1 as [|x l S IH F]; intros l1 a l2 b l3 E.
  - destruct l1; discriminate.
  - destruct l1; cbn in E; inversion E; subst.
    + rewrite Forall_forall in F. apply F. apply in_app_iff. right. left. auto.
    + eapply IH. reflexivity.
Qed.

(* ---- the comparison ---- *)
Lemma key_antisym a b : key_leb a b = true -> key_leb b a = true -> a = b.
Proof.
  destruct a as [k [[d n]|]], b as [k' [[d' n']|]]; unfold key_leb; cbn; destruct (Z.eqb_spec k k'), (Z.eqb_spec k' k); try lia; intros X Y; try discriminate.
  - destruct (Z.eqb_spec d d'), (Z.eqb_spec d' d); try lia. subst. f_equal. f_equal. f_equal. lia.
  - subst. auto.
Qed.
Lemma key_total a b : key_leb a b = true \/ key_leb b a = true.
Proof.
  destruct a as [k [[d n]|]], b as [k' [[d' n']|]]; unfold key_leb; cbn; destruct (Z.eqb_spec k k'), (Z.eqb_spec k' k); try lia; auto.
  destruct (Z.eqb_spec d d'), (Z.eqb_spec d' d); lia.
Qed.
Lemma key_trans a b c : key_leb a b = true -> key_leb b c = true -> key_leb a c = true.
Proof.
  destruct a as [k [[d n]|]], b as [k' [[d' n']|]], c as [k'' [[d'' n'']|]]; unfold key_leb; cbn;
    destruct (Z.eqb_spec k k'), (Z.eqb_spec k' k''), (Z.eqb_spec k k''); try lia; auto; try discriminate;
    destruct (Z.eqb_spec d d'), (Z.eqb_spec d' d''), (Z.eqb_spec d d''); lia.
Qed.

Lemma sorted_unique {A} (R : A -> A -> Prop) (l : list A) : forall l', (forall a b, In a l -> In b l -> R a b -> R b a -> a = b) ->
  StronglySorted R l -> StronglySorted R l' -> Permutation l l' -> l = l'.
Proof.
  induction l as [|a l IH]; intros l' U S S' P.
  - apply Permutation_nil in P. auto.
  - destruct l' as [|b l']; [apply Permutation_sym, Permutation_nil in P; discriminate|].
    inversion S as [|? ? S1 F1]; inversion S' as [|? ? S2 F2]; subst. rewrite Forall_forall in F1, F2.
    assert (E : a = b).
    { assert (Ia : In a (b :: l')) by (eapply Permutation_in; [exact P|left; auto]).
      assert (Ib : In b (a :: l)) by (eapply Permutation_in; [apply Permutation_sym, P|left; auto]).
      destruct Ia as [|Ia]; [congruence|]. destruct Ib as [|Ib]; [congruence|]. apply U; [left; auto|right; auto|apply F1; auto|apply F2; auto]. }
    subst. f_equal. apply IH; auto. intros; apply U; auto; right; auto. apply Permutation_cons_inv in P. exact P.
Qed.

(* a sorted arrangement exists *)
Lemma sort_exists {A} (R : A -> A -> Prop) (tot : forall a b, R a b \/ R b a) (tr : forall a b c, R a b -> R b c -> R a c) (l : list A) :
  exists s, Permutation s l /\ StronglySorted R s.
Proof.
  induction l as [|a l (s & P & S)]; [exists []; split; constructor|].
  assert (G : exists s', Permutation s' (a :: s) /\ StronglySorted R s').
  { clear P. induction S as [|b s S IH F].
    - exists [a]. split; auto. repeat constructor.
    - destruct (tot a b) as [L|L].
      + exists (a :: b :: s). split; auto. constructor; [constructor; auto|]. constructor; auto. rewrite Forall_forall in *. intros c Hc. eapply tr; eauto.
      + destruct IH as (s' & P' & S'). exists (b :: s'). split.
        * rewrite P'. apply perm_swap.
        * constructor; auto. rewrite Forall_forall in *. intros c Hc. apply (Permutation_in _ P') in Hc. destruct Hc as [<-|Hc]; auto. }
  destruct G as (s' & P' & S'). exists s'. split; auto. rewrite P'. auto.
Qed.

Lemma sort_members_rows {A} (link obs : A -> Z) ms os out : NoDup (map fst os) -> sort_members link obs ms os out ->
  Permutation out ms /\ StronglySorted (fun a b => key_leb (key link obs os a) (key link obs os b) = true) out.
Proof.
  intros N (j & s & Pj & Ps & S & ->). rewrite join_unique in Pj by auto. rewrite Pj in Ps.
  destruct (sorted_rows (key link obs os) ms s Ps) as [P E]. split; auto.
  apply (strongly_map (key link obs os) (fun a b => key_leb a b = true)). rewrite <- E. apply (strongly_map snd (fun a b => key_leb a b = true)). exact S.
Qed.
