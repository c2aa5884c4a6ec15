From Coq Require Import String QArith Qminmax Lqa Sorted Permutation.
From Verif Require Import Base ListLemmas FitModel FitSpec FitProofs OdModel OdSpec.
Open Scope list_scope.

(* ---------- generic ---------- *)
Lemma mem_In x l : mem x l = true <-> In x l.
Proof. apply existsb_eqb_In. Qed.
Lemma masked_used {A} ids out (l : list A) : masked (keep_mask ids out) l = used ids out l.
Proof.
  unfold masked, keep_mask, used. revert l. induction ids as [|i ids IH]; intros [|x l]; auto.
  cbn [map combine filter fst snd]. destruct (in_dec string_dec i out) as [H|H].
  - apply mem_In in H. rewrite H. cbn [negb]. apply IH.
  - assert (mem i out = false) as -> by (apply not_true_iff_false; rewrite mem_In; auto). cbn [negb map snd]. f_equal. apply IH.
Qed.
Lemma used_In {A} ids out (l : list A) x : In x (used ids out l) <-> exists i, In (i, x) (combine ids l) /\ ~ In i out.
Proof.
  unfold used. rewrite in_map_iff. split.
  - intros ([i y] & <- & H). apply filter_In in H as [H G]. cbn in G. destruct (in_dec string_dec i out); [discriminate|]. eauto.
  - intros (i & H & N). exists (i, x). split; auto. apply filter_In. split; auto. cbn. destruct (in_dec string_dec i out); tauto.
Qed.
Lemma used_incl {A} ids out out' (l : list A) : incl out out' -> incl (used ids out' l) (used ids out l).
Proof. intros H x Hx. apply used_In in Hx as (i & Hi & N). apply used_In. exists i. split; auto. Qed.
Lemma qmaxl_spec l : forall x, (x <= qmaxl x l)%Q /\ (forall y, In y l -> (y <= qmaxl x l)%Q) /\ (exists y, (y = x \/ In y l) /\ (qmaxl x l == y)%Q).
Proof.
  unfold qmaxl. induction l as [|z l IH]; intros x; cbn [fold_left].
  - split; [lra|]. split; [intros y []|]. exists x. split; auto. reflexivity.
  - destruct (IH (Qmax x z)) as (H1 & H2 & (w & Hw & Ew)). pose proof (Q.le_max_l x z). pose proof (Q.le_max_r x z).
    split; [lra|]. split; [intros y [<-|Hy]; [lra|auto]|].
    destruct Hw as [->|Hw]; [|exists w; split; [right; right; auto|auto]].
    destruct (Q.max_spec x z) as [[_ E]|[_ E]]; [exists z|exists x]; (split; [cbn; auto|lra]).
Qed.
Lemma qminl_spec l : forall x, (qminl x l <= x)%Q /\ (forall y, In y l -> (qminl x l <= y)%Q) /\ (exists y, (y = x \/ In y l) /\ (qminl x l == y)%Q).
Proof.
  unfold qminl. induction l as [|z l IH]; intros x; cbn [fold_left].
  - split; [lra|]. split; [intros y []|]. exists x. split; auto. reflexivity.
  - destruct (IH (Qmin x z)) as (H1 & H2 & (w & Hw & Ew)). pose proof (Q.le_min_l x z). pose proof (Q.le_min_r x z).
    split; [lra|]. split; [intros y [<-|Hy]; [lra|auto]|].
    destruct Hw as [->|Hw]; [|exists w; split; [right; right; auto|auto]].
    destruct (Q.min_spec x z) as [[_ E]|[_ E]]; [exists x|exists z]; (split; [cbn; auto|lra]).
Qed.
Lemma arc_span times ids out a : arc times (keep_mask ids out) = Ok a -> is_span (used ids out times) a.
Proof.
  unfold arc. rewrite masked_used. destruct (used ids out times) as [|x l]; [discriminate|]. intros [= <-].
  destruct (qmaxl_spec l x) as (M1 & M2 & (y & Hy & Ey)). destruct (qminl_spec l x) as (m1 & m2 & (w & Hw & Ew)).
  exists w, y. split; [destruct Hw as [->|]; cbn; auto|]. split; [destruct Hy as [->|]; cbn; auto|]. split; [lra|].
  intros z [<-|H]; [lra|]. specialize (m2 z H). specialize (M2 z H). lra.
Qed.
Lemma arc_mono times ids out out' a' : incl out out' -> arc times (keep_mask ids out') = Ok a' ->
  exists a, arc times (keep_mask ids out) = Ok a /\ (a' <= a)%Q.
Proof.
  intros Hi E'. pose proof (arc_span _ _ _ _ E') as (x' & y' & Hx' & Hy' & Ea' & _).
  apply (used_incl ids out out' times Hi) in Hx'. apply (used_incl ids out out' times Hi) in Hy'.
  destruct (arc times (keep_mask ids out)) as [a|e] eqn:E.
  - exists a. split; auto. destruct (arc_span _ _ _ _ E) as (x & y & _ & _ & Ea & H).
    pose proof (H _ Hx'). pose proof (H _ Hy'). lra.
  - exfalso. unfold arc in E. rewrite masked_used in E. destruct (used ids out times); [destruct Hx'|discriminate].
Qed.
Lemma top_incl order k k' : (k <= k')%nat -> incl (top order k) (top order k').
Proof.
  unfold top. intros H x Hx. replace (List.length order - k)%nat with ((List.length order - k - (List.length order - k')) + (List.length order - k'))%nat in Hx by lia.
  assert (Sk : forall a b (l : list nat), skipn (a + b) l = skipn a (skipn b l)).
  { clear. intros a b. revert a. induction b; intros a l; [now rewrite Nat.add_0_r|]. rewrite Nat.add_succ_r. destruct l; cbn; [now rewrite skipn_nil|auto]. }
  rewrite Sk in Hx. eapply In_skipn; eauto.
Qed.
Lemma pick_incl {A} (l : list A) is is' : incl is is' -> incl (pick l is) (pick l is').
Proof. unfold pick. intros H x Hx. apply in_flat_map in Hx as (i & Hi & Hx). apply in_flat_map. eauto. Qed.
Lemma pick_length {A} (l : list A) is : (forall i, In i is -> (i < List.length l)%nat) -> List.length (pick l is) = List.length is.
Proof.
  unfold pick. induction is as [|i is IH]; intros H; auto. cbn [flat_map]. rewrite app_length, IH by (intros; apply H; now right).
  destruct (nth_error l i) eqn:E; auto. apply nth_error_None in E. specialize (H i (or_introl eq_refl)). lia.
Qed.
Lemma pick_NoDup {A} (l : list A) is : NoDup l -> NoDup is -> NoDup (pick l is).
Proof.
  intros N. unfold pick. induction 1 as [|i is Hi Nis IH]; cbn; [constructor|].
  destruct (nth_error l i) as [x|] eqn:E; auto. cbn. constructor; auto.
  intros C. apply in_flat_map in C as (j & Hj & C). destruct (nth_error l j) as [y|] eqn:Ey; [|destruct C].
  destruct C as [->|[]]. assert (i = j); [|subst; auto].
  apply (proj1 (NoDup_nth_error l) N); [apply nth_error_Some; congruence|congruence].
Qed.
Lemma top_length order k : List.length (top order k) = Nat.min k (List.length order).
Proof. unfold top. rewrite skipn_length. lia. Qed.
Lemma used_count ids out : NoDup ids -> NoDup out -> incl out ids ->
  List.length (used ids out ids) = (List.length ids - List.length out)%nat.
Proof.
  intros N No Hi.
  assert (E : used ids out ids = filter (fun i => if in_dec string_dec i out then false else true) ids).
  { unfold used. clear. induction ids as [|i ids IH]; auto. cbn. destruct (in_dec string_dec i out); cbn; now rewrite IH. }
  rewrite E. clear E.
  assert (P : Permutation ids (filter (fun i => if in_dec string_dec i out then true else false) ids ++ filter (fun i => if in_dec string_dec i out then false else true) ids)).
  { clear. induction ids as [|i ids IH]; cbn; auto. destruct (in_dec string_dec i out); cbn; [now constructor|]. apply Permutation_cons_app. auto. }
  apply Permutation_length in P. rewrite app_length in P.
  assert (List.length (filter (fun i => if in_dec string_dec i out then true else false) ids) = List.length out); [|lia].
  apply Permutation_length. apply NoDup_Permutation; auto; [now apply NoDup_filter|].
  intros x. rewrite filter_In. destruct (in_dec string_dec x out); split; intros; try tauto; [split; auto|destruct H; discriminate].
Qed.
Lemma used_len {A B} ids out (l : list A) (m : list B) : List.length l = List.length ids -> List.length m = List.length ids ->
  List.length (used ids out l) = List.length (used ids out m).
Proof.
  unfold used. revert l m. induction ids as [|i ids IH]; intros [|x l] [|y m] H1 H2; cbn in *; try discriminate; auto.
  destruct (in_dec string_dec i out); cbn; [apply IH; lia|f_equal; apply IH; lia].
Qed.

(* ---------- od ---------- *)
Section OdP.
  Context {Orb D P W B : Type}.
  Variable ids : list string.
  Variable et ot : list Q.
  Variable chi2_of : Orb -> list Q.
  Variable order : list nat.
  Variable correct : Orb -> D -> list (P * W * B) -> option Orb * D.
  Variable bound : D -> D.
  Variable d0 : D.
  Variable o0 : Orb.
  Variable threshold min_arc : Q.
  Variable max_iter max_outliers : Z.
  Variable rows : Orb -> list string -> D -> list (P * W * B).
  Notation iterate := (iterate ids et ot chi2_of order correct bound d0 o0 threshold min_arc max_iter max_outliers rows).
  Notation loop := (loop ids et ot chi2_of order correct bound d0 o0 threshold min_arc max_iter max_outliers rows).
  Notation init := (init ids chi2_of d0 o0 max_iter).
  Notation n := (n ids).
  Definition M := (max_iter * (max_outliers + 1))%Z.
  Definition outs (k : Z) := pick ids (top order (Z.to_nat k)).

  Hypothesis Hmi : (0 <= max_iter)%Z.
  Hypothesis Hmo : (0 <= max_outliers)%Z.

  Record inv (s : @ostate Orb D) : Prop := {
    v_it : (0 <= s_it s <= M)%Z;
    v_tried : (0 <= s_tried s <= max_outliers + 1)%Z;
    v_out : s_out s = outs (s_tried s);
    v_nobs : s_nobs s = (n - Z.of_nat (List.length (top order (Z.to_nat (s_tried s)))))%Z;
    v_lim : forall a, arc et (keep_mask ids (s_out s)) = Ok a -> (min_arc <= a)%Q -> s_limit s = (max_iter * (s_tried s + 1))%Z;
    v_max : s_tried s = (max_outliers + 1)%Z -> forall a, arc et (keep_mask ids (s_out s)) = Ok a -> (a < min_arc)%Q }.

  Lemma inv_init : inv init.
  Proof.
    constructor; cbn; unfold M, outs; try (unfold top; rewrite Nat.sub_0_r, skipn_all; cbn); auto; try lia; try nia.
  Qed.
  Lemma iterate_inv s o : inv s -> iterate s = Ok o ->
    match o with
    | Stop => True
    | Go s' => inv s' /\ s_it s' = (s_it s + 1)%Z
    | Found r => (0 <= s_tried s <= max_outliers)%Z /\ r_outliers r = outs (s_tried s) /\
        r_nobs r = (n - Z.of_nat (List.length (top order (Z.to_nat (s_tried s)))))%Z /\
        r_chi2 r = add_up (used ids (r_outliers r) (chi2_of (r_orb r))) /\
        r_rchi2 r = rdiv (r_chi2 r) (2 * r_nobs r - 6) /\ rle (r_rchi2 r) threshold = true /\
        is_span (used ids (r_outliers r) ot) (r_arc r) /\ (min_arc <= r_arc r)%Q /\ (1 <= r_iter r <= M)%Z
    end.
  Proof.
    intros I. destruct I as [I1 I2 I3 I4 I5 I6]. unfold OdModel.iterate.
    destruct (Z.eqb_spec (s_it s + 1) (max_iter * (max_outliers + 1) + 1)) as [|N1]; [intros [= <-]; auto|].
    assert (J1 : (0 <= s_it s + 1 <= M)%Z) by (unfold M in *; lia).
    destruct (_ && _) eqn:E1; [intros [= <-]; auto|].
    set (d := bound (s_delta s)). destruct (correct _ d _) as [[orb|] d'].
    2:{ intros [= <-]. split; [|reflexivity]. constructor; cbn; auto. }
    rewrite (masked_used ids (s_out s)). set (total := sum (used ids (s_out s) (chi2_of orb))). cbv zeta.
    destruct (arc et (keep_mask ids (s_out s))) as [a|e] eqn:Ea; [|discriminate]. cbn [bind].
    set (r := rdiv total (2 * s_nobs s - 6)).
    destruct ((rlt r (s_rprev s) || s_first s) && Qle_bool min_arc a) eqn:Eacc.
    - apply andb_true_iff in Eacc as [_ Harc]. apply Qle_bool_iff in Harc.
      destruct (rle r threshold) eqn:Ethr.
      + destruct (arc ot (keep_mask ids (s_out s))) as [a'|] eqn:Ea'; [|discriminate]. cbn [bind].
        destruct (Qeq_bool a a') eqn:Eq; [|discriminate]. apply Qeq_bool_iff in Eq. intros [= <-]. cbn.
        assert (T : s_tried s <> (max_outliers + 1)%Z) by (intros C; specialize (I6 C a eq_refl); lra).
        repeat apply conj; try lia; auto.
        * now apply arc_span.
        * lra.
      + intros [= <-]. split; [|reflexivity]. constructor; cbn; rewrite ?Ea; auto.
    - destruct ((0 <? max_outliers)%Z && (s_tried s <=? max_outliers)%Z && (s_limit s <? s_it s + 1)%Z) eqn:Erem.
      2:{ intros [= <-]. split; [|reflexivity]. constructor; cbn; rewrite ?Ea; auto. }
      apply andb_true_iff in Erem as [Erem El]. apply andb_true_iff in Erem as [Ep Et].
      apply Z.ltb_lt in Ep, El. apply Z.leb_le in Et.
      destruct (arc et (keep_mask ids (pick ids (top order (Z.to_nat (s_tried s + 1)))))) as [a2|] eqn:Ea2; [|discriminate]. cbn [bind].
      intros [= <-]. split; [|reflexivity].
      assert (A : forall a'', a2 = a'' -> s_tried s = max_outliers -> (a'' < min_arc)%Q).
      { intros a'' <- Em. destruct (Qlt_le_dec a2 min_arc) as [|L]; auto. exfalso.
        assert (Hincl : incl (s_out s) (pick ids (top order (Z.to_nat (s_tried s + 1))))) by (rewrite I3; apply pick_incl, top_incl; lia).
        destruct (arc_mono et ids _ _ a2 Hincl Ea2) as (a3 & Ea3 & L3).
        rewrite Ea in Ea3. injection Ea3 as <-. specialize (I5 a eq_refl ltac:(lra)). rewrite Em in I5. unfold M in J1. lia. }
      constructor; cbn; auto; try lia.
      + rewrite Ea2. intros a4 [= <-] L. apply Qle_bool_iff in L. rewrite L. reflexivity.
      + rewrite Ea2. intros C a4 [= <-]. apply A; auto. lia.
  Qed.

  Lemma loop_found fuel : forall s r, inv s -> loop fuel s = Ok (Some r) -> exists s0, inv s0 /\ iterate s0 = Ok (Found r).
  Proof.
    induction fuel as [|f IH]; intros s r I; cbn; [discriminate|].
    destruct (iterate s) as [o|] eqn:E; [|discriminate]. cbn [bind].
    pose proof (iterate_inv s o I E) as G. destruct o as [s'| |r']; [|discriminate|].
    - intros H. apply (IH s'); auto. apply G.
    - intros [= ->]. eauto.
  Qed.
  Lemma loop_terminates : forall fuel s, inv s -> (Z.of_nat fuel > M - s_it s)%Z -> loop fuel s <> Err StopFuel.
  Proof.
    induction fuel as [|f IH]; intros s I H; [destruct (v_it s I); lia|].
    cbn [OdModel.loop]. destruct (iterate s) as [o|e] eqn:E.
    - cbn [bind]. pose proof (iterate_inv s o I E) as G. destruct o as [s'| |r']; [|discriminate|discriminate].
      apply IH; [apply G|]. destruct G as [_ G]. rewrite G. lia.
    - cbn [bind]. intros [= ->]. revert E. unfold OdModel.iterate.
      destruct (_ =? _)%Z; [discriminate|]. destruct (_ && _); [discriminate|].
      set (d := bound (s_delta s)). destruct (correct _ d _) as [[orb|] d']; [|discriminate]. cbv zeta.
      assert (X : forall t m, arc t m <> Err StopFuel) by (intros t m; unfold arc; destruct (masked m t); discriminate).
      pose proof (X et (keep_mask ids (s_out s))) as X1. pose proof (X ot (keep_mask ids (s_out s))) as X2.
      destruct (arc et (keep_mask ids (s_out s))); cbn [bind]; [|congruence].
      destruct (_ && _).
      + destruct (rle _ _); [|discriminate]. destruct (arc ot _); cbn [bind]; [|congruence]. destruct (Qeq_bool _ _); discriminate.
      + destruct (_ && _); [|discriminate].
        pose proof (X et (keep_mask ids (pick ids (top order (Z.to_nat (s_tried s + 1)))))) as X3.
        destruct (arc et (keep_mask ids (pick _ _))); cbn [bind]; [discriminate|congruence].
  Qed.

  Lemma skipn_nth {A} k (l : list A) x : In x (skipn k l) -> exists i, (k <= i)%nat /\ nth_error l i = Some x.
  Proof.
    clear. revert l. induction k; intros l H; [apply In_nth_error in H as [i H]; exists i; split; [lia|auto]|].
    destruct l; cbn in H; [destruct H|]. destruct (IHk l H) as (i & L & E). exists (S i). split; [lia|auto].
  Qed.

  Lemma outs_facts k : NoDup ids -> sorts order (chi2_of o0) -> List.length (chi2_of o0) = List.length ids ->
    (0 <= k)%Z -> (k <= n)%Z ->
    NoDup (outs k) /\ incl (outs k) ids /\ Z.of_nat (List.length (outs k)) = k /\
    (n - Z.of_nat (List.length (top order (Z.to_nat k))) = Z.of_nat (List.length (used ids (outs k) ids)))%Z /\
    (forall i j x y u v, nth_error ids i = Some x -> nth_error ids j = Some y -> In x (outs k) -> ~ In y (outs k) ->
      nth_error (chi2_of o0) i = Some u -> nth_error (chi2_of o0) j = Some v -> (v <= u)%Q).
  Proof.
    intros N [Hp Hs] Hl Hk0 Hk.
    assert (Lo : List.length order = List.length ids) by (rewrite <- (Permutation_length Hp), seq_length; auto).
    assert (Bd : forall i, In i order -> (i < List.length ids)%nat).
    { intros i Hi. apply (Permutation_in _ (Permutation_sym Hp)), in_seq in Hi. lia. }
    assert (Nd : NoDup order) by (eapply Permutation_NoDup; [exact Hp|apply seq_NoDup]).
    assert (Bt : forall i, In i (top order (Z.to_nat k)) -> (i < List.length ids)%nat) by (intros i Hi; apply Bd; eapply In_skipn; eauto).
    assert (N1 : NoDup (outs k)) by (apply pick_NoDup; auto; apply NoDup_skipn; auto).
    assert (I1 : incl (outs k) ids).
    { intros x Hx. apply in_flat_map in Hx as (i & _ & Hx). destruct (nth_error ids i) eqn:E; [|destruct Hx]. destruct Hx as [<-|[]]. eapply nth_error_In; eauto. }
    assert (L1 : List.length (outs k) = Z.to_nat k).
    { unfold outs. rewrite pick_length by auto. rewrite top_length, Lo. unfold OdModel.n in Hk. lia. }
    split; auto. split; auto. split; [lia|]. split.
    - rewrite used_count by auto. rewrite top_length, Lo. unfold OdModel.n in *. rewrite L1. lia.
    - intros i j x y u v Hi Hj Hx Hy Hu Hv.
      assert (Ti : In i (top order (Z.to_nat k))).
      { apply in_flat_map in Hx as (i' & Hi' & Hx). destruct (nth_error ids i') eqn:E; [|destruct Hx]. destruct Hx as [->|[]].
        assert (i' = i); [|subst; auto]. apply (proj1 (NoDup_nth_error ids) N); [apply nth_error_Some; congruence|congruence]. }
      assert (Tj : ~ In j (top order (Z.to_nat k))).
      { intros C. apply Hy. apply in_flat_map. exists j. split; auto. rewrite Hj. now left. }
      unfold top in Ti, Tj. set (m := (List.length order - Z.to_nat k)%nat) in *.
      apply skipn_nth in Ti as (p & Lp & Ep).
      assert (Hin : In j order).
      { apply (Permutation_in _ Hp). apply in_seq. assert (j < List.length (chi2_of o0))%nat by (apply nth_error_Some; congruence). lia. }
      apply In_nth_error in Hin as [q Eq].
      assert (Lq : (q < m)%nat).
      { destruct (Nat.lt_ge_cases q m); auto. exfalso. apply Tj.
        rewrite <- (firstn_skipn m order) in Eq. rewrite nth_error_app2 in Eq by (rewrite firstn_length; lia). eapply nth_error_In; eauto. }
      apply (Hs q p j i v u); auto. lia.
  Qed.

  Lemma od_found min_obs fuel r : NoDup ids -> sorts order (chi2_of o0) -> List.length (chi2_of o0) = List.length ids ->
    (max_outliers <= n - min_obs)%Z -> (max_outliers <= n)%Z ->
    od_with ids et ot chi2_of order correct bound d0 o0 threshold min_arc max_iter max_outliers rows min_obs fuel = Ok (Some r) ->
    NoDup (r_outliers r) /\ incl (r_outliers r) ids /\ (Z.of_nat (List.length (r_outliers r)) <= max_outliers)%Z /\
    (forall i j x y u v, nth_error ids i = Some x -> nth_error ids j = Some y -> In x (r_outliers r) -> ~ In y (r_outliers r) ->
      nth_error (chi2_of o0) i = Some u -> nth_error (chi2_of o0) j = Some v -> (v <= u)%Q) /\
    r_nobs r = Z.of_nat (List.length (used ids (r_outliers r) ids)) /\ (min_obs <= r_nobs r)%Z /\
    r_chi2 r = add_up (used ids (r_outliers r) (chi2_of (r_orb r))) /\
    (exists q, r_rchi2 r = Fin q /\ (q <= threshold)%Q /\ (2 * r_nobs r - 6 <> 0)%Z /\ (q == r_chi2 r / inject_Z (2 * r_nobs r - 6))%Q) /\
    is_span (used ids (r_outliers r) ot) (r_arc r) /\ (min_arc <= r_arc r)%Q /\
    (1 <= r_iter r <= max_iter * (max_outliers + 1))%Z.
  Proof.
    intros N Hs Hl Hm1 Hm2. unfold od_with. destruct (_ <? _)%Z; [discriminate|]. intros H.
    apply (loop_found fuel init r inv_init) in H as (s & I & E).
    apply (iterate_inv s _ I) in E as (T & E1 & E2 & E3 & E4 & E5 & E6 & E7 & E8).
    destruct (outs_facts (s_tried s) N Hs Hl ltac:(lia) ltac:(lia)) as (F1 & F2 & F3 & F4 & F5).
    rewrite <- E1 in F1, F2, F3, F4, F5.
    split; auto. split; auto. split; [lia|]. split; auto. split; [lia|].
    split; [rewrite E2, top_length; destruct Hs as [Hp _]; unfold OdModel.n in *; lia|]. split; auto. split; [|auto].
    unfold rdiv in E4. destruct (Z.eqb_spec (2 * r_nobs r - 6) 0) as [Z0|Z0].
    - exfalso. rewrite E4 in E5. destruct (qltb 0 (r_chi2 r)); discriminate.
    - rewrite E4 in E5. cbn in E5. apply Qle_bool_iff in E5. eexists. split; [exact E4|]. split; auto. split; auto. reflexivity.
  Qed.
  Lemma od_terminates min_obs fuel : (Z.of_nat fuel > max_iter * (max_outliers + 1))%Z ->
    od_with ids et ot chi2_of order correct bound d0 o0 threshold min_arc max_iter max_outliers rows min_obs fuel <> Err StopFuel.
  Proof.
    intros H. unfold od_with. destruct (_ <? _)%Z; [discriminate|]. apply loop_terminates; [apply inv_init|]. cbn. unfold M. lia.
  Qed.
End OdP.
Lemma od_short {Orb D P W B} ids et ot (chi2_of : Orb -> list Q) order (correct : Orb -> D -> list (P * W * B) -> option Orb * D) bound d0 o0 threshold min_arc max_iter max_outliers rows min_obs fuel :
  (Z.of_nat (List.length ids) < min_obs)%Z ->
  od_with ids et ot chi2_of order correct bound d0 o0 threshold min_arc max_iter max_outliers rows min_obs fuel = Ok None.
Proof. intros H. unfold od_with. destruct (Z.ltb_spec (n ids) min_obs); auto. unfold n in *. lia. Qed.
(* more fuel never changes a result *)
Lemma loop_fuel {Orb D P W B} ids et ot (chi2_of : Orb -> list Q) order (correct : Orb -> D -> list (P * W * B) -> option Orb * D) bound d0 o0 threshold min_arc max_iter max_outliers rows :
  forall f f' s x, (f <= f')%nat -> loop ids et ot chi2_of order correct bound d0 o0 threshold min_arc max_iter max_outliers rows f s = Ok x ->
  loop ids et ot chi2_of order correct bound d0 o0 threshold min_arc max_iter max_outliers rows f' s = Ok x.
Proof.
  induction f as [|f IH]; intros f' s x L H; cbn in H; [discriminate|].
  destruct f' as [|f']; [lia|]. cbn. destruct (iterate _ _ _ _ _ _ _ _ _ _ _ _ _ _ s) as [o|]; [|discriminate]. cbn [bind] in *.
  destruct o; auto. apply IH; auto. lia.
Qed.
(* a negative iteration limit: nothing stops the loop when every correction is discarded *)
Lemma od_runs_forever {Orb D P W B} ids et ot (chi2_of : Orb -> list Q) order (bound : D -> D) d0 o0 threshold min_arc max_iter max_outliers
  (rows : Orb -> list string -> D -> list (P * W * B)) :
  (max_iter < 0)%Z -> (0 <= max_outliers)%Z -> forall fuel s, (0 <= s_it s)%Z -> s_limit s = max_iter ->
  loop ids et ot chi2_of order (fun _ d _ => (None, d)) bound d0 o0 threshold min_arc max_iter max_outliers rows fuel s = Err StopFuel.
Proof.
  intros H H0. induction fuel as [|f IH]; intros s Hs Hl; auto. cbn [loop].
  unfold iterate at 1. destruct (Z.eqb_spec (s_it s + 1) (max_iter * (max_outliers + 1) + 1)); [nia|].
  destruct (Z.eqb_spec (s_it s + 1) (s_limit s + 1)); [lia|]. cbn [andb bind]. apply IH; cbn; auto. lia.
Qed.
(* aligned rows *)
Lemma combine_masked {A B} mask : forall (l : list A) (m : list B), combine (masked mask l) (masked mask m) = masked mask (combine l m).
Proof.
  unfold masked. induction mask as [|b mask IH]; intros [|x l] [|y m]; cbn; auto.
  - destruct b; cbn; auto. now destruct (map snd _).
  - destruct b; cbn; auto. now rewrite IH.
Qed.
Lemma masked_all {A} ids (l : list A) : (List.length l <= List.length ids)%nat -> masked (keep_mask ids []) l = l.
Proof.
  unfold masked, keep_mask. revert l. induction ids as [|i ids IH]; intros [|x l] H; cbn in *; auto; [lia|]. f_equal. apply IH. lia.
Qed.
Lemma used_all {A} ids (l : list A) : (List.length l <= List.length ids)%nat -> used ids [] l = l.
Proof. intros H. rewrite <- masked_used. now apply masked_all. Qed.
Lemma first_rows_aligned {Orb D P W B} ids (partials : Orb -> D -> list P) (sigmas : list W) (resid : Orb -> list B) o0 d :
  (forall o d, List.length (partials o d) = List.length ids) ->
  normal_rows ids partials sigmas resid o0 o0 [] d = aligned_rows ids [] (partials o0 d) sigmas (resid o0).
Proof.
  intros H. unfold normal_rows, aligned_rows. rewrite masked_all by (rewrite H; lia).
  rewrite used_all; auto. rewrite !combine_length, H. lia.
Qed.
