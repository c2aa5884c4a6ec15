From Coq Require Import String QArith Qabs Qminmax Lqa Sorted Permutation.
From Verif Require Import Base ListLemmas FitModel FitSpec FitProofs OdModel OdSpec OdProofs IodProofs.
Open Scope list_scope.

(* ---------- distinct rationals ---------- *)
Lemma quniq_incl : forall l seen x, In x (uniq_aux Qeq_bool seen l) -> In x l.
Proof.
  induction l as [|y l IH]; intros seen x; cbn; auto. destruct (memb _ y seen); [eauto|]. intros [->|H]; eauto.
Qed.
Lemma quniq_fresh : forall l seen x y, In x (uniq_aux Qeq_bool seen l) -> In y seen -> ~ (x == y)%Q.
Proof.
  induction l as [|z l IH]; intros seen x y; cbn; [tauto|]. destruct (memb _ z seen) eqn:E; [apply IH|].
  intros [->|H] Hy C.
  - assert (memb Qeq_bool x seen = true); [|congruence]. apply existsb_exists. exists y. split; auto. now apply Qeq_bool_iff.
  - eapply IH; eauto. now right.
Qed.
Lemma quniq_cover : forall l seen x, In x l -> (exists y, In y (uniq_aux Qeq_bool seen l) /\ (y == x)%Q) \/ (exists y, In y seen /\ (y == x)%Q).
Proof.
  induction l as [|z l IH]; intros seen x; cbn; [tauto|]. intros H. destruct (memb _ z seen) eqn:E.
  - destruct H as [->|H]; [|apply IH; auto]. right. apply existsb_exists in E as (y & Hy & E). apply Qeq_bool_iff in E. exists y. split; auto. lra.
  - destruct H as [->|H]; [left; exists x; split; [now left|reflexivity]|].
    destruct (IH (z :: seen) x H) as [(y & Hy & Ey)|(y & [->|Hy] & Ey)]; [left|left|right]; exists y; split; auto; [now right|now left].
Qed.
Lemma quniq_len : forall l seen, (List.length (uniq_aux Qeq_bool seen l) <= List.length l)%nat.
Proof. induction l as [|z l IH]; intros seen; cbn; auto. destruct (memb _ z seen); [|cbn]; specialize (IH seen) as A; specialize (IH (z :: seen)); lia. Qed.
Lemma quniq_pairs : forall l seen i j x y, nth_error (uniq_aux Qeq_bool seen l) i = Some x -> nth_error (uniq_aux Qeq_bool seen l) j = Some y -> (i < j)%nat -> ~ (x == y)%Q.
Proof.
  induction l as [|z l IH]; intros seen i j x y; cbn; [destruct i; discriminate|]. destruct (memb _ z seen); [apply IH|].
  destruct j as [|j]; [lia|]. destruct i as [|i]; cbn.
  - intros [= <-] H _ C. apply nth_error_In in H. eapply quniq_fresh; [exact H|now left|]. lra.
  - intros H1 H2 L. eapply IH; eauto. lia.
Qed.
Lemma three_distinct x y z : List.length (uniq Qeq_bool [x; y; z]) = 3%nat <-> ~ (x == y)%Q /\ ~ (y == z)%Q /\ ~ (x == z)%Q.
Proof.
  unfold uniq. cbn. unfold memb. cbn. rewrite !orb_false_r.
  destruct (Qeq_bool y x) eqn:E1; cbn; [|destruct (Qeq_bool z y) eqn:E2; cbn; [|destruct (Qeq_bool z x) eqn:E3; cbn]];
    rewrite ?orb_true_r, ?orb_false_r, ?E2, ?E3; cbn;
    repeat match goal with H : Qeq_bool _ _ = true |- _ => apply Qeq_bool_iff in H | H : Qeq_bool _ _ = false |- _ => apply Qeq_bool_neq in H end.
  - split; [|intros (A & _); lra]. destruct (Qeq_bool z x); cbn; discriminate.
  - split; [discriminate|intros (_ & A & _); lra].
  - split; [discriminate|intros (_ & _ & A); lra].
  - split; auto. intros _. repeat split; lra.
Qed.

Lemma NoDup_app_disj {A} (l m : list A) : NoDup l -> NoDup m -> (forall x, In x l -> In x m -> False) -> NoDup (l ++ m).
Proof. induction 1 as [|x l Hx N IH]; cbn; auto. intros Nm D. constructor; [|apply IH; eauto]. rewrite in_app_iff. intros [C|C]; eauto. Qed.
(* ---------- combinations ---------- *)
Lemma combos_spec : forall k n a c, In c (combos k (seq a n)) <->
  List.length c = k /\ StronglySorted lt c /\ Forall (fun i => (a <= i < a + n)%nat) c.
Proof.
  assert (C0 : forall (n a : nat) c, In c (combos 0 (seq a n)) <-> List.length c = 0%nat /\ StronglySorted lt c /\ Forall (fun i => (a <= i < a + n)%nat) c).
  { intros n a c. assert (E : combos 0 (seq a n) = [[]]) by (destruct (seq a n); reflexivity). rewrite E. cbn [In]. split.
    - intros [<-|[]]. split; [reflexivity|split; constructor].
    - intros [L _]. destruct c; [now left|discriminate]. }
  intros k n. revert k. induction n as [|n IH]; intros k a c.
  - destruct k; [apply C0|]. cbn. split; [tauto|]. intros (L & _ & F). destruct c as [|x c]; [discriminate|].
    inversion F; subst. lia.
  - destruct k; [apply C0|]. cbn [seq combos]. rewrite in_app_iff, in_map_iff, IH. split.
    + intros [(d & <- & H)|(L & S & F)].
      * apply IH in H as (L & S & F). split; [cbn; lia|]. split.
        -- constructor; auto. eapply Forall_impl; [|exact F]. cbn. lia.
        -- constructor; [lia|]. eapply Forall_impl; [|exact F]. cbn. lia.
      * split; auto. split; auto. eapply Forall_impl; [|exact F]. cbn. lia.
    + intros (L & S & F). destruct c as [|x c]; [discriminate|]. inversion F as [|? ? Fx F']; subst. inversion S as [|? ? S' G]; subst.
      destruct (Nat.eq_dec x a) as [->|].
      * left. exists c. split; auto. apply IH. split; [cbn in L; lia|]. split; auto.
        rewrite Forall_forall in *. intros i Hi. specialize (F' i Hi). specialize (G i Hi). lia.
      * right. split; auto. split; auto. constructor; [lia|].
        rewrite Forall_forall in *. intros i Hi. specialize (F' i Hi). specialize (G i Hi). lia.
Qed.
Lemma combos_NoDup : forall n k a, NoDup (combos k (seq a n)).
Proof.
  assert (C0 : forall l, NoDup (combos 0 l)) by (intros []; repeat constructor; cbn; auto).
  induction n as [|n IH]; intros k a; (destruct k; [apply C0|]); [constructor|]. cbn [seq combos].
  apply NoDup_app_disj.
  - apply FinFun.Injective_map_NoDup; [intros u v [= ->]; auto|apply IH].
  - apply IH.
  - intros c H C. apply in_map_iff in H as (d & <- & _). apply combos_spec in C as (_ & _ & F). inversion F; subst. lia.
Qed.

Lemma Qabs_abs x : (Qabs_ x == Qabs x)%Q.
Proof.
  unfold Qabs_. destruct (Qle_bool 0 x) eqn:E; qb.
  - symmetry. now apply Qabs_pos.
  - symmetry. apply Qabs_neg. lra.
Qed.
Lemma cleb_total times c d : cleb times c d = true \/ cleb times d c = true.
Proof.
  unfold cleb. destruct (tri times c) as [[a b] e], (tri times d) as [[a' b'] e'].
  destruct (qltb (e' - a') (e - a)) eqn:E1; auto. destruct (qltb (e - a) (e' - a')) eqn:E2; auto.
  set (u := Qabs_ _). set (v := Qabs_ _). destruct (Qle_bool u v) eqn:E; auto. right. apply Qle_bool_iff. qb. lra.
Qed.
Lemma cleb_trans times c d e : cleb times c d = true -> cleb times d e = true -> cleb times c e = true.
Proof.
  unfold cleb. destruct (tri times c) as [[a1 b1] c1], (tri times d) as [[a2 b2] c2], (tri times e) as [[a3 b3] c3].
  set (u := Qabs_ ((c1 + a1) / 2 - b1)). set (v := Qabs_ ((c2 + a2) / 2 - b2)). set (w := Qabs_ ((c3 + a3) / 2 - b3)). clearbody u v w.
  destruct (qltb (c2 - a2) (c1 - a1)) eqn:E1; [|destruct (qltb (c1 - a1) (c2 - a2)) eqn:E2; [discriminate|]];
  (destruct (qltb (c3 - a3) (c2 - a2)) eqn:E3; [|destruct (qltb (c2 - a2) (c3 - a3)) eqn:E4; [discriminate|]]);
  (destruct (qltb (c3 - a3) (c1 - a1)) eqn:E5; [auto|destruct (qltb (c1 - a1) (c3 - a3)) eqn:E6]); intros H1 H2; qb; try lra.
  apply Qle_bool_iff. lra.
Qed.
Lemma tri_at times c x y z : times_at times c x y z -> tri times c = (x, y, z).
Proof. intros (i & j & k & -> & E1 & E2 & E3). unfold tri, pick. cbn. now rewrite E1, E2, E3. Qed.
Lemma cleb_preferred times c d : cleb times c d = true -> preferred times c d.
Proof.
  intros H x y z x' y' z' H1 H2. unfold cleb in H. rewrite (tri_at _ _ _ _ _ H1), (tri_at _ _ _ _ _ H2) in H.
  destruct (qltb (z' - x') (z - x)) eqn:E1; qb; [now left|]. destruct (qltb (z - x) (z' - x')) eqn:E2; [discriminate|]. qb.
  right. split; [lra|]. rewrite <- !Qabs_abs. auto.
Qed.
Lemma sorted_nth {A} (R : A -> A -> Prop) l : StronglySorted R l -> forall p q c d, (p < q)%nat -> nth_error l p = Some c -> nth_error l q = Some d -> R c d.
Proof.
  induction 1 as [|x l S IH F]; intros p q c d L Hp Hq; [destruct p; discriminate|].
  destruct q as [|q]; [lia|]. destruct p as [|p]; cbn in *.
  - injection Hp as <-. rewrite Forall_forall in F. apply F. eapply nth_error_In; eauto.
  - eapply IH; [|eauto|eauto]. lia.
Qed.
Lemma triple_at (times : list Q) (c : list nat) : (forall i, In i c -> (i < List.length times)%nat) -> List.length c = 3%nat ->
  exists i j k x y z, c = [i; j; k] /\ nth_error times i = Some x /\ nth_error times j = Some y /\ nth_error times k = Some z /\ pick times c = [x; y; z].
Proof.
  intros B L. destruct c as [|i [|j [|k [|? ?]]]]; try discriminate.
  assert (X : forall i0, In i0 [i; j; k] -> exists x, nth_error times i0 = Some x).
  { intros i0 H. apply B, nth_error_Some in H. destruct (nth_error times i0); [eauto|congruence]. }
  destruct (X i) as [x Ex]; [cbn; auto|]. destruct (X j) as [y Ey]; [cbn; auto|]. destruct (X k) as [z Ez]; [cbn; auto|].
  exists i, j, k, x, y, z. unfold pick. cbn. rewrite Ex, Ey, Ez. auto 10.
Qed.
Lemma filter_StronglySorted {A} (R : A -> A -> Prop) f l : StronglySorted R l -> StronglySorted R (filter f l).
Proof.
  induction 1 as [|x l S IH F]; cbn; [constructor|]. destruct (f x); auto. constructor; auto.
  rewrite Forall_forall in *. intros y Hy. apply filter_In in Hy as [Hy _]. auto.
Qed.
Lemma select_combinations near ids times : List.length times = List.length ids -> (3 <= List.length ids)%nat ->
  exists cs, select_observations near ids times Combinations = Ok (map (pick ids) cs) /\ NoDup cs /\
    (forall c, In c cs <-> exists i j k x y z, c = [i; j; k] /\ (i < j < k)%nat /\ nth_error times i = Some x /\ nth_error times j = Some y /\ nth_error times k = Some z /\
       ~ (x == y)%Q /\ ~ (y == z)%Q /\ ~ (x == z)%Q) /\
    (forall p q c d, (p < q)%nat -> nth_error cs p = Some c -> nth_error cs q = Some d -> preferred times c d).
Proof.
  intros L H3. unfold select_observations. destruct (Nat.ltb_spec (List.length ids) 3); [lia|]. cbn [candidates bind].
  eexists. split; [reflexivity|]. split; [|split].
  - apply NoDup_filter. eapply Permutation_NoDup; [apply sort_perm|]. apply combos_NoDup.
  - intros c. rewrite filter_In, sort_In, combos_spec, Nat.eqb_eq. split.
    + intros ((Lc & S & F) & U). rewrite Forall_forall in F.
      destruct (triple_at times c) as (i & j & k & x & y & z & -> & Ex & Ey & Ez & P); auto; [intros i Hi; specialize (F i Hi); lia|].
      rewrite P in U. apply three_distinct in U as (U1 & U2 & U3). exists i, j, k, x, y, z. split; auto.
      inversion S as [|? ? S1 F1]; subst. inversion S1 as [|? ? S2 F2]; subst. inversion F1; subst. inversion F2; subst. auto 10.
    + intros (i & j & k & x & y & z & -> & Lt & Ex & Ey & Ez & U).
      assert (Bk : (k < List.length times)%nat) by (apply nth_error_Some; congruence).
      split; [|unfold pick; cbn; rewrite Ex, Ey, Ez; now apply three_distinct].
      split; auto. split; [repeat constructor; lia|]. repeat constructor; lia.
  - intros p q c d Lt Hc Hd. apply cleb_preferred. revert p q c d Lt Hc Hd. apply sorted_nth. apply filter_StronglySorted.
    apply (sort_sorted (cleb times)); [intros; destruct (cleb_total times x y); auto|]. intros x y z. apply cleb_trans.
Qed.
Lemma first_pos_spec x : forall l i k, In k (first_pos x i l) -> (i <= k)%nat /\ exists y, nth_error l (k - i) = Some y /\ (x == y)%Q.
Proof.
  induction l as [|y l IH]; intros i k; cbn; [tauto|]. destruct (Qeq_bool x y) eqn:E.
  - intros [->|[]]. split; auto. rewrite Nat.sub_diag. exists y. split; auto. now apply Qeq_bool_iff.
  - intros H. apply IH in H as (L & z & Hz & Ez). split; [lia|]. exists z. split; auto. replace (k - i)%nat with (S (k - S i)) by lia. auto.
Qed.
Lemma first_pos_len x : forall l i, (List.length (first_pos x i l) <= 1)%nat.
Proof. induction l as [|y l IH]; intros i; cbn; auto. destruct (Qeq_bool x y); cbn; auto. Qed.
Lemma intersect_len times sel : (List.length (intersect_pos times sel) <= List.length sel)%nat.
Proof.
  unfold intersect_pos. transitivity (List.length (sortedQ (uniq Qeq_bool sel))).
  - induction (sortedQ _) as [|x l IH]; auto. cbn [flat_map List.length]. rewrite app_length. pose proof (first_pos_len x times 0). lia.
  - unfold sortedQ. rewrite <- (Permutation_length (sort_perm Qle_bool _)). apply quniq_len.
Qed.
Lemma intersect_bound times sel k : In k (intersect_pos times sel) -> (k < List.length times)%nat.
Proof.
  intros H. apply in_flat_map in H as (x & _ & H). apply first_pos_spec in H as (_ & y & E & _). rewrite Nat.sub_0_r in E.
  apply nth_error_Some. congruence.
Qed.
Lemma pick_len_le {A} (l : list A) is : (List.length (pick l is) <= List.length is)%nat.
Proof. induction is as [|i is IH]; auto. unfold pick in *. cbn [flat_map List.length]. rewrite app_length. destruct (nth_error l i); cbn; lia. Qed.
Lemma at_len l i : (List.length (at_ l i) <= 1)%nat.
Proof. unfold at_. destruct (nth_error l i); cbn; lia. Qed.
Lemma candidates_len near m times cs c : candidates near m times = Ok cs -> In c cs ->
  (List.length c <= 3)%nat /\ forall i, In i c -> (i < List.length times)%nat.
Proof.
  destruct m; cbn [candidates]; intros [= <-].
  - intros [<-|[]]. split; [|apply intersect_bound]. eapply Nat.le_trans; [apply intersect_len|]. rewrite !app_length.
    pose proof (at_len (sortedQ times) 0). pose proof (at_len (sortedQ times) (near (List.length times) P50)). pose proof (at_len (sortedQ times) (List.length times - 1)). lia.
  - intros [<-|[]]. split; [|apply intersect_bound]. eapply Nat.le_trans; [apply intersect_len|]. rewrite !app_length.
    pose proof (at_len (sortedQ times) (near (List.length times) P16)). pose proof (at_len (sortedQ times) (near (List.length times) P50)). pose proof (at_len (sortedQ times) (near (List.length times) P56)). lia.
  - intros H. apply sort_In, combos_spec in H as (L & _ & F). split; [lia|]. rewrite Forall_forall in F. intros i Hi. specialize (F i Hi). lia.
Qed.
Lemma select_usable near ids times m ts t : List.length times = List.length ids ->
  select_observations near ids times m = Ok ts -> In t ts -> usable ids times t.
Proof.
  intros L. unfold select_observations. destruct (Nat.ltb _ 3); [intros [= <-] []|].
  destruct (candidates near m times) as [cs|] eqn:E; [|discriminate]. cbn [bind]. intros [= <-] H.
  apply in_map_iff in H as (c & <- & H). apply filter_In in H as [H U]. apply Nat.eqb_eq in U.
  destruct (candidates_len _ _ _ _ _ E H) as [Lc B].
  assert (Lc3 : List.length c = 3%nat).
  { pose proof (quniq_len (pick times c) []). unfold uniq in U. pose proof (pick_len_le times c). lia. }
  destruct (triple_at times c B Lc3) as (i & j & k & x & y & z & -> & Ex & Ey & Ez & P).
  rewrite P in U. apply three_distinct in U as (U1 & U2 & U3).
  assert (X : forall i, (i < List.length times)%nat -> exists a, nth_error ids i = Some a).
  { intros i0 H0. rewrite L in H0. apply nth_error_Some in H0. destruct (nth_error ids i0); [eauto|congruence]. }
  destruct (X i) as [a Ea]; [apply B; cbn; auto|]. destruct (X j) as [b Eb]; [apply B; cbn; auto|]. destruct (X k) as [d Ed]; [apply B; cbn; auto|].
  exists a, b, d, x, y, z. unfold pick. cbn. rewrite Ea, Eb, Ed. split; auto. unfold observed. split; [exists i; auto|]. split; [exists j; auto|]. split; [exists k; auto|]. auto.
Qed.
Lemma select_short near ids times m : (List.length ids < 3)%nat -> select_observations near ids times m = Ok [].
Proof. intros H. unfold select_observations. destruct (Nat.ltb_spec (List.length ids) 3); auto; lia. Qed.
Lemma select_unknown near ids times : (3 <= List.length ids)%nat -> select_observations near ids times OtherMethod = Err ValueError.
Proof. intros H. unfold select_observations. destruct (Nat.ltb_spec (List.length ids) 3); auto; lia. Qed.
Lemma select_known near ids times m : m <> OtherMethod -> exists ts, select_observations near ids times m = Ok ts.
Proof. intros H. unfold select_observations. destruct (Nat.ltb _ 3); [eauto|]. destruct m; try congruence; cbn; eauto. Qed.
Lemma sortedQ_sorted l : StronglySorted (fun x y => x <= y)%Q (sortedQ l).
Proof.
  assert (S : StronglySorted (le Qle_bool) (sortedQ l)).
  { apply sort_sorted.
    - intros x y. destruct (Qle_bool x y) eqn:E; auto. right. apply Qle_bool_iff. qb. lra.
    - intros x y z H1 H2. qb. apply Qle_bool_iff. lra. }
  induction S as [|x m S IH F]; constructor; auto. eapply Forall_impl; [|exact F]. intros a H. now apply Qle_bool_iff.
Qed.
Lemma sortedQ_first l x : nth_error (sortedQ l) 0 = Some x -> forall y, In y l -> (x <= y)%Q.
Proof.
  intros H y Hy. apply (sort_In Qle_bool) in Hy. change (In y (sortedQ l)) in Hy. pose proof (sortedQ_sorted l) as S.
  destruct (sortedQ l) as [|z m]; [destruct Hy|]. injection H as ->. destruct Hy as [->|Hy]; [lra|].
  inversion S as [|? ? _ F]; subst. rewrite Forall_forall in F. auto.
Qed.
Lemma sortedQ_last l x : nth_error (sortedQ l) (List.length l - 1) = Some x -> forall y, In y l -> (y <= x)%Q.
Proof.
  intros H y Hy. apply (sort_In Qle_bool) in Hy. change (In y (sortedQ l)) in Hy. pose proof (sortedQ_sorted l) as S.
  assert (L : List.length (sortedQ l) = List.length l) by (symmetry; apply Permutation_length, sort_perm).
  apply In_nth_error in Hy as [p Hp]. assert (p < List.length (sortedQ l))%nat by (apply nth_error_Some; congruence).
  destruct (Nat.eq_dec p (List.length l - 1)) as [->|]; [replace x with y by congruence; lra|].
  eapply (sorted_nth _ _ S p (List.length l - 1)); eauto. lia.
Qed.
Lemma flat_first_pos times S : (List.length S <= 3)%nat -> List.length (flat_map (fun x => first_pos x 0 times) S) = 3%nat ->
  exists v1 v2 v3 i j k, S = [v1; v2; v3] /\ flat_map (fun x => first_pos x 0 times) S = [i; j; k] /\
    In i (first_pos v1 0 times) /\ In j (first_pos v2 0 times) /\ In k (first_pos v3 0 times).
Proof.
  destruct S as [|v1 [|v2 [|v3 [|? ?]]]]; cbn [flat_map List.length]; try lia; rewrite ?app_length; cbn [List.length];
    pose proof (first_pos_len v1 times 0); try (pose proof (first_pos_len v2 times 0)); try (pose proof (first_pos_len v3 times 0)); try lia.
  intros _. destruct (first_pos v1 0 times) as [|i [|]] eqn:E1; cbn in *; try lia. destruct (first_pos v2 0 times) as [|j [|]] eqn:E2; cbn in *; try lia.
  destruct (first_pos v3 0 times) as [|k [|]] eqn:E3; cbn in *; try lia. intros _. exists v1, v2, v3, i, j, k. rewrite E1, E2, E3. cbn. auto 10.
Qed.
Lemma select_ends near ids times ts t : List.length times = List.length ids ->
  select_observations near ids times FirstMiddleLast = Ok ts -> In t ts ->
  ts = [t] /\ exists a b c x y z, t = [a; b; c] /\ observed ids times a x /\ observed ids times b y /\ observed ids times c z /\
    (x < y /\ y < z)%Q /\ forall w, In w times -> (x <= w /\ w <= z)%Q.
Proof.
  intros L. unfold select_observations. destruct (Nat.ltb_spec (List.length ids) 3) as [|H3]; [intros [= <-] []|]. cbn [candidates bind]. intros [= <-].
  cbn [filter]. set (sel := at_ _ 0 ++ _). set (c := intersect_pos times sel).
  destruct (Nat.eqb_spec (List.length (uniq Qeq_bool (pick times c))) 3) as [U|]; [|intros []]. cbn [map]. intros [<-|[]]. split; auto.
  assert (Ls : (List.length sel <= 3)%nat).
  { unfold sel. rewrite !app_length. pose proof (at_len (sortedQ times) 0). pose proof (at_len (sortedQ times) (near (List.length times) P50)). pose proof (at_len (sortedQ times) (List.length times - 1)). lia. }
  assert (Lc3 : List.length c = 3%nat).
  { pose proof (quniq_len (pick times c) []). unfold uniq in U. pose proof (pick_len_le times c). pose proof (intersect_len times sel). fold c in H1. lia. }
  assert (LS : (List.length (sortedQ (uniq Qeq_bool sel)) <= 3)%nat).
  { unfold sortedQ. rewrite <- (Permutation_length (sort_perm Qle_bool _)). pose proof (quniq_len sel []). unfold uniq. lia. }
  destruct (flat_first_pos times _ LS Lc3) as (v1 & v2 & v3 & i & j & k & ES & Ec & P1 & P2 & P3).
  change (c = [i; j; k]) in Ec. apply first_pos_spec in P1 as (_ & x & Ex & Qx), P2 as (_ & y & Ey & Qy), P3 as (_ & z & Ez & Qz).
  rewrite Nat.sub_0_r in Ex, Ey, Ez.
  assert (PT : pick times c = [x; y; z]) by (rewrite Ec; unfold pick; cbn; now rewrite Ex, Ey, Ez).
  rewrite PT in U. apply three_distinct in U as (U1 & U2 & U3).
  assert (X : forall i x, nth_error times i = Some x -> exists a, nth_error ids i = Some a).
  { intros i0 x0 H0. assert (H : (i0 < List.length times)%nat) by (apply nth_error_Some; congruence). rewrite L in H. apply nth_error_Some in H. destruct (nth_error ids i0); [eauto|congruence]. }
  destruct (X _ _ Ex) as [a Ea]. destruct (X _ _ Ey) as [b Eb]. destruct (X _ _ Ez) as [d Ed].
  exists a, b, d, x, y, z. split; [rewrite Ec; unfold pick; cbn; now rewrite Ea, Eb, Ed|].
  split; [exists i; auto|]. split; [exists j; auto|]. split; [exists k; auto|].
  pose proof (sortedQ_sorted (uniq Qeq_bool sel)) as SS. rewrite ES in SS.
  inversion SS as [|? ? S1 F1]; subst. inversion S1 as [|? ? S2 F2]; subst. inversion F1 as [|? ? G1 F3]; subst. inversion F2 as [|? ? G2 _]; subst. inversion F3 as [|? ? G3 _]; subst.
  split; [split; lra|].
  assert (Cov : forall w, In w sel -> (v1 <= w /\ w <= v3)%Q).
  { intros w Hw. destruct (quniq_cover sel [] w Hw) as [(u & Hu & Eu)|(? & [] & _)].
    assert (Hu' : In u [v1; v2; v3]) by (rewrite <- ES; apply sort_In; exact Hu).
    destruct Hu' as [<-|[<-|[<-|[]]]]; lra. }
  assert (Lst : List.length (sortedQ times) = List.length times) by (symmetry; apply Permutation_length, sort_perm).
  destruct (nth_error (sortedQ times) 0) as [w0|] eqn:E0; [|apply nth_error_None in E0; lia].
  destruct (nth_error (sortedQ times) (List.length times - 1)) as [w1|] eqn:E1; [|apply nth_error_None in E1; lia].
  assert (C0 : In w0 sel) by (unfold sel, at_ at 1; rewrite E0; now left).
  assert (C1 : In w1 sel) by (unfold sel; rewrite !in_app_iff; right; right; unfold at_; rewrite E1; now left).
  apply Cov in C0, C1. intros w Hw. pose proof (sortedQ_first _ _ E0 w Hw). pose proof (sortedQ_last _ _ E1 w Hw). split; lra.
Qed.
