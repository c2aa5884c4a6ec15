From Coq Require Import String QArith Lqa Sorted Permutation.
From Verif Require Import Base ListLemmas StrOrder FitModel FitSpec.
Open Scope list_scope.

Lemma qltb_iff a b : qltb a b = true <-> (a < b)%Q.
Proof.
  unfold qltb. rewrite negb_true_iff. split; intros H.
  - apply Qnot_le_lt. intros C. apply Qle_bool_iff in C. congruence.
  - destruct (Qle_bool b a) eqn:E; auto. apply Qle_bool_iff in E. lra.
Qed.
Lemma qltb_false a b : qltb a b = false <-> (b <= a)%Q.
Proof. unfold qltb. rewrite negb_false_iff. apply Qle_bool_iff. Qed.
Lemma qleb_false a b : Qle_bool a b = false <-> (b < a)%Q.
Proof.
  split; intros H.
  - apply Qnot_le_lt. intros C. apply Qle_bool_iff in C. congruence.
  - destruct (Qle_bool a b) eqn:E; auto. apply Qle_bool_iff in E. lra.
Qed.
Ltac qb := repeat match goal with
  | H : qltb _ _ = true |- _ => apply qltb_iff in H
  | H : qltb _ _ = false |- _ => apply qltb_false in H
  | H : Qle_bool _ _ = true |- _ => apply Qle_bool_iff in H
  | H : Qle_bool _ _ = false |- _ => apply qleb_false in H
  | H : (_ <? _)%Z = true |- _ => apply Z.ltb_lt in H
  | H : (_ <? _)%Z = false |- _ => apply Z.ltb_ge in H
  end.

Lemma fleb_spec a b : fleb a b = true <-> at_least_as_good a b.
Proof.
  unfold fleb, at_least_as_good.
  destruct (fo_nobs b <? fo_nobs a)%Z eqn:E1; qb; [split; auto|].
  destruct (fo_nobs a <? fo_nobs b)%Z eqn:E2; qb; [split; [discriminate|lia]|].
  destruct (qltb (fo_arc b) (fo_arc a)) eqn:E3; qb; [split; auto; intros _; right; split; [lia|auto]|].
  destruct (qltb (fo_arc a) (fo_arc b)) eqn:E4; qb.
  - split; [discriminate|]. intros [H|[_ [H|[H _]]]]; [lia|lra|lra].
  - rewrite Qle_bool_iff. split; intros H.
    + right. split; [lia|]. right. split; [lra|auto].
    + destruct H as [H|[_ [H|[_ H]]]]; [lia|lra|auto].
Qed.
Lemma fleb_total a b : fleb a b = true \/ fleb b a = true.
Proof.
  rewrite !fleb_spec. unfold at_least_as_good.
  destruct (Z.lt_trichotomy (fo_nobs a) (fo_nobs b)) as [H|[H|H]]; [right; auto| |left; auto].
  destruct (Q_dec (fo_arc a) (fo_arc b)) as [[H2|H2]|H2].
  - right. right. split; [lia|left; lra].
  - left. right. split; [lia|left; lra].
  - destruct (Qlt_le_dec (fo_rchi2 b) (fo_rchi2 a)); [right|left]; right; (split; [lia|right; split; lra]).
Qed.
Lemma fleb_trans a b c : fleb a b = true -> fleb b c = true -> fleb a c = true.
Proof.
  rewrite !fleb_spec. unfold at_least_as_good.
  intros [H|[H [H1|[H1 H2]]]] [G|[G [G1|[G1 G2]]]];
    try (left; lia); right; (split; [lia|]); try (left; lra); right; split; lra.
Qed.

(* ---------- assign_duplicate_observations ---------- *)
Definition keepm (best : list (string * string)) (m : member) : bool :=
  forallb (fun p => negb (String.eqb (m_obs m) (fst p) && negb (String.eqb (m_orbit m) (snd p)))) best.
Lemma fold_keep best : forall ms,
  fold_left (fun cur p => filter (fun m => negb (String.eqb (m_obs m) (fst p) && negb (String.eqb (m_orbit m) (snd p)))) cur) best ms
  = filter (keepm best) ms.
Proof.
  induction best as [|p best IH]; intros ms; cbn [fold_left].
  - induction ms as [|m ms IHm]; cbn; [auto|]. now f_equal.
  - rewrite IH. clear. induction ms as [|m ms IH]; [auto|].
    cbn [filter keepm forallb].
    destruct (negb _) eqn:E; cbn [filter andb]; rewrite ?IH; auto.
Qed.
Definition bests sorted ms := flat_map (fun obs => match best_orbit sorted ms obs with Some o => [(obs, o)] | None => [] end)
                       (uniq String.eqb (map m_obs ms)).
Lemma bests_In sorted ms obs o : In (obs, o) (bests sorted ms) <-> In obs (map m_obs ms) /\ best_orbit sorted ms obs = Some o.
Proof.
  unfold bests. rewrite in_flat_map. split.
  - intros (x & Hx & H). apply uniq_In in Hx; [|intros; apply String.eqb_eq].
    destruct (best_orbit sorted ms x) eqn:E; [|destruct H].
    destruct H as [H|[]]. injection H as -> ->. auto.
  - intros [H1 H2]. exists obs. rewrite uniq_In by (intros; apply String.eqb_eq). split; auto. rewrite H2. left; auto.
Qed.
Lemma keepm_iff sorted ms m : In m ms ->
  (exists o, best_orbit sorted ms (m_obs m) = Some o) ->
  (keepm (bests sorted ms) m = true <-> best_orbit sorted ms (m_obs m) = Some (m_orbit m)).
Proof.
  intros Hm [o Ho]. unfold keepm. rewrite forallb_forall. split.
  - intros H. specialize (H (m_obs m, o)). cbn in H.
    rewrite String.eqb_refl in H. cbn in H. rewrite negb_involutive in H.
    rewrite (proj1 (String.eqb_eq (m_orbit m) o)); auto.
    apply H. apply bests_In. split; auto. now apply in_map.
  - intros H [obs o'] Hi. apply bests_In in Hi as [_ Hi]. cbn.
    destruct (String.eqb_spec (m_obs m) obs) as [<-|]; auto. cbn.
    rewrite H in Hi. injection Hi as <-. rewrite String.eqb_refl. auto.
Qed.
Lemma contains_iff ms obs o :
  existsb (fun m => String.eqb (m_obs m) obs && String.eqb (m_orbit m) (fo_id o)) ms = true <-> claims ms (fo_id o) obs.
Proof.
  rewrite existsb_exists. unfold claims. split.
  - intros (m & H & E). apply andb_true_iff in E as [E1 E2]. apply String.eqb_eq in E1, E2. eauto.
  - intros (m & H & E1 & E2). exists m. rewrite E1, E2, !String.eqb_refl. auto.
Qed.
Lemma find_sorted {A} (leb : A -> A -> bool) f (l : list A) x :
  StronglySorted (fun a b => leb a b = true) l -> (forall a, leb a a = true) ->
  find f l = Some x -> forall y, In y l -> f y = true -> leb x y = true.
Proof.
  intros S R. induction S as [|a l S IH F]; cbn; [discriminate|].
  destruct (f a) eqn:E.
  - intros [= ->] y [->|Hy] _; auto. rewrite Forall_forall in F. auto.
  - intros H y [->|Hy] Hf; [congruence|auto].
Qed.
Lemma best_some os ms m : consistent os ms -> In m ms ->
  exists o, In o os /\ best_orbit (sort fleb os) ms (m_obs m) = Some (fo_id o) /\ claims ms (fo_id o) (m_obs m) /\
    forall o', In o' os -> claims ms (fo_id o') (m_obs m) -> at_least_as_good o o'.
Proof.
  intros [Hn Hc] Hm. unfold best_orbit.
  destruct (find _ (sort fleb os)) as [o|] eqn:E.
  - pose proof E as E0. apply find_some in E0 as [Hi Hf].
    apply sort_In in Hi. exists o. split; auto. split; auto. split; [now apply contains_iff|].
    intros o' Ho' Hcl. apply fleb_spec. eapply (find_sorted fleb); [ | |exact E| |].
    + apply sort_sorted; [apply fleb_total|apply fleb_trans].
    + intros a. destruct (fleb_total a a); auto.
    + now apply sort_In.
    + now apply contains_iff.
  - exfalso. specialize (Hc m Hm). apply in_map_iff in Hc as (o & Eo & Ho).
    eapply find_none in E; [|apply sort_In; exact Ho]. cbn in E.
    assert (claims ms (fo_id o) (m_obs m)) as H by (exists m; auto).
    apply contains_iff in H. congruence.
Qed.
Lemma subseq_filter {A} (f : A -> bool) l : subseq (filter f l) l.
Proof. induction l; cbn; [constructor|]. destruct (f a); now constructor. Qed.

Lemma assign_fst os ms : let r := assign_duplicate_observations os ms in
  snd r = filter (keepm (bests (sort fleb os) ms)) ms /\
  fst r = filter (fun o => existsb (fun m => String.eqb (m_orbit m) (fo_id o)) (snd r)) (sort fleb os).
Proof. cbn zeta. unfold assign_duplicate_observations. cbn [fst snd]. rewrite fold_keep. auto. Qed.

Lemma keep_iff os ms m : consistent os ms -> In m ms ->
  keepm (bests (sort fleb os) ms) m = true <-> best_orbit (sort fleb os) ms (m_obs m) = Some (m_orbit m).
Proof.
  intros C H. apply keepm_iff; auto. destruct (best_some os ms m C H) as (o & _ & E & _). eauto.
Qed.

Lemma filter_sorted_ {A} (R : A -> A -> Prop) f l : StronglySorted R l -> StronglySorted R (filter f l).
Proof.
  induction 1 as [|a l S IH F]; cbn; [constructor|]. destruct (f a); auto. constructor; auto.
  rewrite Forall_forall in *. intros x Hx. apply filter_In in Hx as [Hx _]. auto.
Qed.
Lemma NoDup_filter_map {A B} (g : A -> B) f l : NoDup (map g l) -> NoDup (map g (filter f l)).
Proof.
  induction l as [|a l IH]; cbn; [auto|]. intros H. inversion H; subst.
  destruct (f a); cbn; auto. constructor; auto. intros C. apply H2.
  apply in_map_iff in C as (x & E & Hx). apply filter_In in Hx as [Hx _]. rewrite <- E. now apply in_map.
Qed.

Lemma assign_members os ms os' ms' : consistent os ms ->
  assign_duplicate_observations os ms = (os', ms') ->
  subseq ms' ms
  /\ (forall m, In m ms -> exists m', In m' ms' /\ m_obs m' = m_obs m)
  /\ (forall m m', In m ms' -> In m' ms' -> m_obs m = m_obs m' -> m_orbit m = m_orbit m')
  /\ (forall m o o', In m ms' -> In o os -> In o' os -> fo_id o = m_orbit m ->
        claims ms (fo_id o') (m_obs m) -> at_least_as_good o o')
  /\ (forall m m', In m ms -> In m' ms' -> m_obs m = m_obs m' -> m_orbit m = m_orbit m' -> In m ms').
Proof.
  intros C E. destruct (assign_fst os ms) as [E2 _]. rewrite E in E2. cbn in E2.
  assert (K : forall m, In m ms' <-> In m ms /\ best_orbit (sort fleb os) ms (m_obs m) = Some (m_orbit m)).
  { intros m. rewrite E2, filter_In. split; intros [H1 H2]; split; auto; eapply keep_iff; eauto. }
  repeat apply conj.
  - rewrite E2. apply subseq_filter.
  - intros m Hm. destruct (best_some os ms m C Hm) as (o & Ho & Eb & (m' & Hm' & E1 & E3) & _).
    exists m'. split; auto. apply K. split; auto. rewrite E3, E1. auto.
  - intros m m' H H' Ee. apply K in H as [_ H]. apply K in H' as [_ H']. rewrite Ee in H. congruence.
  - intros m o o' Hm Ho Ho' Ei Hc. apply K in Hm as [Hm Hb].
    destruct (best_some os ms m C Hm) as (b & Hbo & Eb & _ & Hbest).
    rewrite Eb in Hb. injection Hb as Hb.
    assert (o = b) as ->; [|auto].
    destruct C as [Hn _]. clear - Hn Ho Hbo Ei Hb.
    assert (fo_id o = fo_id b) as Ee by congruence. clear Ei Hb.
    induction os as [|x os IH]; [destruct Ho|]. inversion Hn; subst.
    destruct Ho as [<-|Ho], Hbo as [<-|Hbo]; auto.
    + exfalso. apply H1. rewrite Ee. now apply in_map.
    + exfalso. apply H1. rewrite <- Ee. now apply in_map.
  - intros m m' H H' Ee Eo. apply K. split; auto. apply K in H' as [_ H']. congruence.
Qed.

Lemma assign_orbits os ms os' ms' : consistent os ms ->
  assign_duplicate_observations os ms = (os', ms') ->
  (forall o, In o os' <-> In o os /\ exists m, In m ms' /\ m_orbit m = fo_id o)
  /\ NoDup (map fo_id os')
  /\ (forall m, In m ms' -> In (m_orbit m) (map fo_id os'))
  /\ StronglySorted at_least_as_good os'.
Proof.
  intros C E. destruct (assign_fst os ms) as [E2 E1]. rewrite E in E2, E1. cbn in E2, E1.
  assert (O : forall o, In o os' <-> In o os /\ exists m, In m ms' /\ m_orbit m = fo_id o).
  { intros o. rewrite E1, filter_In, sort_In, existsb_exists. split; intros [H (m & Hm & Ee)]; split; auto; exists m; split; auto;
      now apply String.eqb_eq. }
  repeat apply conj; auto.
  - rewrite E1. apply NoDup_filter_map.
    eapply Permutation_NoDup; [apply Permutation_map, sort_perm|apply C].
  - intros m Hm. assert (Hin : In m ms) by (rewrite E2 in Hm; now apply filter_In in Hm).
    destruct C as [Hn Hc]. specialize (Hc m Hin). apply in_map_iff in Hc as (o & Eo & Ho).
    rewrite <- Eo. apply in_map. apply O. split; auto. eauto.
  - rewrite E1. apply filter_sorted_.
    assert (S : StronglySorted (fun a b => fleb a b = true) (sort fleb os)) by (apply sort_sorted; [apply fleb_total|apply fleb_trans]).
    clear - S. induction S as [|a l S IH F]; constructor; auto.
    rewrite Forall_forall in *. intros x Hx. apply fleb_spec; auto.
Qed.

Lemma filter_filter_len {A} (f g : A -> bool) l :
  (List.length (filter f (filter g l)) <= List.length (filter f l))%nat /\
  (List.length (filter f (filter g l)) = List.length (filter f l) <-> (forall x, In x l -> f x = true -> g x = true)).
Proof.
  induction l as [|a l [IH1 IH2]]; cbn; [split; [lia|split; [intros _ x []|auto]]|].
  destruct (g a) eqn:G; cbn; destruct (f a) eqn:F; cbn; split; try lia.
  - split; intros H.
    + intros x [<-|Hx] Hf; auto. apply IH2; auto.
    + f_equal. apply IH2. intros; auto.
  - rewrite IH2. split; intros H x; [intros [<-|Hx] Hf; auto; congruence|auto].
  - split; intros H; [lia|]. specialize (H a (or_introl eq_refl) F). congruence.
  - rewrite IH2. split; intros H x; [intros [<-|Hx] Hf; auto; congruence|auto].
Qed.

Lemma assign_counts os ms os' ms' : consistent os ms ->
  (forall o, In o os -> fo_nobs o = Z.of_nat (List.length (members_of ms (fo_id o)))) ->
  assign_duplicate_observations os ms = (os', ms') ->
  forall o, In o os' ->
    (Z.of_nat (List.length (members_of ms' (fo_id o))) <= fo_nobs o)%Z /\
    (fo_nobs o = Z.of_nat (List.length (members_of ms' (fo_id o))) <->
     forall m, In m ms -> m_orbit m = fo_id o -> In m ms').
Proof.
  intros C Hn E o Ho. destruct (assign_orbits _ _ _ _ C E) as (O & _). apply O in Ho as [Ho _].
  destruct (assign_fst os ms) as [E2 _]. rewrite E in E2. cbn in E2.
  rewrite (Hn o Ho). unfold members_of. rewrite E2.
  destruct (filter_filter_len (fun m => String.eqb (m_orbit m) (fo_id o)) (keepm (bests (sort fleb os) ms)) ms) as [L1 L2].
  split; [lia|]. split.
  - intros H m Hm Eo. apply filter_In. split; auto. apply L2; auto; [lia|]. now apply String.eqb_eq.
  - intros H. f_equal. symmetry. apply L2. intros m Hm Em. apply String.eqb_eq in Em.
    specialize (H m Hm Em). apply filter_In in H. tauto.
Qed.

(* ---------- drop_duplicate_orbits ---------- *)
Section Drop.
  Context {A K : Type} (key : A -> K) (same : A -> A -> bool).
  Hypothesis same_spec : forall a b, same a b = true <-> key a = key b.

  Lemma memb_key x l : memb same x l = true <-> In (key x) (map key l).
  Proof.
    induction l as [|y l IH]; cbn; [split; [discriminate|tauto]|].
    rewrite orb_true_iff, IH, same_spec. split; intros [H|H]; auto.
  Qed.
  Lemma uniq_aux_first : forall l seen x,
    In x (uniq_aux same seen l) <-> first_with key l x /\ ~ In (key x) (map key seen).
  Proof.
    induction l as [|y l IH]; intros seen x; cbn.
    - split; [intros []|]. intros [(l1 & l2 & E & _) _]. destruct l1; discriminate.
    - destruct (memb same y seen) eqn:E.
      + rewrite IH. apply memb_key in E. split.
        * intros [(l1 & l2 & -> & H1) H2]. split; auto. exists (y :: l1), l2. split; auto.
          cbn. intros [C|C]; auto. apply H2. now rewrite <- C.
        * intros [(l1 & l2 & E1 & H1) H2]. split; auto. destruct l1 as [|z l1]; cbn in E1; injection E1 as -> ->; [tauto|].
          exists l1, l2. split; auto. intros C. apply H1. now right.
      + assert (N : ~ In (key y) (map key seen)) by (intros C; apply memb_key in C; congruence).
        cbn. rewrite IH. split.
        * intros [<-|[(l1 & l2 & -> & H1) H2]].
          -- split; auto. exists [], l. split; auto.
          -- cbn in H2. split; [|tauto]. exists (y :: l1), l2. split; auto. cbn. intros [C|C]; auto.
        * intros [(l1 & l2 & E1 & H1) H2]. destruct l1 as [|z l1]; cbn in E1; injection E1 as -> ->; [auto|].
          cbn in H1. right. split; [exists l1, l2; split; auto|]. cbn. intros [C|C]; auto.
  Qed.
  Lemma uniq_aux_keys : forall l seen, NoDup (map key (uniq_aux same seen l)).
  Proof.
    induction l as [|y l IH]; intros seen; cbn; [constructor|].
    destruct (memb same y seen); auto. cbn. constructor; auto.
    intros C. apply in_map_iff in C as (x & E & Hx). apply uniq_aux_first in Hx as [_ Hx]. apply Hx. cbn. auto.
  Qed.
  Lemma uniq_aux_sub : forall l seen, subseq (uniq_aux same seen l) l.
  Proof. induction l; intros; cbn; [constructor|]. destruct (memb same a seen); now constructor. Qed.
  Lemma first_with_rev l x : first_with key (rev l) x <-> last_with key l x.
  Proof.
    unfold first_with, last_with. split; intros (l1 & l2 & E & H).
    - exists (rev l2), (rev l1). split.
      + rewrite <- (rev_involutive l), E, rev_app_distr. cbn. now rewrite <- app_assoc.
      + rewrite map_rev, <- in_rev. auto.
    - exists (rev l2), (rev l1). split.
      + rewrite E, rev_app_distr. cbn. now rewrite <- app_assoc.
      + rewrite map_rev, <- in_rev. auto.
  Qed.
  Lemma drop_keys keep l x : In x (drop_duplicates same keep l) <-> (if keep then first_with key l x else last_with key l x).
  Proof.
    destruct keep; cbn.
    - unfold uniq. rewrite uniq_aux_first. cbn. tauto.
    - rewrite <- in_rev. unfold uniq. rewrite uniq_aux_first. cbn. rewrite first_with_rev. tauto.
  Qed.
  Lemma drop_unique keep l : NoDup (map key (drop_duplicates same keep l)).
  Proof.
    destruct keep; cbn; [apply uniq_aux_keys|]. rewrite map_rev. apply NoDup_rev. apply uniq_aux_keys.
  Qed.
  Lemma first_exists l x : In x l -> exists y, first_with key l y /\ key y = key x.
  Proof.
    intros H. induction l as [|z l IH]; [destruct H|].
    destruct (same z x) eqn:Ez.
    - exists z. split; [exists [], l; auto|]. now apply same_spec.
    - assert (key z <> key x) by (intros C; apply same_spec in C; congruence).
      destruct H as [->|H]; [congruence|]. destruct (IH H) as (y & (l1 & l2 & -> & N) & Ey).
      exists y. split; auto. exists (z :: l1), l2. split; auto. cbn. intros [C|C]; congruence.
  Qed.
  Lemma drop_covers keep l x : In x l -> exists y, In y (drop_duplicates same keep l) /\ key y = key x.
  Proof.
    intros H. destruct keep.
    - destruct (first_exists l x H) as (y & Hy & E). exists y. split; auto. now apply drop_keys.
    - destruct (first_exists (rev l) x) as (y & Hy & E); [now apply -> in_rev|]. exists y. split; auto. apply drop_keys. now apply first_with_rev.
  Qed.
End Drop.
Lemma drop_members {A} id (same : A -> A -> bool) keep os ms os' ms' :
  drop_duplicate_orbits id same keep os ms = (os', ms') ->
  os' = drop_duplicates same keep os /\ subseq ms' ms /\
  (forall m, In m ms' <-> In m ms /\ In (m_orbit m) (map id os')) /\
  (forall i, In i (map id os') -> members_of ms' i = members_of ms i).
Proof.
  unfold drop_duplicate_orbits. intros [= E1 E2]. rewrite E1 in E2.
  assert (X : forall m, existsb (fun o => String.eqb (m_orbit m) (id o)) os' = true <-> In (m_orbit m) (map id os')).
  { intros m. rewrite existsb_exists, in_map_iff. split; intros (o & H & G); exists o.
    - apply String.eqb_eq in G. auto.
    - rewrite H, String.eqb_refl. auto. }
  repeat apply conj; auto.
  - rewrite <- E2. apply subseq_filter.
  - intros m. rewrite <- E2, filter_In, X. tauto.
  - intros i Hi. unfold members_of. rewrite <- E2. clear E2. induction ms as [|m ms IH]; cbn; auto.
    destruct (existsb _ os') eqn:Ex; cbn; rewrite IH; auto.
    destruct (String.eqb_spec (m_orbit m) i) as [<-|]; auto. apply X in Hi. congruence.
Qed.

(* ---------- remove_lowest_probability_observation ---------- *)
Definition qmin_step (acc p : option Q) : option Q :=
  match acc, p with Some a, Some b => Some (if Qle_bool a b then a else b) | None, q => q | a, None => a end.
Lemma qmin_fold l : forall acc,
  match fold_left qmin_step l acc with
  | None => acc = None /\ (forall p, ~ In (Some p) l)
  | Some a => (acc = Some a \/ In (Some a) l) /\ (forall p, acc = Some p \/ In (Some p) l -> (a <= p)%Q)
  end.
Proof.
  induction l as [|x l IH]; intros acc; cbn [fold_left].
  - destruct acc; [|auto]. split; auto. intros p [[= ->]|[]]. lra.
  - specialize (IH (qmin_step acc x)). destruct (fold_left qmin_step l (qmin_step acc x)) as [a|].
    + destruct IH as [I1 I2]. destruct acc as [c|], x as [d|]; cbn in *.
      * destruct (Qle_bool c d) eqn:E; qb.
        -- split; [destruct I1 as [[= ->]|]; auto|]. intros p [[= ->]|[[= ->]|H]]; [apply I2; auto| |apply I2; auto].
           specialize (I2 c (or_introl eq_refl)). lra.
        -- split; [destruct I1 as [[= ->]|]; auto|]. intros p [[= ->]|[[= ->]|H]]; [|apply I2; auto|apply I2; auto].
           specialize (I2 d (or_introl eq_refl)). lra.
      * split; [tauto|]. intros p [H|[H|H]]; [apply I2; auto|discriminate|apply I2; auto].
      * split; [tauto|]. intros p [H|[H|H]]; [discriminate|apply I2; auto|apply I2; auto].
      * split; [destruct I1; auto; discriminate|]. intros p [H|[H|H]]; try discriminate. apply I2; auto.
    + destruct IH as [I1 I2]. destruct acc as [c|], x as [d|]; cbn in *; try discriminate. split; auto.
      intros p [H|H]; [discriminate|]. eapply I2; eauto.
Qed.
Lemma argmax_from_spec l : forall best bv i pre,
  List.length pre = i -> nth_error pre best = Some bv -> (forall x, In x pre -> (x <= bv)%Q) ->
  exists v, nth_error (pre ++ l) (argmax_from best bv i l) = Some v /\ forall x, In x (pre ++ l) -> (x <= v)%Q.
Proof.
  induction l as [|y l IH]; intros best bv i pre Hl Hb Hx; cbn [argmax_from].
  - exists bv. rewrite app_nil_r. auto.
  - assert (Hb' : nth_error (pre ++ [y]) best = Some bv).
    { rewrite nth_error_app1; auto. apply nth_error_Some. congruence. }
    replace (pre ++ y :: l) with ((pre ++ [y]) ++ l) by now rewrite <- app_assoc.
    destruct (qltb bv y) eqn:E; qb.
    + apply IH.
      * rewrite app_length. cbn. lia.
      * subst i. now rewrite nth_error_app2, Nat.sub_diag by lia.
      * intros x Hi. apply in_app_or in Hi as [Hi|[<-|[]]]; [specialize (Hx x Hi); lra|lra].
    + apply IH; auto.
      * rewrite app_length. cbn. lia.
      * intros x Hi. apply in_app_or in Hi as [Hi|[<-|[]]]; [auto|lra].
Qed.
Lemma argmax_spec l : l <> [] -> exists v, nth_error l (argmax l) = Some v /\ forall x, In x l -> (x <= v)%Q.
Proof.
  destruct l as [|x r]; [congruence|]. intros _. cbn [argmax].
  apply (argmax_from_spec r 0 x 1 [x]); auto. intros y [<-|[]]. lra.
Qed.

Definition single_orbit (ms : list member) := List.length (uniq String.eqb (map m_orbit ms)) = 1%nat.
Lemma single_orbit_iff ms : single_orbit ms <-> exists id, ms <> [] /\ forall m, In m ms -> m_orbit m = id.
Proof.
  unfold single_orbit. split.
  - intros H. destruct (uniq String.eqb (map m_orbit ms)) as [|i [|]] eqn:E; try discriminate.
    exists i. split; [intros ->; discriminate|]. intros m Hm.
    assert (Hi : In (m_orbit m) (uniq String.eqb (map m_orbit ms))) by (apply uniq_In; [intros; apply String.eqb_eq|now apply in_map]).
    rewrite E in Hi. destruct Hi as [|[]]; auto.
  - intros (id & Hne & H). destruct ms as [|m ms]; [congruence|].
    assert (N : NoDup (uniq String.eqb (map m_orbit (m :: ms)))) by (apply uniq_NoDup; intros; apply String.eqb_eq).
    assert (A : forall x, In x (uniq String.eqb (map m_orbit (m :: ms))) -> x = id).
    { intros x Hx. apply uniq_In in Hx; [|intros; apply String.eqb_eq]. apply in_map_iff in Hx as (y & <- & Hy). auto. }
    assert (B : In id (uniq String.eqb (map m_orbit (m :: ms)))).
    { apply uniq_In; [intros; apply String.eqb_eq|]. rewrite <- (H m (or_introl eq_refl)). now left. }
    destruct (uniq String.eqb (map m_orbit (m :: ms))) as [|a [|b u]]; [destruct B|auto|].
    exfalso. inversion N; subst. apply H2. rewrite (A a), (A b); cbn; auto.
Qed.
Lemma existsb_eqb_In x l : existsb (String.eqb x) l = true <-> In x l.
Proof.
  rewrite existsb_exists. split; [intros (y & H & E); apply String.eqb_eq in E; now subst|].
  intros H. exists x. now rewrite String.eqb_refl.
Qed.

Lemma remove_cases ms obs :
  match remove_lowest_probability_observation ms obs with
  | Err e => (e = AssertionError /\ (~ (exists id, ms <> [] /\ forall m, In m ms -> m_orbit m = id) \/ exists m, In m ms /\ ~ In (m_obs m) obs)) \/
             (e = IndexError /\ forall m, In m ms -> m_prob m = None)
  | Ok (w, obs') => (exists m, worst_member ms m /\ m_obs m = w) /\ subseq obs' obs /\
      forall o, In o obs' <-> In o obs /\ o <> w /\ In o (map m_obs ms)
  end.
Proof.
  unfold remove_lowest_probability_observation.
  destruct (Nat.eqb _ 1) eqn:E1; cbn [negb].
  2:{ left. split; auto. left. intros C. apply single_orbit_iff in C. apply Nat.eqb_neq in E1. auto. }
  destruct (forallb _ ms) eqn:E2; cbn [negb].
  2:{ left. split; auto. right. apply not_true_iff_false in E2.
      assert (D : (exists m, In m ms /\ ~ In (m_obs m) obs) \/ forall m, In m ms -> In (m_obs m) obs).
      { clear. induction ms as [|m ms IH]; [right; intros m []|]. destruct IH as [(x & Hx & N)|IH]; [left; exists x; cbn; auto|].
        destruct (in_dec string_dec (m_obs m) obs); [right; intros y [<-|]; auto|left; exists m; cbn; auto]. }
      destruct D as [D|D]; auto. exfalso. apply E2. apply forallb_forall. intros m Hm. apply existsb_eqb_In. auto. }
  pose proof (qmin_fold (map m_prob ms) None) as Q. change (fold_left qmin_step (map m_prob ms) None) with (qmin_opt (map m_prob ms)) in Q.
  destruct (qmin_opt (map m_prob ms)) as [lo|] eqn:El.
  - destruct Q as [Q1 Q2]. destruct Q1 as [Q1|Q1]; [discriminate|].
    set (worst := filter _ ms).
    assert (W : forall m, In m worst <-> In m ms /\ exists p, m_prob m = Some p /\ (p == lo)%Q).
    { intros m. unfold worst. rewrite filter_In. split; intros [H G]; split; auto.
      - destruct (m_prob m) as [p|]; [|discriminate]. exists p. split; auto. now apply Qeq_bool_iff.
      - destruct G as (p & -> & G). now apply Qeq_bool_iff. }
    assert (NE : worst <> []).
    { apply in_map_iff in Q1 as (m & Ep & Hm). intros C. assert (In m worst) as H; [|rewrite C in H; destruct H].
      apply W. split; auto. exists lo. split; auto. reflexivity. }
    destruct (argmax_spec (map m_sq worst)) as (v & Hv & Hmax); [destruct worst; [congruence|discriminate]|].
    rewrite nth_error_map in Hv. destruct (nth_error worst (argmax (map m_sq worst))) as [w|] eqn:Ew; [|discriminate].
    cbn in Hv. injection Hv as <-. assert (Hw : In w worst) by (eapply nth_error_In; eauto).
    apply W in Hw as [Hw (p & Hp & Hlo)]. repeat apply conj.
    + exists w. split; auto. split; auto. exists p. split; auto. intros m' p' Hm' Hp'.
      assert (G : (lo <= p')%Q) by (apply Q2; right; rewrite <- Hp'; now apply in_map).
      destruct (Qlt_le_dec p p'); [left; auto|right]. split; [lra|]. apply Hmax. apply in_map. apply W. split; auto.
      exists p'. split; auto. lra.
    + apply subseq_filter.
    + intros o. rewrite filter_In, existsb_eqb_In, in_map_iff. split.
      * intros [Ho (m & <- & Hm)]. apply filter_In in Hm as [Hm N]. split; auto. split; [|now apply in_map].
        apply negb_true_iff in N. now apply String.eqb_neq in N.
      * intros (Ho & N & Hm). split; auto. apply in_map_iff in Hm as (m & <- & Hm). exists m. split; auto.
        apply filter_In. split; auto. apply negb_true_iff. now apply String.eqb_neq.
  - destruct Q as [_ Q].
    assert (F : filter (fun m => match m_prob m with Some a => false | None => false end) ms = []) by (clear; induction ms as [|m ms IH]; cbn; auto; destruct (m_prob m); auto).
    match goal with |- context [filter ?f ms] => replace (filter f ms) with (@nil member) by (symmetry; etransitivity; [|exact F]; apply filter_ext; intros m; destruct (m_prob m); auto) end.
    cbn. right. split; auto. intros m Hm. destruct (m_prob m) as [p|] eqn:E; auto. exfalso. apply (Q p). rewrite <- E. now apply in_map.
Qed.
Lemma subseq_eq_filter {A} (f : A -> bool) l' l : subseq l' l -> (forall x, In x l' -> f x = true) ->
  (List.length l' = List.length (filter f l)) -> l' = filter f l.
Proof.
  intros S. induction S as [|x l m S IH|x l m S IH]; cbn; auto.
  - intros H. rewrite (H x (or_introl eq_refl)). cbn. intros E. f_equal. apply IH; auto.
  - intros H. destruct (f x) eqn:Fx; cbn; auto. intros E. exfalso.
    assert (List.length l <= List.length (filter f m))%nat; [|lia].
    clear - S H. induction S as [|y l m S IH|y l m S IH]; cbn; [lia| |].
    + rewrite (H y (or_introl eq_refl)). cbn. assert (List.length l <= List.length (filter f m))%nat; [apply IH; intros; apply H; cbn; auto|lia].
    + specialize (IH H). destruct (f y); cbn; lia.
Qed.
Lemma remove_exact ms obs w obs' : remove_lowest_probability_observation ms obs = Ok (w, obs') ->
  (forall o, In o obs -> In o (map m_obs ms)) -> obs' = filter (fun o => negb (String.eqb o w)) obs.
Proof.
  intros H Hall. pose proof (remove_cases ms obs) as C. rewrite H in C. destruct C as (_ & _ & C).
  revert H. unfold remove_lowest_probability_observation.
  destruct (negb (Nat.eqb _ 1)); [discriminate|]. destruct (negb (forallb _ ms)); [discriminate|].
  destruct (nth_error _ _) as [m|]; [|discriminate]. intros [= <- E]. rewrite <- E in C |- *.
  apply filter_ext_in. intros o Ho. specialize (C o). rewrite filter_In in C.
  destruct (String.eqb_spec o (m_obs m)) as [->|N]; cbn.
  - apply not_true_iff_false. intros X. destruct C as [C _]. destruct (C (conj Ho X)) as (_ & N & _). congruence.
  - apply C. auto.
Qed.

(* ---------- evaluate_orbits ---------- *)
From Verif Require PropProofs.
Section EvaluateProofs.
  Context {O V P R : Type}.
  Variable oid : O -> string.
  Variable predict : O -> Z * Z -> string -> P.
  Variable resid : V -> P -> R.
  Variable chi2 : R -> Q.
  Variable dof : R -> Z.
  Notation observation := (@observation V).

  Lemma oleb_obs_total (a b : observation) : oleb_obs a b = true \/ oleb_obs b a = true.
  Proof.
    unfold oleb_obs. destruct (ob_time a) as [d n], (ob_time b) as [d' n'].
    destruct (d <? d')%Z eqn:E1, (d' <? d)%Z eqn:E2; auto.
    destruct (n <? n')%Z eqn:E3, (n' <? n)%Z eqn:E4; auto. apply str_leb_total.
  Qed.
  Definition pairs (obs : list observation) := combine obs (sort oleb_obs obs).
  Definition pres (o : O) (p : observation * observation) : R :=
    resid (ob_value (fst p)) (predict o (ob_time (snd p)) (ob_code (snd p))).
  Lemma pairs_fst obs : map fst (pairs obs) = obs.
  Proof.
    unfold pairs. pose proof (sort_length oleb_obs obs) as L. revert L. generalize (sort oleb_obs obs) as l.
    induction obs; intros [|x l]; cbn; intros L; try discriminate; auto. f_equal. auto.
  Qed.
  Lemma NoDup_uniq_length l : (List.length l = List.length (uniq String.eqb l)) <-> NoDup l.
  Proof.
    split; intros H.
    - assert (G : forall l seen, (List.length (uniq_aux String.eqb seen l) <= List.length l)%nat).
      { clear. induction l as [|a l IH]; intros seen; cbn; auto. destruct (memb String.eqb a seen); cbn; [specialize (IH seen)|specialize (IH (a :: seen))]; lia. }
      assert (G2 : forall l seen, List.length l = List.length (uniq_aux String.eqb seen l) -> NoDup l /\ forall x, In x l -> ~ In x seen).
      { clear H. induction l0 as [|a l0 IH]; intros seen H; cbn in *; [split; [constructor|intros x []]|].
        destruct (memb String.eqb a seen) eqn:E; cbn in H; [specialize (G l0 seen); lia|].
        destruct (IH (a :: seen)) as [N D]; [lia|]. split.
        - constructor; auto. intros C. apply (D a C). now left.
        - intros x [<-|Hx]; [intros C; apply (memb_In String.eqb String.eqb_eq) in C; congruence|].
          intros C. apply (D x Hx). now right. }
      apply (G2 l []). exact H.
    - now rewrite uniq_NoDup_id by (auto; intros; apply String.eqb_eq).
  Qed.

  Lemma zip_blocks {A B C} (obs : list A) (f : C -> list B) : forall (ns : list O) (os : list C),
    List.length ns = List.length os -> (forall o, In o os -> List.length (f o) = List.length obs) ->
    zip_opt (concat (map (fun _ => obs) ns)) (flat_map f os) = Some (flat_map (fun o => combine obs (f o)) os).
  Proof.
    induction ns as [|n ns IH]; intros [|o os] L H; try discriminate; auto.
    cbn [map concat flat_map].
    rewrite PropProofs.zip_opt_ok.
    - rewrite PropProofs.combine_app_ by (symmetry; apply H; now left). do 2 f_equal.
      assert (E := IH os ltac:(cbn in L; lia) ltac:(intros; apply H; now right)).
      destruct (zip_opt_length _ _ _ E) as [EL _]. rewrite PropProofs.zip_opt_ok in E by auto. now injection E.
    - rewrite !app_length. rewrite (H o) by now left. f_equal.
      assert (E := IH os ltac:(cbn in L; lia) ltac:(intros; apply H; now right)).
      now destruct (zip_opt_length _ _ _ E).
  Qed.
  Lemma filter_block {A} (g : O -> list A) (lab : A -> string) (os : list O) o : NoDup (map oid os) -> In o os ->
    (forall o x, In x (g o) -> lab x = oid o) ->
    filter (fun x => String.eqb (lab x) (oid o)) (flat_map g os) = g o.
  Proof.
    intros N Hi Hl. induction os as [|a os IH]; [destruct Hi|]. cbn [flat_map]. rewrite filter_app.
    assert (Z0 : forall a', oid a' <> oid o -> filter (fun x => String.eqb (lab x) (oid o)) (g a') = []).
    { intros a' Hne. assert (Hx : forall x, In x (g a') -> String.eqb (lab x) (oid o) = false).
      { intros x Hx. rewrite (Hl a' x Hx). now apply String.eqb_neq. }
      clear - Hx. induction (g a') as [|y l IHl]; cbn; auto. rewrite (Hx y) by now left. apply IHl. intros; apply Hx; now right. }
    inversion N; subst. destruct Hi as [<-|Hi].
    - assert (E1 : filter (fun x => String.eqb (lab x) (oid a)) (g a) = g a).
      { assert (Hx : forall x, In x (g a) -> String.eqb (lab x) (oid a) = true) by (intros x Hx; apply String.eqb_eq; eauto).
        clear - Hx. induction (g a) as [|y l IHl]; cbn; auto. rewrite (Hx y) by now left. f_equal. apply IHl. intros; apply Hx; now right. }
      rewrite E1. replace (filter _ (flat_map g os)) with (@nil A); [apply app_nil_r|].
      symmetry. clear - H1 Z0. induction os as [|b os IHo]; cbn; auto. rewrite filter_app, Z0, IHo; auto.
      + cbn in H1. tauto.
      + intros E. apply H1. cbn. auto.
    - rewrite Z0, IH; auto. intros E. apply H1. rewrite E. now apply in_map.
  Qed.

  Variable parameters : Z.
  Variable ignore : list string.
  Definition outb (b : observation) := existsb (String.eqb (ob_id b)) ignore.
  Definition span (u : observation) (us : list observation) : Z := (fold_left Z.max (map ons us) (ons u) - fold_left Z.min (map ons us) (ons u))%Z.

  Lemma evaluate_any orbits obs u us : NoDup (map oid orbits) -> orbits <> [] ->
    filter (fun b => negb (outb b)) obs = u :: us ->
    evaluate_orbits oid predict resid chi2 dof orbits obs parameters ignore =
    Ok (map (fun o => let rs := map (pres o) (filter (fun p => negb (outb (fst p))) (pairs obs)) in
                 let c := qsum (map chi2 rs) in let d := (zsum (map dof rs) - parameters)%Z in
                 mkfo (oid o) (List.length (u :: us)) (span u us) c (if (d =? 0)%Z then None else Some (c / inject_Z d)%Q))
            (sort (fun a b => str_leb (oid a) (oid b)) orbits),
        flat_map (fun o => map (fun p => mkfm (oid o) (ob_id (fst p)) (pres o p) (outb (fst p))) (pairs obs))
                 (sort (fun a b => str_leb (oid a) (oid b)) orbits)).
  Proof.
    intros Hn Hne Hu. unfold evaluate_orbits.
    pose proof Hn as Hn'. apply NoDup_uniq_length in Hn'. rewrite map_length in Hn'. rewrite Hn', Nat.eqb_refl. cbn [negb].
    destruct orbits as [|o0 orest] eqn:Eo; [congruence|]. rewrite <- Eo in *. clear Eo o0 orest Hne Hn'.
    unfold ephemeris_rows. set (os := sort (fun a b => str_leb (oid a) (oid b)) orbits).
    rewrite zip_blocks; [|symmetry; apply sort_length|intros; now rewrite map_length, sort_length].
    change (fun b : observation => negb (existsb (String.eqb (ob_id b)) ignore)) with (fun b => negb (outb b)).
    rewrite Hu.
    assert (Nos : NoDup (map oid os)).
    { eapply Permutation_NoDup; [apply Permutation_map, sort_perm|auto]. }
    assert (EB : forall o, combine obs (map (fun b : observation => (oid o, predict o (ob_time b) (ob_code b))) (sort oleb_obs obs))
                 = map (fun p => (fst p, (oid o, predict o (ob_time (snd p)) (ob_code (snd p))))) (pairs obs)).
    { intros o. unfold pairs. generalize (sort oleb_obs obs) as l. clear. induction obs as [|b obs IH]; intros [|x l]; cbn; auto. now rewrite IH. }
    assert (ER : flat_map (fun o => combine obs (map (fun b => (oid o, predict o (ob_time b) (ob_code b))) (sort oleb_obs obs))) os
      = flat_map (fun o => map (fun p => (fst p, (oid o, predict o (ob_time (snd p)) (ob_code (snd p))))) (pairs obs)) os).
    { apply flat_map_ext. auto. }
    rewrite ER. clear ER EB. f_equal. f_equal.
    - apply map_ext_in. intros o Ho.
      match goal with |- context [filter (fun r : string * R => _) ?rs] => set (res := rs) end.
      assert (EF : filter (fun r : string * R => String.eqb (fst r) (oid o)) res = map (fun p => (oid o, pres o p)) (pairs obs)).
      { transitivity (filter (fun r : string * R => String.eqb (fst r) (oid o)) (flat_map (fun o => map (fun p => (oid o, pres o p)) (pairs obs)) os)).
        - f_equal. unfold res. rewrite flat_map_concat_map, concat_map, map_map, <- flat_map_concat_map.
          apply flat_map_ext. intros o'. rewrite map_map. apply map_ext. intros p. reflexivity.
        - apply (filter_block (fun o => map (fun p => (oid o, pres o p)) (pairs obs)) fst); auto.
          intros o' x Hx. apply in_map_iff in Hx as (p & <- & _). reflexivity. }
      assert (EI : map snd (filter (fun p => negb (existsb (String.eqb (ob_id (fst p))) ignore)) (combine obs (map snd (filter (fun r : string * R => String.eqb (fst r) (oid o)) res))))
                   = map (pres o) (filter (fun p => negb (outb (fst p))) (pairs obs))).
      { rewrite EF, map_map. cbn [snd]. rewrite <- (pairs_fst obs) at 1. clear.
        induction (pairs obs) as [|p l IH]; auto. cbn [map combine filter fst snd]. change (existsb (String.eqb (ob_id (fst p))) ignore) with (outb (fst p)).
        destruct (negb (outb (fst p))); cbn [map fst snd]; rewrite IH; auto. }
      cbv zeta. rewrite EI. reflexivity.
    - set (rows := flat_map _ os).
      transitivity (map (fun r : observation * (string * P) => mkfm (fst (snd r)) (ob_id (fst r)) (resid (ob_value (fst r)) (snd (snd r))) (outb (fst r))) rows).
      + clear. induction rows as [|r l IH]; cbn [map combine]; auto. f_equal; auto.
      + unfold rows. rewrite flat_map_concat_map, concat_map, map_map, <- flat_map_concat_map.
        apply flat_map_ext. intros o. rewrite map_map. apply map_ext. intros p. reflexivity.
  Qed.

  Lemma fold_max_ge l : forall a, (a <= fold_left Z.max l a)%Z /\ (forall x, In x l -> (x <= fold_left Z.max l a)%Z) /\ (fold_left Z.max l a = a \/ In (fold_left Z.max l a) l).
  Proof.
    induction l as [|y l IH]; intros a; cbn [fold_left]; [split; [lia|split; [intros x []|auto]]|].
    destruct (IH (Z.max a y)) as (H1 & H2 & H3). split; [lia|]. split.
    - intros x [<-|Hx]; [lia|auto].
    - destruct H3 as [H3|H3]; [|right; now right]. destruct (Z.max_spec a y) as [[_ E]|[_ E]]; rewrite H3, E; cbn; auto.
  Qed.
  Lemma fold_min_le l : forall a, (fold_left Z.min l a <= a)%Z /\ (forall x, In x l -> (fold_left Z.min l a <= x)%Z) /\ (fold_left Z.min l a = a \/ In (fold_left Z.min l a) l).
  Proof.
    induction l as [|y l IH]; intros a; cbn [fold_left]; [split; [lia|split; [intros x []|auto]]|].
    destruct (IH (Z.min a y)) as (H1 & H2 & H3). split; [lia|]. split.
    - intros x [<-|Hx]; [lia|auto].
    - destruct H3 as [H3|H3]; [|right; now right]. destruct (Z.min_spec a y) as [[_ E]|[_ E]]; rewrite H3, E; cbn; auto.
  Qed.
  Lemma span_spec u us : exists a b, In a (u :: us) /\ In b (u :: us) /\ (span u us = ons b - ons a)%Z /\
    forall c, In c (u :: us) -> (ons a <= ons c <= ons b)%Z.
  Proof.
    unfold span. destruct (fold_max_ge (map ons us) (ons u)) as (M1 & M2 & M3).
    destruct (fold_min_le (map ons us) (ons u)) as (m1 & m2 & m3).
    assert (A : exists a, In a (u :: us) /\ ons a = fold_left Z.min (map ons us) (ons u)).
    { destruct m3 as [E|E]; [exists u; cbn; auto|]. apply in_map_iff in E as (a & E & Ha). exists a. cbn. auto. }
    assert (B : exists a, In a (u :: us) /\ ons a = fold_left Z.max (map ons us) (ons u)).
    { destruct M3 as [E|E]; [exists u; cbn; auto|]. apply in_map_iff in E as (a & E & Ha). exists a. cbn. auto. }
    destruct A as (a & Ha & Ea), B as (b & Hb & Eb). exists a, b. rewrite Ea, Eb. repeat apply conj; auto.
    intros c [<-|Hc]; [lia|]. split; [apply m2|apply M2]; now apply in_map.
  Qed.
  Lemma outb_iff b : outb b = true <-> In (ob_id b) ignore.
  Proof. apply existsb_eqb_In. Qed.

  Lemma evaluate_own orbits obs : NoDup (map oid orbits) -> orbits <> [] ->
    StronglySorted (fun a b => oleb_obs a b = true) obs ->
    (exists b, In b obs /\ ~ In (ob_id b) ignore) ->
    exists os fs ms, evaluate_orbits oid predict resid chi2 dof orbits obs parameters ignore = Ok (fs, ms) /\
      Permutation orbits os /\
      StronglySorted (fun a b => str_leb (oid a) (oid b) = true) os /\
      Forall2 (fun ob m => member_of oid predict resid ignore (fst ob) (snd ob) m) (list_prod os obs) ms /\
      exists used, (forall b, In b used <-> In b obs /\ ~ In (ob_id b) ignore) /\ subseq used obs /\
        Forall2 (orbit_of oid predict resid chi2 dof parameters used) os fs.
  Proof.
    intros Hn Hne Hs (b0 & Hb0 & Hi0).
    set (used := filter (fun b => negb (outb b)) obs).
    assert (Hused : forall b, In b used <-> In b obs /\ ~ In (ob_id b) ignore).
    { intros b. unfold used. rewrite filter_In, negb_true_iff, <- not_true_iff_false, outb_iff. tauto. }
    destruct used as [|u us] eqn:Eu; [exfalso; apply (Hused b0); auto|].
    rewrite (evaluate_any orbits obs u us) by auto.
    set (os := sort _ orbits).
    exists os. do 2 eexists. split; [reflexivity|]. split; [apply sort_perm|].
    assert (EP : pairs obs = map (fun b => (b, b)) obs).
    { unfold pairs. rewrite (sort_sorted_id oleb_obs) by auto. clear. induction obs; cbn; auto. now f_equal. }
    split; [|split].
    - unfold os. apply (sort_sorted (fun a b => str_leb (oid a) (oid b))); [intros; apply str_leb_total|intros a b c; apply str_leb_trans].
    - rewrite EP. clear. induction os as [|o os IH]; [constructor|]. cbn [list_prod flat_map]. apply Forall2_app; auto.
      clear. rewrite map_map. induction obs as [|b obs IH]; constructor; auto.
      unfold member_of. cbn. repeat split; auto; apply outb_iff.
    - exists (u :: us). split; auto. split; [rewrite <- Eu; apply subseq_filter|].
      rewrite EP. cbv zeta.
      assert (EF : filter (fun p : observation * observation => negb (outb (fst p))) (map (fun b => (b, b)) obs) = map (fun b => (b, b)) (u :: us)).
      { rewrite <- Eu. unfold used. clear. induction obs as [|b l IH]; auto. cbn [map filter fst]. destruct (negb (outb b)); cbn [map]; now rewrite IH. }
      rewrite EF. assert (SP := span_spec u us). clear - SP. revert SP. generalize (span u us) as sp, (u :: us) as U. intros sp U SP. induction os as [|o os IH]; [constructor|]. cbn [map]. constructor; auto.
      unfold orbit_of. rewrite (map_map _ (pres o)).
      replace (map (fun x : observation => pres o (x, x)) U) with (map (own_residual predict resid o) U) by reflexivity.
      set (rs := map (own_residual predict resid o) U). cbv zeta. unfold fto_id, fto_nobs, fto_chi2, fto_rchi2, fto_arc.
      change (zsum (map dof rs)) with (fold_right Z.add 0%Z (map dof rs)).
      change (qsum (map chi2 rs)) with (total chi2 rs).
      repeat apply conj; auto.
      + intros N. unfold zsum. rewrite N. reflexivity.
      + intros N. apply Z.eqb_neq in N. unfold zsum. rewrite N. reflexivity.
  Qed.
  Lemma evaluate_duplicate orbits obs : ~ NoDup (map oid orbits) ->
    evaluate_orbits oid predict resid chi2 dof orbits obs parameters ignore = Err AssertionError.
  Proof.
    intros H. unfold evaluate_orbits. destruct (Nat.eqb _ _) eqn:E; auto. exfalso. apply H. apply NoDup_uniq_length.
    rewrite map_length. now apply Nat.eqb_eq.
  Qed.
End EvaluateProofs.
Lemma drop_all {A K} (key : A -> K) (id : A -> string) (same : A -> A -> bool) keep_first os ms os' ms' :
  (forall a b, same a b = true <-> key a = key b) ->
  drop_duplicate_orbits id same keep_first os ms = (os', ms') ->
  NoDup (map key os')
  /\ (forall o, In o os -> exists o', In o' os' /\ key o' = key o)
  /\ (forall o, In o os' <-> (if keep_first then first_with key os o else last_with key os o))
  /\ subseq ms' ms
  /\ (forall m, In m ms' <-> In m ms /\ In (m_orbit m) (map id os'))
  /\ (forall i, In i (map id os') -> members_of ms' i = members_of ms i).
Proof.
  intros H E. destruct (drop_members id same keep_first os ms os' ms' E) as (E1 & E2 & E3 & E4).
  repeat apply conj; auto; rewrite E1.
  - now apply drop_unique.
  - intros o. now apply drop_covers.
  - intros o. now apply drop_keys.
Qed.
