(* Proofs for the impact model. *)
From Coq Require Import String QArith Lia Lqa.
From Verif Require Import Base ListLemmas TimeModel TimeSpec TimeProofs ImpModel ImpSpec.
Open Scope string_scope.
Open Scope Z_scope.
Open Scope list_scope.

Lemma counts_filter : forall {A} (P : A -> Prop) f (l : list A), (forall x, f x = true <-> P x) ->
  counts P l (Z.of_nat (List.length (filter f l))).
Proof.
  induction l; intros H; cbn [filter]; [constructor|]. destruct (f a) eqn:E.
  - cbn [List.length]. rewrite Nat2Z.inj_succ. unfold Z.succ. constructor; auto. apply H. auto.
  - constructor; auto. intros X. apply H in X. congruence.
Qed.
Lemma counts_unique : forall {A} (P : A -> Prop) l n m, counts P l n -> counts P l m -> n = m.
Proof.
  induction l; intros n m H1 H2; inversion H1; inversion H2; subst; auto; try contradiction; try (f_equal; eauto); eauto.
Qed.
Lemma counts_nonneg : forall {A} (P : A -> Prop) l n, counts P l n -> 0 <= n.
Proof. induction 1; lia. Qed.
Lemma filter_filter_ : forall {A} (f g : A -> bool) l, filter f (filter g l) = filter (fun x => g x && f x) l.
Proof. induction l; cbn; auto. destruct (g a); cbn; [destruct (f a); rewrite IHl; auto|auto]. Qed.

Definition hitb (o c : string) (e : event) : bool := String.eqb (e_orbit e) o && String.eqb (e_cond e) c.
Lemma hitb_hit : forall o c e, hitb o c e = true <-> hit o c e.
Proof. intros. unfold hitb, hit. rewrite andb_true_iff, !String.eqb_eq. tauto. Qed.
Lemma prob_row_fields : forall vscale escale vs es o c, let r := prob_row vscale escale vs es o c in
  i_cond r = c /\ i_orbit r = o /\ i_impacts r = Z.of_nat (List.length (filter (hitb o c) es)) /\
  i_variants r = Z.of_nat (List.length (filter (fun v => String.eqb (vo_orbit v) o) vs)) /\
  i_prob r = (inject_Z (i_impacts r) / inject_Z (i_variants r))%Q /\
  i_scale r = (match filter (hitb o c) es with [] => vscale | _ => escale end) /\
  match filter (hitb o c) es with
  | [] => i_mean r = None /\ i_min r = None /\ i_max r = None
  | l => i_mean r = Some (qsum (map mjd (map e_time l)) / inject_Z (i_impacts r))%Q /\
         i_min r = ok_row (ts_min (mkts escale (map e_time l))) /\ i_max r = ok_row (ts_max (mkts escale (map e_time l)))
  end.
Proof.
  intros. unfold r, prob_row. cbv zeta. rewrite filter_filter_. fold (hitb o c).
  destruct (filter (hitb o c) es); cbn; repeat split.
Qed.

Lemma prob_rows : forall vscale escale vs es conds rs,
  calculate_impact_probabilities vscale escale vs es conds = Ok (Some rs) ->
  forall r, In r rs -> exists o c, In o (map vo_orbit vs) /\ In c (map c_id (or_default default_conditions conds)) /\
    r = prob_row vscale escale vs es o c.
Proof.
  intros vscale escale vs es conds rs H r Hr. unfold calculate_impact_probabilities in H. cbv zeta in H.
  set (l := flat_map _ _) in *.
  assert (E : rs = l). { destruct l as [|x l0]; [discriminate|]. destruct (forallb _ _); [injection H; auto|discriminate]. }
  subst rs. unfold l in Hr. apply in_flat_map in Hr. destruct Hr as [o [Ho Hr]]. apply in_map_iff in Hr. destruct Hr as [c [E Hc]].
  exists o, (c_id c). split; [|split; [apply in_map; auto|auto]].
  apply uniq_In in Ho; auto. intros; apply String.eqb_eq.
Qed.
Lemma prob_complete : forall vscale escale vs es conds rs,
  calculate_impact_probabilities vscale escale vs es conds = Ok (Some rs) ->
  rs = flat_map (fun o => map (fun c => prob_row vscale escale vs es o (c_id c)) (or_default default_conditions conds)) (uniq String.eqb (map vo_orbit vs)).
Proof.
  intros vscale escale vs es conds rs H. unfold calculate_impact_probabilities in H. cbv zeta in H.
  set (l := flat_map _ _) in *. destruct l as [|x l0]; [discriminate|]. destruct (forallb _ _); [injection H; auto|discriminate].
Qed.
Lemma prob_ok : forall scale vs es conds, vs <> [] -> or_default default_conditions conds <> [] ->
  exists rs, calculate_impact_probabilities scale scale vs es conds = Ok (Some rs).
Proof.
  intros scale vs es conds NV NC. unfold calculate_impact_probabilities. cbv zeta. set (l := flat_map _ _).
  assert (A : Forall (fun r => i_scale r = scale) l).
  { apply Forall_forall. intros r Hr. apply in_flat_map in Hr. destruct Hr as [o [Ho Hr]]. apply in_map_iff in Hr. destruct Hr as [c [E Hc]].
    subst r. destruct (prob_row_fields scale scale vs es o (c_id c)) as [_ [_ [_ [_ [_ [E _]]]]]]. rewrite E. destruct (filter _ es); auto. }
  assert (N : l <> []).
  { destruct vs as [|v vs]; [congruence|]. destruct (or_default default_conditions conds) as [|c cs] eqn:EC; [congruence|].
    intros E. assert (X : In (prob_row scale scale (v :: vs) es (vo_orbit v) (c_id c)) l).
    { apply in_flat_map. exists (vo_orbit v). split; [|cbn; auto]. apply uniq_In; [intros; apply String.eqb_eq|cbn; auto]. }
    rewrite E in X. destruct X. }
  clearbody l. destruct l as [|r rs]; [congruence|]. inversion A; subst.
  replace (forallb (fun x => i_scale r =? i_scale x)%string rs) with true; [eauto|]. symmetry. apply forallb_forall.
  intros x Hx. rewrite Forall_forall in H2. rewrite (H2 x Hx). apply String.eqb_refl.
Qed.

(* events map injectively to impacting variants *)
Lemma NoDup_filter_ : forall {A} (f : A -> bool) l, NoDup l -> NoDup (filter f l).
Proof. induction 1; cbn; [constructor|]. destruct (f x); auto. constructor; auto. intros X. apply filter_In in X. tauto. Qed.
Lemma map_NoDup_filter : forall {A B} (g : A -> B) f l, NoDup (map g l) -> NoDup (map g (filter f l)).
Proof.
  induction l; cbn; intros; auto. inversion H; subst. destruct (f a); cbn; auto. constructor; auto.
  intros X. apply in_map_iff in X. destruct X as [y [E Hy]]. apply filter_In in Hy. apply H2. rewrite <- E. apply in_map. tauto.
Qed.
Lemma NoDup_map_inj_in : forall {A B} (f : A -> B) l, (forall x y, In x l -> In y l -> f x = f y -> x = y) -> NoDup l -> NoDup (map f l).
Proof.
  induction l; cbn; intros H ND; [constructor|]. inversion ND; subst. constructor; [|apply IHl; auto].
  intros X. apply in_map_iff in X. destruct X as [y [E Hy]]. rewrite (H a y) in H2; auto.
Qed.
Lemma one_event_each : forall vs es o c,
  NoDup (map (fun v => (vo_orbit v, vo_variant v)) vs) ->
  NoDup (map (fun e => (e_orbit e, e_variant e, e_cond e)) es) ->
  (forall e, In e es -> exists v, In v vs /\ vo_orbit v = e_orbit e /\ vo_variant v = e_variant e) ->
  exists k, counts (fun v => vo_orbit v = o /\ impacts_under es c v) vs k /\ Z.of_nat (List.length (filter (hitb o c) es)) = k.
Proof.
  intros vs es o c NV NE SB.
  set (p := fun v => String.eqb (vo_orbit v) o && existsb (fun e => String.eqb (e_orbit e) (vo_orbit v) && String.eqb (e_variant e) (vo_variant v) && String.eqb (e_cond e) c) es).
  exists (Z.of_nat (List.length (filter p vs))). split.
  - apply counts_filter. intros v. unfold p. rewrite andb_true_iff, String.eqb_eq, existsb_exists. unfold impacts_under. split.
    + intros [E [e [He H]]]. rewrite !andb_true_iff, !String.eqb_eq in H. split; auto. exists e. tauto.
    + intros [E [e H]]. split; auto. exists e. rewrite !andb_true_iff, !String.eqb_eq. tauto.
  - f_equal. rewrite <- (map_length (fun e => (e_orbit e, e_variant e)) (filter (hitb o c) es)).
    rewrite <- (map_length (fun v => (vo_orbit v, vo_variant v)) (filter p vs)).
    assert (ND1 : NoDup (map (fun e => (e_orbit e, e_variant e)) (filter (hitb o c) es))).
    { apply NoDup_map_inj_in.
      - intros x y Hx Hy E. apply filter_In in Hx, Hy. destruct Hx as [Hx Hx2], Hy as [Hy Hy2]. apply hitb_hit in Hx2, Hy2.
        destruct Hx2, Hy2. injection E as E1 E2.
        assert (G : forall l, NoDup (map (fun e => (e_orbit e, e_variant e, e_cond e)) l) -> In x l -> In y l -> x = y).
        { induction l as [|z l IH]; cbn; intros ND A B; [destruct A|]. inversion ND as [|? ? NI ND']; subst.
          destruct A as [A|A], B as [B|B]; subst; auto; exfalso; apply NI; apply in_map_iff; [exists y|exists x]; split; auto; congruence. }
        eauto.
      - apply NoDup_filter_. eapply NoDup_map_inv; eauto. }
    assert (ND2 : NoDup (map (fun v => (vo_orbit v, vo_variant v)) (filter p vs))) by (apply map_NoDup_filter; auto).
    apply Nat.le_antisymm; apply NoDup_incl_length; auto.
    + intros x Hx. apply in_map_iff in Hx. destruct Hx as [e [E He]]. apply filter_In in He. destruct He as [He H1]. apply hitb_hit in H1. destruct H1.
      destruct (SB e He) as [v [Hv [V1 V2]]]. apply in_map_iff. exists v. split; [congruence|]. apply filter_In. split; auto.
      unfold p. rewrite andb_true_iff, String.eqb_eq, existsb_exists. split; [congruence|]. exists e. split; auto.
      rewrite !andb_true_iff, !String.eqb_eq. repeat split; congruence.
    + intros x Hx. apply in_map_iff in Hx. destruct Hx as [v [E Hv]]. apply filter_In in Hv. destruct Hv as [Hv H1]. unfold p in H1.
      rewrite andb_true_iff, String.eqb_eq, existsb_exists in H1. destruct H1 as [H1 [e [He H2]]]. rewrite !andb_true_iff, !String.eqb_eq in H2.
      apply in_map_iff. exists e. split; [destruct H2 as [[H2 H3] H4]; congruence|]. apply filter_In. split; auto. apply hitb_hit. unfold hit. split; [destruct H2 as [[]]; congruence|tauto].
Qed.
Lemma counts_le : forall {A} (P Q : A -> Prop) l n m, (forall x, P x -> Q x) -> counts P l n -> counts Q l m -> n <= m.
Proof.
  intros A P Q l n m H C. revert m. induction C as [|x l n HP C IH|x l n HP C IH]; intros m D; inversion D as [|? ? k HQ D'|? ? k HQ D']; subst.
  - lia.
  - specialize (IH _ D'). lia.
  - exfalso. auto.
  - specialize (IH _ D'). lia.
  - auto.
Qed.

(* the mean of a list lies between its bounds *)
Lemma qsum_bounds : forall l lo hi, (forall x, In x l -> lo <= x /\ x <= hi)%Q ->
  (inject_Z (Z.of_nat (List.length l)) * lo <= qsum l /\ qsum l <= inject_Z (Z.of_nat (List.length l)) * hi)%Q.
Proof.
  induction l; intros lo hi H.
  - cbn. split; [rewrite Qmult_0_l|rewrite Qmult_0_l]; apply Qle_refl.
  - cbn [List.length qsum fold_right]. rewrite Nat2Z.inj_succ, <- Z.add_1_l, inject_Z_plus.
    destruct (IHl lo hi) as [A B]; [intros; apply H; cbn; auto|]. destruct (H a) as [C D]; [cbn; auto|]. fold (qsum l).
    change (inject_Z 1) with 1%Q. split; lra.
Qed.
Lemma mean_between : forall l lo hi, l <> [] -> (forall x, In x l -> lo <= x /\ x <= hi)%Q ->
  (lo <= qsum l / inject_Z (Z.of_nat (List.length l)) /\ qsum l / inject_Z (Z.of_nat (List.length l)) <= hi)%Q.
Proof.
  intros l lo hi NE H. destruct (qsum_bounds l lo hi H) as [A B].
  assert (P : (0 < inject_Z (Z.of_nat (List.length l)))%Q).
  { replace 0%Q with (inject_Z 0) by reflexivity. rewrite <- Zlt_Qlt. destruct l; [congruence|cbn [List.length]; lia]. }
  split.
  - apply Qle_shift_div_l; auto. rewrite Qmult_comm. auto.
  - apply Qle_shift_div_r; auto. rewrite Qmult_comm. auto.
Qed.
Lemma mjd_mono : forall a b, instant a <= instant b -> (mjd a <= mjd b)%Q.
Proof.
  intros a b H. unfold instant in H. unfold mjd, Qle, Qplus, inject_Z. cbn. unfold DAY in *. lia.
Qed.
Lemma impact_times : forall vscale escale vs es o c, Forall (fun e => normal (e_time e)) es ->
  (exists e, In e es /\ hit o c e) ->
  let r := prob_row vscale escale vs es o c in
  exists lo hi m, i_min r = Some lo /\ i_max r = Some hi /\ i_mean r = Some m /\
    (exists e, In e es /\ hit o c e /\ e_time e = lo) /\ (exists e, In e es /\ hit o c e /\ e_time e = hi) /\
    (forall e, In e es -> hit o c e -> instant lo <= instant (e_time e) <= instant hi) /\
    (mjd lo <= m /\ m <= mjd hi)%Q.
Proof.
  intros vscale escale vs es o c N [e0 [He0 Hh0]] r.
  destruct (prob_row_fields vscale escale vs es o c) as [_ [_ [K [_ [_ [_ F]]]]]]. cbv zeta in F. fold r in F, K.
  assert (IN : forall e, In e (filter (hitb o c) es) <-> In e es /\ hit o c e) by (intros; rewrite filter_In, hitb_hit; tauto).
  assert (NE : filter (hitb o c) es <> []). { intros E. assert (X : In e0 (filter (hitb o c) es)) by (apply IN; auto). rewrite E in X. destruct X. }
  set (l := filter (hitb o c) es) in *. clearbody l. destruct l as [|x l0]; [congruence|]. set (l := x :: l0) in *. clearbody l.
  destruct F as [F1 [F2 F3]].
  assert (NR : Forall normal (rows (mkts escale (map e_time l)))).
  { cbn. apply Forall_forall. intros t Ht. apply in_map_iff in Ht. destruct Ht as [e [<- He]]. apply IN in He. rewrite Forall_forall in N. apply N. tauto. }
  assert (NN : rows (mkts escale (map e_time l)) <> []) by (cbn; destruct l; [congruence|discriminate]).
  destruct (ts_min_spec _ NN NR) as [lo [L1 [L2 L3]]]. destruct (ts_max_spec _ NN NR) as [hi [H1 [H2 H3]]]. cbn in L2, L3, H2, H3.
  rewrite L1 in F2. rewrite H1 in F3. cbn in F2, F3.
  exists lo, hi. eexists. split; [exact F2|]. split; [exact F3|]. split; [exact F1|].
  apply in_map_iff in L2. destruct L2 as [el [El Hl]]. apply in_map_iff in H2. destruct H2 as [eh [Eh Hh]]. apply IN in Hl, Hh.
  split; [exists el; tauto|]. split; [exists eh; tauto|]. split.
  - intros e He Hhe. split; [apply L3|apply H3]; apply in_map; apply IN; auto.
  - rewrite K. rewrite <- (map_length (fun e => mjd (e_time e)) l). rewrite map_map.
    apply mean_between; [destruct l; [congruence|discriminate]|].
    intros y Hy. apply in_map_iff in Hy. destruct Hy as [e [<- He]]. split; apply mjd_mono; [apply L3|apply H3]; apply in_map; auto.
Qed.
