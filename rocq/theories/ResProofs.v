From Coq Require Import String QArith Lia Permutation.
From Verif Require Import Base ListLemmas ResModel ResSpec.
Open Scope Z_scope.
Open Scope list_scope.

Lemma mask_eqb_spec : forall a b, mask_eqb a b = true <-> a = b.
Proof.
  induction a; destruct b; cbn; split; intros H; try discriminate; auto.
  - apply andb_prop in H. destruct H as [H1 H2]. apply Bool.eqb_prop in H1. apply IHa in H2. congruence.
  - inversion H; subst. rewrite Bool.eqb_reflx. cbn. apply IHa. auto.
Qed.
Lemma unique_masks_In : forall x l, In x (unique_masks l) <-> In x l.
Proof.
  intros. unfold unique_masks. rewrite sort_In. apply uniq_In. apply mask_eqb_spec.
Qed.

(* keeping the unmasked entries is selecting the dimensions that have values *)
Lemma at_dims_S : forall {A} (x : A) l ds, at_dims (map S ds) (x :: l) = at_dims ds l.
Proof. intros. unfold at_dims. rewrite flat_map_concat_map, map_map. symmetry. apply flat_map_concat_map. Qed.
Lemma dims_cons : forall x v, dims (x :: v) = (if isnan x then [] else [0%nat]) ++ map S (dims v).
Proof.
  intros. unfold dims. cbn [List.length seq filter nth_error].
  assert (E : filter (fun j => match nth_error (x :: v) j with Some (Some _) => true | _ => false end) (seq 1 (List.length v))
              = map S (filter (fun j => match nth_error v j with Some (Some _) => true | _ => false end) (seq 0 (List.length v)))).
  { rewrite <- seq_shift. induction (seq 0 (List.length v)) as [|j l IH]; auto.
    cbn [map filter nth_error]. destruct (nth_error v j) as [[q|]|]; cbn [map]; rewrite IH; auto. }
  rewrite E. destruct x; reflexivity.
Qed.
Lemma at_dims_nil : forall {A} ds, at_dims ds (@nil A) = [].
Proof. intros. unfold at_dims. induction ds as [|j ds IH]; auto. cbn. destruct j; cbn; auto. Qed.
Lemma keep_dims : forall {A} v (l : list A), keep (nan_mask v) l = at_dims (dims v) l.
Proof.
  induction v; intros; auto.
  rewrite dims_cons. destruct l as [|y l].
  - rewrite at_dims_nil. reflexivity.
  - cbn [nan_mask map keep]. destruct (isnan a); cbn [app].
    + rewrite at_dims_S. apply IHv.
    + unfold at_dims at 1. cbn [flat_map nth_error app]. f_equal.
      change (keep (nan_mask v) l = at_dims (map S (dims v)) (y :: l)). rewrite at_dims_S. apply IHv.
Qed.
Lemma keep2_dims : forall {A} v (m : list (list A)), keep2 (nan_mask v) m = sub_matrix (dims v) m.
Proof.
  intros. unfold keep2, sub_matrix. rewrite keep_dims. apply map_ext. intros. apply keep_dims.
Qed.
Lemma dof_dims : forall o, dof_row o = Z.of_nat (List.length (dims (values o))).
Proof.
  intros. unfold dof_row. induction (values o); auto. rewrite dims_cons, app_length, map_length.
  destruct a; cbn [isnan filter List.length] in *; lia.
Qed.

(* kept square matrices *)
Definition kept (mask : list bool) : nat := List.length (filter negb mask).
Lemma keep_length : forall {A} mask (l : list A), List.length l = List.length mask -> List.length (keep mask l) = kept mask.
Proof.
  induction mask; destruct l; cbn; intros; try discriminate; auto.
  destruct a; unfold kept; cbn; [|f_equal]; apply IHmask; lia.
Qed.
Lemma keep_In : forall {A} mask (l : list A) x, In x (keep mask l) -> In x l.
Proof.
  induction mask as [|b mask IH]; destruct l; cbn; intros; auto; try contradiction. destruct b; cbn in *; [right; auto|destruct H; auto].
Qed.
Lemma keep2_square : forall mask m, square (List.length mask) m -> square (kept mask) (keep2 mask m).
Proof.
  intros mask m [H1 H2]. unfold keep2. split.
  - rewrite map_length. apply keep_length. auto.
  - apply Forall_forall. intros r Hr. apply in_map_iff in Hr. destruct Hr as [r0 [<- Hr]].
    apply keep_length. rewrite Forall_forall in H2. apply H2. eapply keep_In; eauto.
Qed.
Lemma diagonal_head : forall D (m : list (list num)), square D m -> D <> 0%nat ->
  exists r x m', m = r :: m' /\ In x r /\ In x (diagonal m).
Proof.
  intros D m [H1 H2] ND. destruct m as [|r m']; [cbn in H1; lia|].
  inversion H2; subst. destruct r as [|x r']; [cbn in *; lia|].
  exists (x :: r'), x, m'. repeat split; cbn; auto.
Qed.

Definition allnan (c : list (list num)) : bool := forallb (forallb isnan) c.
Lemma allnan_spec : forall c, allnan c = true <-> nothing_known c.
Proof.
  intros. unfold allnan, nothing_known. rewrite forallb_forall. split.
  - intros H r x Hr Hx. specialize (H r Hr). rewrite forallb_forall in H. specialize (H x Hx). destruct x; auto; discriminate.
  - intros H r Hr. apply forallb_forall. intros x Hx. rewrite (H r x Hr Hx). auto.
Qed.
Lemma allnan_diag : forall D c, square D c -> D <> 0%nat -> allnan c = true -> existsb isnan (diagonal c) = true.
Proof.
  intros D c H ND HA. destruct (diagonal_head D c H ND) as [r [x [m' [-> [Hx Hd]]]]].
  apply existsb_exists. exists x. split; auto. apply allnan_spec in HA.
  rewrite (HA r x (or_introl eq_refl) Hx). auto.
Qed.

(* scatter *)
Lemma read_unique : forall writes i v,
  In (i, v) writes -> (forall v', In (i, v') writes -> v' = v) -> read writes i = Some v.
Proof.
  intros writes i v HI HU. unfold read. destruct (find _ (rev writes)) as [[j w]|] eqn:E.
  - apply find_some in E. destruct E as [E1 E2]. cbn in E2. apply Nat.eqb_eq in E2. subst j.
    apply in_rev in E1. cbn. f_equal. apply HU. auto.
  - exfalso. apply in_rev in HI. pose proof (find_none _ _ E _ HI) as X. cbn in X. rewrite Nat.eqb_refl in X. discriminate.
Qed.

Section Calc.
Variable sph_residual : list num -> list num -> list num.
Variable sph_cov : list num -> list (list num) -> list (list num).
Variable invertible : list (list num) -> bool.
Variable mahalanobis : list num -> list (list num) -> num.
Variable tail : num -> Z -> num.
Notation run := (run_batch invertible mahalanobis tail).
Notation resid := (residual_row sph_residual).
Notation tcov := (total_cov sph_cov).
Notation calc := (calculate sph_residual sph_cov invertible mahalanobis tail).

Definition filled (c : list (list num)) : list (list num) := map (map fill0) c.
(* one row by itself *)
Definition row_cov (w : work) := keep2 (nan_mask (values (fst (snd w)))) (snd (snd (snd w))).
Definition row_res (w : work) := keep (nan_mask (values (fst (snd w)))) (fst (snd (snd w))).
Definition row_fine (w : work) : Prop :=
  allnan (row_cov w) = true \/
  (existsb isnan (diagonal (row_cov w)) = false /\ invertible (filled (row_cov w)) = true).
Definition row_chi (w : work) : num :=
  if allnan (row_cov w) then None else mahalanobis (row_res w) (filled (row_cov w)).
Definition row_p (w : work) : num :=
  if allnan (row_cov w) then None else tail (row_chi w) (dof_row (fst (snd w))).
Definition good_work (w : work) : Prop := square (List.length (values (fst (snd w)))) (snd (snd (snd w))).
Definition same_mask (mask : list bool) (w : work) : Prop := nan_mask (values (fst (snd w))) = mask.

Lemma chi2_ok : forall batch l, calculate_chi2 invertible mahalanobis batch = Ok l ->
  l = map (fun b => mahalanobis (fst b) (filled (snd b))) batch /\
  Forall (fun b => existsb isnan (diagonal (snd b)) = false /\ invertible (filled (snd b)) = true) batch.
Proof.
  intros batch l. unfold calculate_chi2. destruct (existsb _ batch) eqn:E1; [discriminate|].
  destruct (forallb _ _) eqn:E2; [|discriminate]. intros H. inversion H; subst. split.
  - rewrite map_map. auto.
  - apply Forall_forall. intros b Hb. split.
    + destruct (existsb isnan (diagonal (snd b))) eqn:E; auto. exfalso.
      assert (X : existsb (fun b => existsb isnan (diagonal (snd b))) batch = true) by (apply existsb_exists; eauto).
      congruence.
    + rewrite forallb_forall in E2. apply (E2 (fst b, map (map fill0) (snd b))). apply in_map_iff. exists b. auto.
Qed.
Lemma chi2_make : forall batch,
  Forall (fun b => existsb isnan (diagonal (snd b)) = false /\ invertible (filled (snd b)) = true) batch ->
  calculate_chi2 invertible mahalanobis batch = Ok (map (fun b => mahalanobis (fst b) (filled (snd b))) batch).
Proof.
  intros batch H. unfold calculate_chi2. rewrite Forall_forall in H. destruct (existsb _ batch) eqn:E1.
  - apply existsb_exists in E1. destruct E1 as [b [Hb E]]. destruct (H b Hb). congruence.
  - destruct (forallb _ _) eqn:E2.
    + rewrite map_map. auto.
    + exfalso. assert (X : forallb (fun b : list num * list (list num) => invertible (snd b)) (map (fun b => (fst b, map (map fill0) (snd b))) batch) = true).
      { apply forallb_forall. intros b Hb. apply in_map_iff in Hb. destruct Hb as [b0 [<- Hb]]. apply (H b0 Hb). }
      congruence.
Qed.

Lemma zip_with_same : forall {A B C} (f : A -> B -> C) (g : A -> B) l, zip_with f l (map g l) = map (fun a => f a (g a)) l.
Proof. intros. unfold zip_with. induction l; cbn; auto. f_equal. auto. Qed.
Lemma combine_maps : forall {A B C} (f : A -> B) (g : A -> C) l, combine (map f l) (map g l) = map (fun a => (f a, g a)) l.
Proof. induction l; cbn; congruence. Qed.

Definition selected (all : list work) (mask : list bool) := filter (fun w : work => mask_eqb (nan_mask (values (fst (snd w)))) mask) all.
Lemma selected_In : forall all mask w, In w (selected all mask) <-> In w all /\ same_mask mask w.
Proof. intros. unfold selected, same_mask. rewrite filter_In, mask_eqb_spec. tauto. Qed.

Lemma run_ok : forall all mask ws, Forall good_work all -> run all mask = Ok ws ->
  ws = map (fun w => (fst w, (row_chi w, row_p w))) (selected all mask) /\ Forall row_fine (selected all mask).
Proof.
  intros all mask ws G. unfold run_batch. cbv zeta. fold (selected all mask).
  assert (EC : map (fun w : work => keep2 mask (snd (snd (snd w)))) (selected all mask) = map row_cov (selected all mask)).
  { apply map_ext_in. intros w Hw. apply selected_In in Hw. unfold row_cov. destruct Hw as [_ Hw]. unfold same_mask in Hw. rewrite Hw. auto. }
  assert (ER : map (fun w : work => keep mask (fst (snd (snd w)))) (selected all mask) = map row_res (selected all mask)).
  { apply map_ext_in. intros w Hw. apply selected_In in Hw. unfold row_res. destruct Hw as [_ Hw]. unfold same_mask in Hw. rewrite Hw. auto. }
  rewrite EC, ER. clear EC ER.
  assert (GS : forall w, In w (selected all mask) -> square (kept mask) (row_cov w)).
  { intros w Hw. apply selected_In in Hw. destruct Hw as [Hw Hm]. unfold row_cov. rewrite <- Hm.
    apply keep2_square. unfold nan_mask. rewrite map_length. rewrite Forall_forall in G. apply (G w Hw). }
  destruct (forallb _ _) eqn:E.
  - intros H. inversion H; subst. rewrite forallb_forall in E.
    assert (AN : forall w, In w (selected all mask) -> allnan (row_cov w) = true).
    { intros w Hw. apply (E (row_cov w)). apply in_map. auto. }
    split.
    + apply map_ext_in. intros w Hw. unfold row_chi, row_p. rewrite (AN w Hw). auto.
    + apply Forall_forall. intros w Hw. left. auto.
  - destruct (calculate_chi2 _ _ _) eqn:EK; [|discriminate]. cbn [bind]. intros H. inversion H; subst. clear H.
    apply chi2_ok in EK. rewrite combine_maps in EK. destruct EK as [-> F]. rewrite map_map in *. rewrite Forall_forall in F.
    assert (F' : forall w, In w (selected all mask) -> existsb isnan (diagonal (row_cov w)) = false /\ invertible (filled (row_cov w)) = true).
    { intros w Hw. apply (F (row_res w, row_cov w)). apply in_map_iff. exists w. auto. }
    assert (NE : kept mask <> 0%nat).
    { intros Z0. assert (X : forallb (fun c : list (list num) => forallb (forallb isnan) c) (map row_cov (selected all mask)) = true); [|congruence].
      apply forallb_forall. intros c Hc. apply in_map_iff in Hc. destruct Hc as [w [<- Hw]].
      destruct (GS w Hw) as [L _]. rewrite Z0 in L. destruct (row_cov w); [auto|discriminate]. }
    assert (AN : forall w, In w (selected all mask) -> allnan (row_cov w) = false).
    { intros w Hw. destruct (allnan (row_cov w)) eqn:EA; auto. exfalso.
      pose proof (allnan_diag _ _ (GS w Hw) NE EA). destruct (F' w Hw). congruence. }
    split.
    + cbn [fst snd]. rewrite zip_with_same. apply map_ext_in. intros w Hw. unfold row_p, row_chi. rewrite (AN w Hw). auto.
    + apply Forall_forall. intros w Hw. right. apply F'. auto.
Qed.
Lemma run_make : forall all mask, Forall good_work all -> Forall row_fine (selected all mask) ->
  (forall w w', In w (selected all mask) -> In w' (selected all mask) -> allnan (row_cov w) = allnan (row_cov w')) ->
  run all mask = Ok (map (fun w => (fst w, (row_chi w, row_p w))) (selected all mask)).
Proof.
  intros all mask G F S.
  assert (X : exists ws, run all mask = Ok ws).
  { unfold run_batch. cbv zeta. fold (selected all mask).
    assert (EC : map (fun w : work => keep2 mask (snd (snd (snd w)))) (selected all mask) = map row_cov (selected all mask)).
    { apply map_ext_in. intros w Hw. apply selected_In in Hw. unfold row_cov. destruct Hw as [_ Hw]. unfold same_mask in Hw. rewrite Hw. auto. }
    rewrite EC. destruct (forallb _ _) eqn:E; [eauto|].
    assert (exists w, In w (selected all mask) /\ allnan (row_cov w) = false) as [w0 [Hw0 E0]].
    { clear -E. induction (selected all mask); [discriminate|]. cbn in E.
      destruct (forallb (forallb isnan) (row_cov a)) eqn:Ea; [|exists a; cbn; auto].
      destruct IHl as [w [Hw H]]; [exact E|]. exists w. cbn. auto. }
    rewrite chi2_make; [cbn [bind]; eauto|].
    assert (ER : map (fun w : work => keep mask (fst (snd (snd w)))) (selected all mask) = map row_res (selected all mask)).
    { apply map_ext_in. intros w Hw. apply selected_In in Hw. unfold row_res. destruct Hw as [_ Hw]. unfold same_mask in Hw. rewrite Hw. auto. }
    rewrite ER, combine_maps. apply Forall_forall. intros b Hb. apply in_map_iff in Hb. destruct Hb as [w [<- Hw]]. cbn [snd].
    rewrite Forall_forall in F. destruct (F w Hw) as [A|A]; auto. rewrite (S w w0 Hw Hw0) in A. congruence. }
  destruct X as [ws E]. rewrite E. destruct (run_ok _ _ _ G E) as [-> _]. auto.
Qed.

Lemma writes_ok : forall all ms wss, Forall good_work all -> mapM (run all) ms = Ok wss ->
  forall i v, In (i, v) (concat wss) <->
    exists w, In w all /\ In (nan_mask (values (fst (snd w)))) ms /\ fst w = i /\ v = (row_chi w, row_p w).
Proof.
  intros all ms wss G. revert wss. induction ms; intros wss H.
  - cbn in H. inversion H; subst. cbn. intros. split; [tauto|]. intros [w [_ [[] _]]].
  - cbn [mapM] in H. destruct (run all a) eqn:E; [|discriminate]. cbn [bind] in H.
    destruct (mapM (run all) ms) eqn:E2; [|discriminate]. cbn [bind] in H. inversion H; subst. cbn [concat].
    intros. rewrite in_app_iff, (IHms _ eq_refl). apply run_ok in E; auto. destruct E as [-> _].
    rewrite in_map_iff. split.
    + intros [[w [H1 H2]]|[w [H1 [H2 [H3 H4]]]]].
      * apply selected_In in H2. destruct H2 as [H2 H3]. inversion H1; subst. exists w. cbn. unfold same_mask in H3. intuition.
      * exists w. cbn. intuition.
    + intros [w [H1 [[H2|H2] [H3 H4]]]].
      * left. exists w. split; [congruence|]. apply selected_In. unfold same_mask. auto.
      * right. exists w. auto.
Qed.
Lemma mapM_make : forall {A B} (f : A -> result B) (g : A -> B) l, (forall a, In a l -> f a = Ok (g a)) -> mapM f l = Ok (map g l).
Proof.
  induction l as [|a l IH]; intros H; auto. cbn [mapM map]. rewrite (H a (or_introl eq_refl)). cbn [bind].
  rewrite IH; [reflexivity|]. intros. apply H. cbn. auto.
Qed.
Lemma mapM_In_ok : forall {A B} (f : A -> result B) l r a, mapM f l = Ok r -> In a l -> exists b, f a = Ok b.
Proof.
  induction l; cbn; intros; [tauto|]. destruct (f a) eqn:E; [|discriminate]. cbn in H.
  destruct (mapM f l) eqn:E2; [|discriminate]. destruct H0; subst; eauto.
Qed.

(* the checks that do not depend on the rows' numbers *)
Definition checks (custom : bool) (obs pred : coords) : Prop :=
  (custom = true \/ (supported (kind obs) = true /\ supported (kind pred) = true)) /\
  kind obs = kind pred /\ frame obs = frame pred /\
  (exists ne, origins_differ (origins obs) (origins pred) = Ok ne /\ forallb (fun b => b) ne = false) /\
  (List.length (rows pred) = 1%nat \/ List.length (rows pred) = List.length (rows obs)).
Definition works (up : bool) (obs pred : coords) : list work :=
  zip_with (fun i op => (i, (fst op, (resid (kind obs) (fst op) (snd op), tcov (kind obs) up (fst op) (snd op)))))
           (seq 0 (List.length (rows obs))) (combine (rows obs) (broadcast (rows pred) (List.length (rows obs)))).
Definition the_masks (obs : coords) := unique_masks (map (fun o => nan_mask (values o)) (rows obs)).
Definition finish (all : list work) (ws : list (list (nat * (num * num)))) : list (option rrow) :=
  map (fun w : work => option_map (fun cp => mkrrow (fst (snd (snd w))) (fst cp) (dof_row (fst (snd w))) (snd cp))
                        (read (concat ws) (fst w))) all.

Lemma calc_checks : forall custom up obs pred rs, calc custom up obs pred = Ok rs ->
  checks custom obs pred /\ exists ws, mapM (run (works up obs pred)) (the_masks obs) = Ok ws /\ rs = finish (works up obs pred) ws.
Proof.
  intros custom up obs pred rs. unfold calculate.
  destruct (negb custom && negb (supported (kind obs))) eqn:E1; [discriminate|].
  destruct (negb custom && negb (supported (kind pred))) eqn:E2; [discriminate|].
  destruct (negb (String.eqb (kind obs) (kind pred))) eqn:E3; [discriminate|].
  destruct (origins_differ _ _) as [ne|] eqn:E4; [|discriminate]. cbn [bind].
  destruct (forallb _ ne) eqn:E5; [discriminate|].
  destruct (negb (String.eqb (frame obs) (frame pred))) eqn:E6; [discriminate|].
  cbv zeta. destruct (negb (List.length (rows pred) =? 1)%nat && negb (List.length (rows pred) =? List.length (rows obs))%nat) eqn:E7; [intros X; discriminate X|].
  destruct (mapM _ _) eqn:E8; [|intros X; discriminate X]. cbn [bind]. intros H. inversion H. clear H. split.
  - repeat split.
    + clear -E1 E2. revert E1 E2. destruct custom; [auto|]. right. revert E1 E2.
      destruct (supported (kind obs)), (supported (kind pred)); cbn; intros X Y; try discriminate X; try discriminate Y; auto.
    + destruct (String.eqb_spec (kind obs) (kind pred)) as [X|X]; [exact X|discriminate E3].
    + destruct (String.eqb_spec (frame obs) (frame pred)) as [X|X]; [exact X|discriminate E6].
    + eauto.
    + destruct (Nat.eqb_spec (List.length (rows pred)) 1) as [X|X]; [auto|].
      destruct (Nat.eqb_spec (List.length (rows pred)) (List.length (rows obs))) as [Y|Y]; [auto|discriminate E7].
  - exists a. split; auto.
Qed.
Lemma calc_make : forall custom up obs pred ws, checks custom obs pred ->
  mapM (run (works up obs pred)) (the_masks obs) = Ok ws ->
  calc custom up obs pred = Ok (finish (works up obs pred) ws).
Proof.
  intros custom up obs pred ws [H1 [H2 [H3 [[ne [H4 H5]] H6]]]] HM. unfold calculate.
  replace (negb custom && negb (supported (kind obs))) with false
    by (destruct H1 as [->|[-> ?]]; cbn; auto; symmetry; apply andb_false_r).
  replace (negb custom && negb (supported (kind pred))) with false
    by (destruct H1 as [->|[? ->]]; cbn; auto; symmetry; apply andb_false_r).
  rewrite H2, String.eqb_refl. cbn [negb]. rewrite H4. cbn [bind]. rewrite H5, H3, String.eqb_refl. cbn [negb].
  replace (negb (List.length (rows pred) =? 1)%nat && negb (List.length (rows pred) =? List.length (rows obs))%nat) with false.
  2: { destruct H6 as [->| ->]; rewrite ?Nat.eqb_refl; cbn; auto. symmetry. apply andb_false_r. }
  rewrite <- H2. fold (works up obs pred). fold (the_masks obs). rewrite HM. reflexivity.
Qed.

Lemma broadcast_length : forall {A} (l : list A) n, List.length l = 1%nat \/ List.length l = n -> List.length (broadcast l n) = n.
Proof.
  intros. destruct l as [|x [|y l]]; cbn in *; try lia. rewrite repeat_length. auto.
Qed.
Lemma nth_repeat_some : forall {A} (x : A) n i, (i < n)%nat -> nth_error (repeat x n) i = Some x.
Proof. induction n; intros; [lia|]. destruct i; cbn; auto. apply IHn. lia. Qed.
Lemma broadcast_partner : forall t n i p, (i < n)%nat ->
  (List.length (rows t) = 1%nat \/ List.length (rows t) = n) ->
  (nth_error (broadcast (rows t) n) i = Some p <-> partner t i p).
Proof.
  intros t n i p Hi HL. unfold partner. destruct (rows t) as [|x [|y l]] eqn:E; cbn [broadcast].
  - cbn in HL. lia.
  - rewrite nth_repeat_some by auto. split.
    + intros H. inversion H; subst. auto.
    + intros [H|[H _]]; [inversion H; auto|cbn in H; lia].
  - split; [intros; right; cbn; split; auto; lia|]. intros [H|[_ H]]; [discriminate|auto].
Qed.
Lemma works_length : forall up obs pred,
  List.length (rows pred) = 1%nat \/ List.length (rows pred) = List.length (rows obs) ->
  List.length (works up obs pred) = List.length (rows obs).
Proof.
  intros. unfold works, zip_with. rewrite map_length, combine_length, combine_length, seq_length, broadcast_length by auto. lia.
Qed.
Lemma nth_combine_some : forall {A B} (l : list A) (m : list B) i a b,
  nth_error l i = Some a -> nth_error m i = Some b -> nth_error (combine l m) i = Some (a, b).
Proof. induction l; destruct m, i; cbn; intros; try discriminate; auto. congruence. Qed.
Lemma nth_combine_inv : forall {A B} (l : list A) (m : list B) i a b,
  nth_error (combine l m) i = Some (a, b) -> nth_error l i = Some a /\ nth_error m i = Some b.
Proof. induction l; destruct m, i; cbn; intros; try discriminate; auto. inversion H; auto. Qed.
Lemma nth_seq_some : forall n i, (i < n)%nat -> nth_error (seq 0 n) i = Some i.
Proof.
  intros. rewrite nth_error_nth' with (d := 0%nat) by (rewrite seq_length; auto). rewrite seq_nth by auto. auto.
Qed.
Definition the_work up (obs : coords) i o p : work := (i, (o, (resid (kind obs) o p, tcov (kind obs) up o p))).
Lemma works_nth : forall up obs pred i o p,
  List.length (rows pred) = 1%nat \/ List.length (rows pred) = List.length (rows obs) ->
  nth_error (rows obs) i = Some o -> partner pred i p ->
  nth_error (works up obs pred) i = Some (the_work up obs i o p).
Proof.
  intros up obs pred i o p HL Ho Hp.
  assert (Hi : (i < List.length (rows obs))%nat) by (apply nth_error_Some; congruence).
  unfold works, zip_with. rewrite nth_error_map.
  rewrite nth_combine_some with (a := i) (b := (o, p)); [reflexivity|apply nth_seq_some; auto|].
  apply nth_combine_some; auto. apply broadcast_partner; auto.
Qed.
Lemma works_inv : forall up obs pred w,
  List.length (rows pred) = 1%nat \/ List.length (rows pred) = List.length (rows obs) ->
  In w (works up obs pred) ->
  exists i o p, nth_error (rows obs) i = Some o /\ partner pred i p /\ w = the_work up obs i o p.
Proof.
  intros up obs pred w HL H. apply In_nth_error in H. destruct H as [i Hi].
  unfold works, zip_with in Hi. rewrite nth_error_map in Hi.
  destruct (nth_error (combine _ _) i) as [[k [o p]]|] eqn:E; [|discriminate]. cbn in Hi. inversion Hi. clear Hi.
  apply nth_combine_inv in E. destruct E as [E1 E2]. apply nth_combine_inv in E2. destruct E2 as [E2 E3].
  assert (Hn : (i < List.length (rows obs))%nat) by (apply nth_error_Some; congruence).
  rewrite nth_seq_some in E1 by auto. inversion E1; subst k. exists i, o, p. split; auto. split; auto.
  apply broadcast_partner in E3; auto.
Qed.
Lemma partner_ex : forall obs pred i o,
  List.length (rows pred) = 1%nat \/ List.length (rows pred) = List.length (rows obs) ->
  nth_error (rows obs) i = Some o -> exists p, partner pred i p.
Proof.
  intros obs pred i o HL Ho. assert (Hn : (i < List.length (rows obs))%nat) by (apply nth_error_Some; congruence).
  destruct (nth_error (broadcast (rows pred) (List.length (rows obs))) i) as [p|] eqn:E.
  - exists p. apply broadcast_partner in E; auto.
  - apply nth_error_None in E. rewrite broadcast_length in E by auto. lia.
Qed.
Lemma partner_In : forall t i p, partner t i p -> In p (rows t).
Proof. intros t i p [->|[_ H]]; [cbn; auto|]. eapply nth_error_In; eauto. Qed.

Lemma zip_square : forall D a b, square D a -> square D b -> square D (zip_with (zip_with nadd) a b).
Proof.
  intros D a b [A1 A2] [B1 B2]. unfold zip_with at 1. split.
  - rewrite map_length, combine_length. lia.
  - apply Forall_forall. intros r Hr. apply in_map_iff in Hr. destruct Hr as [[x y] [<- Hr]]. cbn [fst snd].
    unfold zip_with. rewrite map_length, combine_length.
    rewrite Forall_forall in A2, B2. rewrite (A2 x), (B2 y); [lia|eapply in_combine_r; eauto|eapply in_combine_l; eauto].
Qed.
Lemma map_square : forall D f m, square D m -> square D (map (map f) m).
Proof.
  intros D f m [H1 H2]. split; [rewrite map_length; auto|]. apply Forall_forall. intros r Hr.
  apply in_map_iff in Hr. destruct Hr as [r0 [<- Hr]]. rewrite map_length. rewrite Forall_forall in H2. auto.
Qed.
Hypothesis sph_shape : forall v m, square (List.length v) m -> square (List.length v) (sph_cov v m).

Lemma tcov_square : forall k up o p, square (List.length (values o)) (cov o) -> square (List.length (values o)) (cov p) ->
  square (List.length (values o)) (tcov k up o p).
Proof.
  intros. unfold total_cov. destruct up, (String.eqb k "Spherical"); apply zip_square; auto using map_square.
Qed.
Lemma works_good : forall D up obs pred, shaped D obs -> shaped D pred ->
  List.length (rows pred) = 1%nat \/ List.length (rows pred) = List.length (rows obs) ->
  Forall good_work (works up obs pred).
Proof.
  intros D up obs pred [_ SO] [_ SP] HL. apply Forall_forall. intros w Hw. apply works_inv in Hw; auto.
  destruct Hw as [i [o [p [Ho [Hp ->]]]]]. unfold good_work, the_work. cbn [fst snd].
  rewrite Forall_forall in SO, SP. destruct (SO o (nth_error_In _ _ Ho)) as [L1 L2].
  destruct (SP p (partner_In _ _ _ Hp)) as [_ L3]. apply tcov_square; rewrite L1; auto.
Qed.

(* every row of the result is what that row gives by itself *)
Lemma calc_rows : forall D custom up obs pred rs, shaped D obs -> shaped D pred ->
  calc custom up obs pred = Ok rs ->
  List.length rs = List.length (rows obs) /\
  forall i o, nth_error (rows obs) i = Some o -> exists p, partner pred i p /\
    row_fine (the_work up obs i o p) /\
    nth_error rs i = Some (Some (mkrrow (resid (kind obs) o p) (row_chi (the_work up obs i o p)) (dof_row o)
                                        (row_p (the_work up obs i o p)))).
Proof.
  intros D custom up obs pred rs SO SP H. apply calc_checks in H. destruct H as [HC [ws [HM ->]]].
  assert (HL := proj2 (proj2 (proj2 (proj2 HC)))).
  pose proof (works_good D up obs pred SO SP HL) as G.
  split; [unfold finish; rewrite map_length; apply works_length; auto|].
  intros i o Ho. destruct (partner_ex obs pred i o HL Ho) as [p Hp]. exists p. split; auto.
  pose proof (works_nth up obs pred i o p HL Ho Hp) as HW.
  assert (HMI : In (nan_mask (values o)) (the_masks obs)).
  { unfold the_masks. apply unique_masks_In. apply in_map_iff. exists o. split; auto. eapply nth_error_In; eauto. }
  split.
  - destruct (mapM_In_ok _ _ _ _ HM HMI) as [b Hb]. apply run_ok in Hb; auto. destruct Hb as [_ F].
    rewrite Forall_forall in F. apply F. apply selected_In. split; [eapply nth_error_In; eauto|reflexivity].
  - unfold finish. rewrite nth_error_map, HW. cbn [option_map fst the_work snd].
    rewrite (read_unique _ _ (row_chi (the_work up obs i o p), row_p (the_work up obs i o p))); [reflexivity| |].
    + apply (writes_ok _ _ _ G HM). exists (the_work up obs i o p). repeat split; auto. eapply nth_error_In; eauto.
    + intros v' Hv. apply (writes_ok _ _ _ G HM) in Hv. destruct Hv as [w [Hw [_ [Hf ->]]]].
      apply works_inv in Hw; auto. destruct Hw as [i' [o' [p' [Ho' [Hp' ->]]]]]. cbn [fst the_work] in Hf. subst i'.
      rewrite Ho in Ho'. inversion Ho'; subst o'.
      assert (p' = p); [|subst; auto].
      destruct Hp as [Hp|[N Hp]], Hp' as [Hp'|[N' Hp']]; try congruence; rewrite ?Hp, ?Hp' in *; cbn in *; congruence.
Qed.
Lemma partner_fun : forall t i p p', partner t i p -> partner t i p' -> p = p'.
Proof.
  intros t i p p' [H|[N H]] [H'|[N' H']]; try congruence; rewrite ?H, ?H' in *; cbn in *; congruence.
Qed.

Lemma partner_single : forall t c p, partner (single t c p) 0 p.
Proof. intros. left. reflexivity. Qed.
Lemma shaped_single : forall D t c r, List.length (values r) = D -> square D (cov r) -> shaped D (single t c r).
Proof. intros. split; [reflexivity|]. cbn [single rows]. apply Forall_cons; [split; auto|apply Forall_nil]. Qed.
Lemma checks_single : forall custom obs pred c o p, checks custom obs pred -> checks custom (single obs c o) (single pred c p).
Proof.
  intros custom obs pred c o p [H1 [H2 [H3 [_ _]]]]. split; [auto|]. split; [auto|]. split; [auto|]. split; [|cbn; auto].
  exists [false]. cbn. unfold zip_with. cbn. rewrite String.eqb_refl. auto.
Qed.
Lemma single_works : forall up obs pred c o p, works up (single obs c o) (single pred c p) = [the_work up obs 0 o p].
Proof. reflexivity. Qed.
Lemma single_masks : forall obs c o, the_masks (single obs c o) = [nan_mask (values o)].
Proof. reflexivity. Qed.
Lemma single_ok : forall D custom up obs pred c o p, checks custom obs pred ->
  List.length (values o) = D -> square D (cov o) -> square D (cov p) -> List.length (values p) = D ->
  row_fine (the_work up obs 0 o p) ->
  exists r, calc custom up (single obs c o) (single pred c p) = Ok [Some r].
Proof.
  intros D custom up obs pred c o p HC L1 L2 L3 L4 F.
  assert (G : Forall good_work (works up (single obs c o) (single pred c p))).
  { apply (works_good D); auto using shaped_single. }
  assert (HM : mapM (run (works up (single obs c o) (single pred c p))) (the_masks (single obs c o))
     = Ok [map (fun w => (fst w, (row_chi w, row_p w))) (selected (works up (single obs c o) (single pred c p)) (nan_mask (values o)))]).
  { rewrite single_masks. cbn [mapM]. rewrite run_make; auto.
    - apply Forall_forall. intros w Hw. apply selected_In in Hw. destruct Hw as [Hw _]. rewrite single_works in Hw.
      destruct Hw as [<-|[]]. auto.
    - intros w w' Hw Hw'. apply selected_In in Hw. apply selected_In in Hw'. rewrite single_works in *.
      destruct Hw as [[<-|[]] _], Hw' as [[<-|[]] _]. auto. }
  pose proof (calc_make custom up _ _ _ (checks_single custom obs pred c o p HC) HM) as E.
  clear HM. set (rs := finish _ _) in E. clearbody rs.
  destruct (calc_rows D custom up _ _ _ (shaped_single D obs c o L1 L2) (shaped_single D pred c p L4 L3) E) as [L R].
  destruct (R 0%nat o eq_refl) as [p' [Hp' [_ R2]]]. cbn [single rows List.length] in L.
  destruct rs as [|x [|? ?]]; try discriminate L. cbn [nth_error] in R2. injection R2 as ->. eauto.
Qed.
Lemma single_fine : forall D custom up obs pred c o p r, List.length (values o) = D -> square D (cov o) ->
  square D (cov p) -> List.length (values p) = D ->
  calc custom up (single obs c o) (single pred c p) = Ok [Some r] -> row_fine (the_work up obs 0 o p) /\
    r = mkrrow (resid (kind obs) o p) (row_chi (the_work up obs 0 o p)) (dof_row o) (row_p (the_work up obs 0 o p)).
Proof.
  intros D custom up obs pred c o p r L1 L2 L3 L4 E.
  destruct (calc_rows D custom up _ _ _ (shaped_single D obs c o L1 L2) (shaped_single D pred c p L4 L3) E) as [_ R].
  destruct (R 0%nat o eq_refl) as [p' [Hp' [F R2]]].
  rewrite (partner_fun _ _ _ _ Hp' (partner_single pred c p)) in *. cbn in R2. inversion R2. split; auto.
Qed.

(* C50: rowwise *)
Lemma rowwise_alone : forall D custom up obs pred rs, shaped D obs -> shaped D pred ->
  calc custom up obs pred = Ok rs ->
  List.length rs = List.length (rows obs) /\
  forall i o p c, nth_error (rows obs) i = Some o -> partner pred i p ->
    exists r, nth_error rs i = Some (Some r) /\ calc custom up (single obs c o) (single pred c p) = Ok [Some r].
Proof.
  intros D custom up obs pred rs SO SP H. destruct (calc_rows D custom up obs pred rs SO SP H) as [L R]. split; auto.
  intros i o p c Ho Hp. destruct (R i o Ho) as [p' [Hp' [F R2]]]. rewrite (partner_fun _ _ _ _ Hp' Hp) in *.
  eexists. split; [exact R2|].
  destruct SO as [_ SO], SP as [_ SP]. rewrite Forall_forall in SO, SP.
  destruct (SO o (nth_error_In _ _ Ho)). destruct (SP p (partner_In _ _ _ Hp)).
  destruct (single_ok D custom up obs pred c o p) as [r Hr]; auto.
  { apply calc_checks in H. apply H. }
  rewrite Hr. destruct (single_fine D custom up obs pred c o p r) as [_ ->]; auto.
Qed.

(* the converse: when the rows with the same missing values agree on whether there is any
   covariance at all *)
Lemma calc_complete : forall D custom up obs pred, shaped D obs -> shaped D pred -> checks custom obs pred ->
  (forall i o p, nth_error (rows obs) i = Some o -> partner pred i p ->
     exists c r, calc custom up (single obs c o) (single pred c p) = Ok [Some r]) ->
  (forall i j o p o' p', nth_error (rows obs) i = Some o -> partner pred i p ->
     nth_error (rows obs) j = Some o' -> partner pred j p' -> dims (values o) = dims (values o') ->
     nothing_known (sub_matrix (dims (values o)) (tcov (kind obs) up o p)) ->
     nothing_known (sub_matrix (dims (values o')) (tcov (kind obs) up o' p'))) ->
  exists rs, calc custom up obs pred = Ok rs.
Proof.
  intros D custom up obs pred SO SP HC HA HS.
  assert (HL := proj2 (proj2 (proj2 (proj2 HC)))).
  pose proof (works_good D up obs pred SO SP HL) as G.
  assert (SH : forall i o p, nth_error (rows obs) i = Some o -> partner pred i p ->
    (List.length (values o) = D /\ square D (cov o)) /\ (List.length (values p) = D /\ square D (cov p))).
  { intros i o p Ho Hp. destruct SO as [_ SO], SP as [_ SP]. rewrite Forall_forall in SO, SP. split.
    - apply SO. eapply nth_error_In; eauto. - apply SP. eapply partner_In; eauto. }
  eexists. eapply calc_make; auto. apply mapM_make. intros m Hm. apply run_make; auto.
  - apply Forall_forall. intros w Hw. apply selected_In in Hw. destruct Hw as [Hw _]. apply works_inv in Hw; auto.
    destruct Hw as [i [o [p [Ho [Hp ->]]]]]. destruct (HA i o p Ho Hp) as [c [r E]]. destruct (SH i o p Ho Hp) as [[A B] [C E']].
    apply (single_fine D) in E; auto. apply E.
  - assert (X : forall w w', In w (selected (works up obs pred) m) -> In w' (selected (works up obs pred) m) ->
        allnan (row_cov w) = true -> allnan (row_cov w') = true).
    { intros w w' Hw Hw' A. apply selected_In in Hw. apply selected_In in Hw'. destruct Hw as [Hw Mw], Hw' as [Hw' Mw'].
      apply works_inv in Hw; auto. apply works_inv in Hw'; auto.
      destruct Hw as [i [o [p [Ho [Hp ->]]]]], Hw' as [j [o' [p' [Ho' [Hp' ->]]]]].
      unfold same_mask, the_work in Mw, Mw'. cbn [fst snd] in Mw, Mw'.
      unfold row_cov, the_work in *. cbn [fst snd] in *. rewrite keep2_dims in *. apply allnan_spec. apply allnan_spec in A.
      apply (HS i j o p o' p'); auto.
      clear -Mw Mw'. assert (E : nan_mask (values o) = nan_mask (values o')) by congruence. clear Mw Mw'.
      revert E. generalize (values o) as u, (values o') as v. clear. induction u as [|x u IH]; destruct v as [|y v]; cbn [nan_mask map]; intros E; try discriminate; auto.
      rewrite !dims_cons. injection E as E1 E2. rewrite E1. f_equal. f_equal. apply IH. auto. }
    intros w w' Hw Hw'. destruct (allnan (row_cov w)) eqn:A, (allnan (row_cov w')) eqn:B; auto.
    + rewrite (X w w') in B; auto. + rewrite (X w' w) in A; auto.
Qed.

(* explicit value for every row *)
Lemma row_values : forall D custom up obs pred rs i o p, shaped D obs -> shaped D pred ->
  calc custom up obs pred = Ok rs -> nth_error (rows obs) i = Some o -> partner pred i p ->
  exists r, nth_error rs i = Some (Some r) /\
    r_values r = resid (kind obs) o p /\ r_dof r = Z.of_nat (List.length (dims (values o))) /\
    let S := sub_matrix (dims (values o)) (tcov (kind obs) up o p) in
    (nothing_known S -> r_chi2 r = None /\ r_p r = None) /\
    (~ nothing_known S -> r_chi2 r = mahalanobis (at_dims (dims (values o)) (r_values r)) (filled S) /\
                          r_p r = tail (r_chi2 r) (r_dof r)).
Proof.
  intros D custom up obs pred rs i o p SO SP H Ho Hp. destruct (calc_rows D custom up obs pred rs SO SP H) as [_ R].
  destruct (R i o Ho) as [p' [Hp' [F R2]]]. rewrite (partner_fun _ _ _ _ Hp' Hp) in *.
  eexists. split; [exact R2|]. cbn [r_values r_dof r_chi2 r_p]. rewrite dof_dims. split; auto. split; auto.
  unfold row_p, row_chi, row_cov, row_res, the_work. cbn [fst snd]. rewrite keep2_dims, keep_dims, dof_dims.
  set (S := sub_matrix _ _). cbv zeta. destruct (allnan S) eqn:E.
  - split; auto. intros N. apply allnan_spec in E. tauto.
  - split; auto. intros N. apply allnan_spec in N. congruence.
Qed.

(* origins *)
Lemma origins_checked : forall custom up obs pred rs, List.length (origins obs) = List.length (origins pred) ->
  calc custom up obs pred = Ok rs ->
  exists i c, nth_error (origins obs) i = Some c /\ nth_error (origins pred) i = Some c.
Proof.
  intros custom up obs pred rs L H. apply calc_checks in H. destruct H as [[_ [_ [_ [[ne [E F]] _]]]] _].
  unfold origins_differ in E. rewrite L, Nat.eqb_refl in E. inversion E; subst ne. clear E.
  assert (X : exists b, In b (zip_with (fun x y => negb (String.eqb x y)) (origins obs) (origins pred)) /\ b = false).
  { clear -F. induction (zip_with _ _ _); [discriminate|]. destruct a; [|exists false; cbn; auto].
    destruct IHl as [b [H1 H2]]; auto. exists b. cbn. auto. }
  destruct X as [b [Hb ->]]. unfold zip_with in Hb. apply in_map_iff in Hb. destruct Hb as [[x y] [E Hb]]. cbn in E.
  apply In_nth_error in Hb. destruct Hb as [i Hi]. apply nth_combine_inv in Hi.
  destruct (String.eqb_spec x y); [subst|discriminate]. exists i, y. auto.
Qed.
Lemma origins_all_differ : forall custom up obs pred, List.length (origins obs) = List.length (origins pred) ->
  kind obs = kind pred -> supported (kind obs) = true ->
  (forall i c d, nth_error (origins obs) i = Some c -> nth_error (origins pred) i = Some d -> c <> d) ->
  calc custom up obs pred = Err ValueError.
Proof.
  intros custom up obs pred L K S N. unfold calculate. rewrite <- K, S, String.eqb_refl. cbn [negb]. rewrite !andb_false_r.
  unfold origins_differ. rewrite L, Nat.eqb_refl. cbn [bind].
  replace (forallb (fun b => b) (zip_with (fun x y => negb (String.eqb x y)) (origins obs) (origins pred))) with true; auto.
  symmetry. apply forallb_forall. intros b Hb. unfold zip_with in Hb. apply in_map_iff in Hb. destruct Hb as [[x y] [<- Hb]]. cbn.
  apply In_nth_error in Hb. destruct Hb as [i Hi]. apply nth_combine_inv in Hi. destruct Hi as [H1 H2].
  destruct (String.eqb_spec x y); auto. exfalso. exact (N i x y H1 H2 e).
Qed.
End Calc.

Lemma nth_zip_with : forall {A B C} (f : A -> B -> C) l m i a b,
  nth_error l i = Some a -> nth_error m i = Some b -> nth_error (zip_with f l m) i = Some (f a b).
Proof. intros. unfold zip_with. rewrite nth_error_map, (nth_combine_some l m i a b) by auto. reflexivity. Qed.
Lemma entry_map : forall f m j k a, entry m j k = Some a -> entry (map (map f) m) j k = Some (f a).
Proof.
  intros f m j k a. unfold entry. rewrite nth_error_map. destruct (nth_error m j); cbn; [|discriminate].
  intros H. rewrite nth_error_map, H. reflexivity.
Qed.
Lemma entry_zip : forall m n j k a b, entry m j k = Some a -> entry n j k = Some b ->
  entry (zip_with (zip_with nadd) m n) j k = Some (nadd a b).
Proof.
  intros m n j k a b. unfold entry. destruct (nth_error m j) eqn:E1; [|discriminate].
  destruct (nth_error n j) eqn:E2; [|discriminate]. intros H1 H2. rewrite (nth_zip_with _ _ _ _ _ _ E1 E2).
  apply nth_zip_with; auto.
Qed.
Lemma tcov_combined : forall sph_cov k up o p, k <> "Spherical"%string ->
  combined up (cov o) (cov p) (total_cov sph_cov k up o p).
Proof.
  intros sc k up o p NK j l a b Ha Hb. unfold total_cov. destruct (String.eqb_spec k "Spherical"); [contradiction|].
  destruct up.
  - rewrite (entry_zip _ _ _ _ a (fill0 b)); auto using entry_map. eexists. split; [reflexivity|].
    destruct a; [|reflexivity]. destruct b; cbn; eexists; split; reflexivity.
  - rewrite (entry_zip _ _ _ _ a (Some (0 # 1)%Q)); auto.
    2: { apply (entry_map (fun _ => Some (0 # 1)%Q)) in Ha. exact Ha. }
    eexists. split; [reflexivity|]. destruct a; [|reflexivity]. cbn. eexists. split; [reflexivity|].
    destruct b; reflexivity.
Qed.
Lemma zeroed_filled : forall m, zeroed m = filled m.
Proof. intros. unfold zeroed, filled. apply map_ext. intros. apply map_ext. intros [x|]; reflexivity. Qed.
Lemma row_plain : forall sr sc inv mah tail, (forall v m, square (List.length v) m -> square (List.length v) (sc v m)) ->
  forall D custom up obs pred rs i o p, kind obs <> "Spherical"%string -> shaped D obs -> shaped D pred ->
  calculate sr sc inv mah tail custom up obs pred = Ok rs -> nth_error (rows obs) i = Some o -> partner pred i p ->
  exists r T, nth_error rs i = Some (Some r) /\
    (forall j a b, nth_error (values o) j = Some a -> nth_error (values p) j = Some b ->
       nth_error (r_values r) j = Some (match a, b with Some x, Some y => Some (x - y)%Q | _, _ => None end)) /\
    r_dof r = Z.of_nat (List.length (dims (values o))) /\
    combined up (cov o) (cov p) T /\ square D T /\
    (nothing_known (sub_matrix (dims (values o)) T) -> r_chi2 r = None /\ r_p r = None) /\
    (~ nothing_known (sub_matrix (dims (values o)) T) ->
       r_chi2 r = mah (at_dims (dims (values o)) (r_values r)) (zeroed (sub_matrix (dims (values o)) T)) /\
       r_p r = tail (r_chi2 r) (r_dof r)).
Proof.
  intros sr sc inv mah tail SH D custom up obs pred rs i o p NK SO SP H Ho Hp.
  destruct (row_values sr sc inv mah tail SH D custom up obs pred rs i o p SO SP H Ho Hp) as [r [R1 [R2 [R3 [R4 R5]]]]].
  exists r, (total_cov sc (kind obs) up o p). split; auto. split.
  - intros j a b Ha Hb. rewrite R2. unfold residual_row. destruct (String.eqb_spec (kind obs) "Spherical"); [contradiction|].
    rewrite (nth_zip_with _ _ _ _ _ _ Ha Hb). destruct a, b; reflexivity.
  - split; auto. split; [apply tcov_combined; auto|]. split; [|split; [exact R4|rewrite zeroed_filled; exact R5]].
    destruct SO as [_ SO], SP as [_ SP]. rewrite Forall_forall in SO, SP.
    destruct (SO o (nth_error_In _ _ Ho)) as [L1 L2]. destruct (SP p (partner_In _ _ _ Hp)) as [_ L3].
    rewrite <- L1. apply tcov_square; auto; rewrite L1; auto.
Qed.
