(* Proofs about the rows of the collapsed ephemeris. *)
From Coq Require Import Reals Lra Lia ZArith String List Bool Sorted Permutation.
From Verif Require Import Base ListLemmas StrOrder SphModel SphSpec SphProofs KepModel KepProofs SigmaModel CollModel CollSpec CollProofs CollStat.
Import ListNotations.
Open Scope string_scope.
Open Scope list_scope.
Open Scope R_scope.

Lemma collapse_ext : forall w w' g, w g = w' g -> collapse_rows w g = collapse_rows w' g.
Proof. intros w w' [|a g] E; [reflexivity|]. cbn [collapse_rows]. rewrite E. reflexivity. Qed.
Lemma variants_in : forall k rows v, In v (variants_of k rows) <-> In v rows /\ about_row v = k.
Proof. intros. unfold variants_of. rewrite filter_In. destruct (about_dec (about_row v) k); intuition congruence. Qed.
Lemma base_row : forall chunk rows r, (0 < chunk)%nat -> In r (collapse_base chunk rows) ->
  variants_of (about_out r) rows <> [] /\ In (variants_of (about_out r) rows) (groups rows) /\ collapse_rows (weights_for rows) (variants_of (about_out r) rows) = Some r.
Proof.
  intros chunk rows r C H. rewrite base_map in H by exact C. apply in_somes in H. apply in_map_iff in H as (g & E & G). pose proof (runs_nonempty _ g G) as N. destruct g as [|a g]; [congruence|].
  destruct (collapse_about _ _ a r E eq_refl) as [A _]. rewrite A. assert (Q : a :: g = variants_of (about_row a) rows) by (apply group_is; [exact G|left; reflexivity]). rewrite <- Q. repeat split; [congruence|exact G|exact E].
Qed.
Lemma base_has : forall chunk rows v, (0 < chunk)%nat -> In v rows -> exists r, In r (collapse_base chunk rows) /\ about_out r = about_row v.
Proof.
  intros chunk rows v C V. pose proof (group_of_row rows v V) as G. destruct (collapse_some (weights_for rows) rows _ G) as (r & E). exists r. split.
  - rewrite base_map by exact C. apply in_somes. apply in_map_iff. eauto.
  - assert (N : In v (variants_of (about_row v) rows)) by (apply variants_in; auto). destruct (variants_of (about_row v) rows) as [|a g] eqn:Q; [destruct N|]. destruct (collapse_about _ _ a r E eq_refl) as [A _]. rewrite A.
    assert (In a (variants_of (about_row v) rows)) by (rewrite Q; left; reflexivity). apply variants_in in H. tauto.
Qed.
Lemma before_iff : forall a b, before (about_row a) (about_row b) <-> group_leb a b = true /\ about_row a <> about_row b.
Proof.
  intros a b. rewrite group_cases. unfold before, about_row. destruct (e_object a) as [x|] eqn:OA, (e_object b) as [y|] eqn:OB; cbn [oleb_str].
  - split.
    + intros [[N L]|[E D]].
      * split; [left; split; [congruence|exact L]|congruence].
      * split; [right; split; [exact E|intuition]|]. intro Q. injection Q as _ Q1 Q2 Q3. intuition (try lia; congruence).
    + intros [[[N L]|[E D]] Q]; [left; split; congruence|]. right. split; [exact E|]. destruct D as [D|[D [M|[M K]]]]; [auto|auto|]. right. split; [exact D|]. right. split; [exact M|]. split; [|exact K]. intro; apply Q. congruence.
  - split; [intros _; split; [left; split; congruence|congruence]|intros _; left; exact I].
  - split; [intros [[]|[E _]]; congruence|intros [[[_ L]|[E _]] _]; congruence].
  - split.
    + intros [[]|[E D]]. split; [right; split; [exact E|intuition]|]. intro Q. injection Q as Q1 Q2 Q3. intuition (try lia; congruence).
    + intros [[[N L]|[E D]] Q]; [congruence|]. right. split; [exact E|]. destruct D as [D|[D [M|[M K]]]]; [auto|auto|]. right. split; [exact D|]. right. split; [exact M|]. split; [|exact K]. intro; apply Q. congruence.
Qed.
Lemma heads_sorted : forall gs, (forall g, In g gs -> g <> []) -> StronglySorted (fun a b => group_leb a b = true) (concat gs) ->
  ForallOrdPairs (fun g h => forall a b, In a g -> In b h -> about_row a <> about_row b) gs ->
  forall w, StronglySorted before (map about_out (somes (map (collapse_rows w) gs))).
Proof.
  intros gs N S P w. induction gs as [|g gs IH]; [constructor|]. destruct g as [|a g]; [exfalso; apply (N []); [left; reflexivity|reflexivity]|].
  inversion P as [|? ? PF P2]; subst. assert (S2 : StronglySorted (fun a b => group_leb a b = true) (concat gs)).
  { clear -S. cbn [concat] in S. revert S. generalize (a :: g). intros l S. induction l as [|x l IHl]; [exact S|]. inversion S; subst. auto. }
  cbn [concat app] in S. inversion S as [|? ? _ SF]; subst.
  change (somes (map (collapse_rows w) ((a :: g) :: gs))) with (mkcrow (e_orbit a) (e_object a) (e_day a) (e_nanos a) (e_code a) (fst (moments (w (a :: g)) (map e_vals (a :: g)))) (snd (moments (w (a :: g)) (map e_vals (a :: g)))) (present_mean (fst (w (a :: g))) (map e_mag (a :: g))) None None :: somes (map (collapse_rows w) gs)).
  cbn [map]. constructor; [apply IH; [intros; apply N; right; assumption|exact S2|exact P2]|]. rewrite Forall_forall in *. intros k K. apply in_map_iff in K as (r & <- & R). apply in_somes in R. apply in_map_iff in R as (h & E & H).
  destruct h as [|b h]; [discriminate|]. destruct (collapse_about _ _ b r E eq_refl) as [A _]. rewrite A. change (about_out _) with (about_row a). apply before_iff. split; [|apply (PF _ H); left; reflexivity].
  apply SF. apply in_or_app. right. apply in_concat. exists (b :: h). split; [exact H|left; reflexivity].
Qed.
Lemma base_sorted : forall chunk rows, (0 < chunk)%nat -> StronglySorted before (map about_out (collapse_base chunk rows)).
Proof.
  intros chunk rows C. rewrite base_map by exact C. apply heads_sorted.
  - apply runs_nonempty.
  - unfold groups. rewrite runs_concat. apply sorted_rows.
  - apply runs_spec. apply sorted_rows.
Qed.
Lemma before_irrefl : forall k, ~ before k k.
Proof. intros [[[[o|] d] n] c]; unfold before; intros [H|[_ [H|[_ [H|[_ H]]]]]]; try lia; try tauto; destruct H as [H _]; congruence. Qed.
Lemma sorted_nodup : forall l, StronglySorted before l -> NoDup l.
Proof. induction l as [|a l IH]; intro S; [constructor|]. inversion S as [|? ? S2 F]; subst. constructor; [|auto]. intro I. rewrite Forall_forall in F. exact (before_irrefl a (F a I)). Qed.

(* ---- aberrations ---- *)
Lemma with_ab_same : forall c gs out, List.length out = List.length gs -> Forall2 same_but_light (with_aberrations c gs out) out.
Proof.
  intros c gs out L. assert (RF : forall l, Forall2 same_but_light l l). { induction l; constructor; [repeat split|assumption]. }
  unfold with_aberrations. destruct (_ && _ && _); [|apply RF]. destruct (_ && _); [|apply RF].
  set (abs := map _ gs). set (lts := map (fun g => present_mean _ _) gs). assert (LA : List.length abs = List.length out) by (unfold abs; rewrite map_length; auto). assert (LL : List.length lts = List.length out) by (unfold lts; rewrite map_length; auto). clearbody abs lts. clear L.
  revert abs lts LA LL. induction out as [|r out IH]; intros [|ab abs] [|lt lts] LA LL; try discriminate; cbn; constructor; [repeat split|]. apply IH; cbn in *; lia.
Qed.
Lemma base_length : forall chunk rows, (0 < chunk)%nat -> List.length (collapse_base chunk rows) = List.length (groups rows).
Proof. intros chunk rows C. rewrite base_map by exact C. apply somes_map. intros g G. exact (collapse_some _ rows g G). Qed.
Lemma by_object : forall c mode chunk rows out, collapse_by_object_id c mode chunk rows = Ok out -> rows <> [] ->
  (0 < chunk)%Z /\ Forall2 same_but_light out (collapse_base (Z.to_nat chunk) rows) /\ (mode <> "collapse" -> out = collapse_base (Z.to_nat chunk) rows).
Proof.
  intros c mode chunk rows out H N. unfold collapse_by_object_id in H. destruct rows as [|v rows]; [congruence|]. set (rs := v :: rows) in *. destruct (negb _); [discriminate|]. destruct (Z.leb_spec chunk 0); [discriminate|].
  assert (P : (0 < Z.to_nat chunk)%nat) by lia. split; [assumption|]. destruct (String.eqb_spec mode "collapse") as [E|E]; injection H as <-; split; try congruence.
  - apply with_ab_same. apply base_length. exact P.
  - clear. generalize (collapse_base (Z.to_nat chunk) rs). induction l; constructor; [repeat split|assumption].
Qed.
Lemma forall2_in : forall (out base : list crow) r, Forall2 same_but_light out base -> In r out -> exists b, In b base /\ same_but_light r b.
Proof. intros out base r F. induction F; intros I; [destruct I|]. destruct I as [<-|I]; [exists y; split; [left; reflexivity|assumption]|]. destruct (IHF I) as (b & B & S). exists b. split; [right; exact B|exact S]. Qed.
Lemma forall2_about : forall out base, Forall2 same_but_light out base -> map about_out out = map about_out base.
Proof. intros out base F. induction F as [|x y l l' S F IH]; [reflexivity|]. cbn. destruct S as (_ & -> & _). rewrite IH. reflexivity. Qed.
Lemma stat_same : forall g a b, same_but_light a b -> statistics g b -> statistics g a.
Proof. intros g a b (_ & _ & M & C & _) (w & wc & off & H). exists w, wc, off. unfold deviation in *. rewrite M, C. exact H. Qed.
Lemma weights_stat : forall rows g, g <> [] -> sound_cov g \/ weights_for rows = slow_weights -> weights_for rows g = slow_weights g.
Proof. intros rows g N H. destruct H as [S|E]; [|rewrite E; reflexivity]. unfold weights_for. destruct (uniform (groups rows)); [apply sound_fast; assumption|reflexivity]. Qed.
Lemma base_stat : forall chunk rows r, (0 < chunk)%nat -> In r (collapse_base chunk rows) -> sound_cov (variants_of (about_out r) rows) -> statistics (variants_of (about_out r) rows) r.
Proof.
  intros chunk rows r C R S. destruct (base_row chunk rows r C R) as (N & G & E). set (g := variants_of (about_out r) rows) in *. pose proof (weights_stat rows g N (or_introl S)) as W. destruct (slow_fractions g N) as [F1 F2]. rewrite <- W in F1, F2.
  assert (Q : exists a, r = mkcrow (e_orbit a) (e_object a) (e_day a) (e_nanos a) (e_code a) (fst (moments (weights_for rows g) (map e_vals g))) (snd (moments (weights_for rows g) (map e_vals g))) (g_mag r) (g_ab r) (g_lt r)).
  { clearbody g. destruct g as [|a g]; [congruence|]. exists a. cbn [collapse_rows] in E. injection E as <-. reflexivity. }
  destruct Q as (a & Q). rewrite Q. apply moments_stat; assumption.
Qed.

(* ---- maps of rows that keep what the rows are about ---- *)
Section Keep.
Variable f : erow -> erow.
Hypothesis keep : forall r, about_row (f r) = about_row r.
Lemma keep_same : forall a b, same_group (f a) (f b) = same_group a b.
Proof. intros a b. destruct (same_group a b) eqn:E; [apply same_about|apply same_false]; rewrite !keep; [apply same_about|apply same_false]; exact E. Qed.
Lemma keep_leb : forall a b, group_leb (f a) (f b) = group_leb a b.
Proof.
  intros a b. pose proof (keep a) as A. pose proof (keep b) as B. unfold about_row in A, B. injection A as A1 A2 A3 A4. injection B as B1 B2 B3 B4. unfold group_leb. rewrite A1, A2, A3, A4, B1, B2, B3, B4. reflexivity.
Qed.
Lemma keep_sort : forall l, sort group_leb (map f l) = map f (sort group_leb l).
Proof.
  assert (I : forall x l, insert group_leb (f x) (map f l) = map f (insert group_leb x l)).
  { intros x l. induction l as [|y l IH]; [reflexivity|]. cbn. rewrite keep_leb. destruct (group_leb x y); [reflexivity|]. cbn. rewrite IH. reflexivity. }
  induction l as [|x l IH]; [reflexivity|]. cbn. rewrite IH. apply I.
Qed.
Lemma keep_runs : forall l, runs (map f l) = map (map f) (runs l).
Proof.
  induction l as [|a l IH]; [reflexivity|]. cbn [map runs]. rewrite IH. destruct (runs l) as [|[|b g] gs]; try reflexivity. cbn [map]. rewrite keep_same. destruct (same_group a b); reflexivity.
Qed.
Lemma keep_groups : forall l, groups (map f l) = map (map f) (groups l).
Proof. intro l. unfold groups. rewrite keep_sort. apply keep_runs. Qed.
Lemma keep_uniform : forall gs, uniform (map (map f) gs) = uniform gs.
Proof.
  assert (G : forall n gs, forallb (fun h : list erow => Nat.eqb (List.length h) n) (map (map f) gs) = forallb (fun h => Nat.eqb (List.length h) n) gs).
  { intros n gs. induction gs as [|h gs IH]; [reflexivity|]. cbn [map forallb]. rewrite map_length, IH. reflexivity. }
  intros [|g gs]; [reflexivity|]. cbn [uniform map]. rewrite map_length. exact (G (List.length g) (g :: gs)).
Qed.
Lemma keep_variants : forall k l, variants_of k (map f l) = map f (variants_of k l).
Proof. intros k l. unfold variants_of. induction l as [|a l IH]; [reflexivity|]. cbn [map filter]. rewrite keep. destruct (about_dec (about_row a) k); cbn [map]; rewrite IH; reflexivity. Qed.
End Keep.
