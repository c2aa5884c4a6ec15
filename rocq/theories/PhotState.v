(* The caches: what the calls leave behind, and when that is visible. *)
From Coq Require Import Reals Lra Lia.
From Coq Require Import List String Bool.
From Verif Require Import Base BandModel BandProofs SphModel KepModel PhotModel PhotSpec.
Import ListNotations.
Open Scope string_scope.
Open Scope list_scope.
Open Scope R_scope.

Lemma assoc_nil {K V} eqb (k : K) : @assoc K V eqb k [] = None.
Proof. reflexivity. Qed.
Lemma assoc_cons {K V} eqb (k : K) k' (v : V) l :
  assoc eqb k ((k', v) :: l) = if eqb k k' then Some v else assoc eqb k l.
Proof. unfold assoc. cbn. destruct (eqb k k'); reflexivity. Qed.

Lemma pair_eqb_eq a b : pair_eqb a b = true <-> a = b.
Proof.
  destruct a, b. unfold pair_eqb. cbn. rewrite andb_true_iff, !String.eqb_eq.
  split; [intros [-> ->]|intros [= -> ->]]; auto.
Qed.
Lemma comp_eqb_eq a b : comp_eqb a b = true <-> a = b.
Proof.
  destruct a as [a|[a1 a2]], b as [b|[b1 b2]]; cbn; try (split; [discriminate|intros; discriminate]).
  - rewrite String.eqb_eq. split; congruence.
  - destruct (Req_EM_T a1 b1), (Req_EM_T a2 b2); split; intros H; try discriminate; congruence.
Qed.
Lemma comp_eqb_refl a : comp_eqb a a = true.
Proof. now apply comp_eqb_eq. Qed.

Lemma mapM_len {A B} (f : A -> result B) l m : mapM f l = Ok m -> List.length m = List.length l.
Proof.
  revert m. induction l as [|x l IH]; cbn; intros m H; [injection H as <-; reflexivity|].
  destruct (f x); [|discriminate]. cbn in H. destruct (mapM f l) eqn:E; [|discriminate]. cbn in H.
  injection H as <-. cbn. f_equal. auto.
Qed.

Lemma combine_map_l {A B C} (f : A -> C) (l : list A) (m : list B) :
  map (fun p => (f (fst p), snd p)) (combine l m) = combine (map f l) m.
Proof. revert m. induction l as [|x l IH]; intros [|y m]; cbn; auto. now rewrite IH. Qed.

Lemma nth_combine {A B} (l : list A) : forall (m : list B) i,
  nth_error (combine l m) i =
  match nth_error l i, nth_error m i with Some x, Some y => Some (x, y) | _, _ => None end.
Proof.
  induction l as [|x l IH]; intros [|y m] [|i]; cbn; auto.
  - destruct (nth_error l i); reflexivity.
Qed.

Section S.
Variable solar : samples.
Variable curves : list curve.
Variable vendored : string -> string -> option R.
Notation geti := (get_integrals solar curves vendored).
Notation mixi := (compute_mix_integrals solar curves vendored).
Notation forc := (integrals_for solar curves vendored).
Notation build := (build_table solar curves vendored).
Notation dtab := (delta_table solar curves vendored).
Notation conv := (convert_magnitude solar curves vendored).
Notation dmag := (bandpass_delta_mag solar curves vendored).
Notation pred := (predict_magnitudes solar curves vendored).
Notation hist := (after solar curves vendored).

(* value of a template in a filter, computed afresh *)
Definition fresh_value (tmpl : samples) (f : string) : option R :=
  match curve_of curves f with Some pts => integral_photon solar pts tmpl | None => None end.

Definition coherent (s : state) : Prop :=
  forall t f v, assoc pair_eqb (t, f) (integrals s) = Some v ->
    exists tmpl, assoc String.eqb t (templates s) = Some tmpl /\ v = fresh_value tmpl f.

Definition same_base (s s' : state) : Prop := templates s' = templates s /\ tables s' = tables s.

Definition fresh (ts : list (string * samples)) (t : string) (fs : list string) : result (list (option R)) :=
  match assoc String.eqb t ts with
  | None => get_precomputed solar curves vendored t fs
  | Some tmpl =>
      bind (mapM (norm_of solar curves) fs) (fun ds =>
      Ok (map (fun p => option_map (fun x => x / snd p) (fresh_value tmpl (fst p))) (combine fs ds)))
  end.

Lemma loop_spec t tmpl : forall fds s, assoc String.eqb t (templates s) = Some tmpl -> coherent s ->
  let r := custom_loop solar curves s t tmpl fds in
  snd r = map (fun p => option_map (fun x => x / snd p) (fresh_value tmpl (fst p))) fds /\
  coherent (fst r) /\ same_base s (fst r).
Proof.
  induction fds as [|[f d] l IH]; intros s Ht Hc; cbn [custom_loop map fst snd].
  - split; [reflexivity|]. split; [exact Hc|split; reflexivity].
  - destruct (assoc pair_eqb (t, f) (integrals s)) as [v|] eqn:E.
    + specialize (IH s Ht Hc). destruct (custom_loop solar curves s t tmpl l) as [s' vs]. cbn in *.
      destruct IH as [-> [IH1 IH2]]. split; [|auto]. f_equal.
      destruct (Hc _ _ _ E) as [tm [Ht' ->]]. rewrite Ht in Ht'. injection Ht' as <-. reflexivity.
    + set (s1 := mk_state _ _ _).
      assert (Hc1 : coherent s1).
      { intros t' f' v'. unfold s1. cbn [integrals templates]. rewrite assoc_cons.
        destruct (pair_eqb (t', f') (t, f)) eqn:Ep; [|apply Hc].
        apply pair_eqb_eq in Ep. injection Ep as -> ->. intros [= <-]. exists tmpl. split; [exact Ht|reflexivity]. }
      specialize (IH s1 Ht Hc1). destruct (custom_loop solar curves s1 t tmpl l) as [s' vs]. cbn in *.
      destruct IH as [-> [IH1 [IH2 IH3]]]. split; [reflexivity|]. split; [exact IH1|]. split; [exact IH2|exact IH3].
Qed.

Lemma geti_spec s t fs : coherent s ->
  snd (geti s t fs) = fresh (templates s) t fs /\ coherent (fst (geti s t fs)) /\ same_base s (fst (geti s t fs)).
Proof.
  intros Hc. unfold get_integrals, fresh. destruct (assoc String.eqb t (templates s)) as [tmpl|] eqn:E.
  - destruct (mapM (norm_of solar curves) fs) as [ds|e]; cbn [bind].
    + pose proof (loop_spec t tmpl (combine fs ds) s E Hc) as H.
      destruct (custom_loop solar curves s t tmpl (combine fs ds)). cbn in *. destruct H as [-> H]. auto.
    + cbn. split; [reflexivity|]. split; [exact Hc|split; reflexivity].
  - cbn. split; [reflexivity|]. split; [exact Hc|split; reflexivity].
Qed.

Definition fresh_mix (ts : list (string * samples)) (wc ws : R) (fs : list string) : result (list (option R)) :=
  if Rlt_dec wc 0 then Err ValueError else if Rlt_dec ws 0 then Err ValueError
  else if Rle_dec (wc + ws) 0 then Err ValueError
  else bind (fresh ts "C" fs) (fun ic => bind (fresh ts "S" fs) (fun is =>
    Ok (map (fun p => omap2 (fun x y => wc / (wc + ws) * x + ws / (wc + ws) * y) (fst p) (snd p)) (combine ic is)))).

Lemma mixi_spec s wc ws fs : coherent s ->
  snd (mixi s wc ws fs) = fresh_mix (templates s) wc ws fs /\ coherent (fst (mixi s wc ws fs)) /\ same_base s (fst (mixi s wc ws fs)).
Proof.
  intros Hc. unfold compute_mix_integrals, fresh_mix.
  destruct (Rlt_dec wc 0); [cbn; repeat split; auto|].
  destruct (Rlt_dec ws 0); [cbn; repeat split; auto|].
  destruct (Rle_dec (wc + ws) 0); [cbn; repeat split; auto|].
  pose proof (geti_spec s "C" fs Hc) as H1. destruct (geti s "C" fs) as [s1 rc]. cbn in H1.
  destruct H1 as [-> [Hc1 [Hb1 Hb1']]].
  destruct (fresh (templates s) "C" fs) as [ic|e]; cbn [bind fst snd]; [|repeat split; auto].
  pose proof (geti_spec s1 "S" fs Hc1) as H2. destruct (geti s1 "S" fs) as [s2 rs]. cbn in H2.
  destruct H2 as [-> [Hc2 [Hb2 Hb2']]]. rewrite Hb1 in *.
  destruct (fresh (templates s) "S" fs) as [is|e]; cbn [bind fst snd]; (split; [reflexivity|]; split; [exact Hc2|]; split; congruence).
Qed.

Definition fresh_for (ts : list (string * samples)) (c : composition) (fs : list string) :=
  match c with inl t => fresh ts t fs | inr (wc, ws) => fresh_mix ts wc ws fs end.

Lemma forc_spec s c fs : coherent s ->
  snd (forc s c fs) = fresh_for (templates s) c fs /\ coherent (fst (forc s c fs)) /\ same_base s (fst (forc s c fs)).
Proof. intros Hc. destruct c as [t|[wc ws]]; cbn; [now apply geti_spec|now apply mixi_spec]. Qed.

Definition fresh_table (ts : list (string * samples)) (k : composition) : result (list (string * option R)) :=
  if negb (in_strings "V" (filter_ids curves)) then Err ValueError
  else bind (fresh_for ts k (filter_ids curves)) (fun vs =>
    match assoc String.eqb "V" (combine (filter_ids curves) vs) with
    | Some (Some iv) =>
        if Rlt_dec 0 iv then bind (mapM (delta_entry iv) vs) (fun ds => Ok (combine (filter_ids curves) ds))
        else Err ValueError
    | _ => Err ValueError
    end).

Lemma build_spec s k : coherent s ->
  snd (build s k) = fresh_table (templates s) k /\ coherent (fst (build s k)) /\ same_base s (fst (build s k)).
Proof.
  intros Hc. unfold build_table, fresh_table.
  destruct (negb (in_strings "V" (filter_ids curves))); [cbn; repeat split; auto|].
  pose proof (forc_spec s k (filter_ids curves) Hc) as H. destruct (forc s k (filter_ids curves)) as [s' r].
  cbn in H. destruct H as [-> [Hc' Hb]].
  destruct (fresh_for (templates s) k (filter_ids curves)) as [vs|e]; cbn [bind fst snd]; [|auto].
  destruct (assoc String.eqb "V" (combine (filter_ids curves) vs)) as [[iv|]|]; cbn [fst snd]; auto.
  destruct (Rlt_dec 0 iv); cbn [fst snd]; auto.
Qed.

(* what the cached table returns *)
Lemma dtab_spec s k : coherent s ->
  snd (dtab s k) = match assoc comp_eqb k (tables s) with Some tab => Ok tab | None => fresh_table (templates s) k end /\
  coherent (fst (dtab s k)) /\ templates (fst (dtab s k)) = templates s /\
  (forall tab, snd (dtab s k) = Ok tab -> assoc comp_eqb k (tables (fst (dtab s k))) = Some tab) /\
  (forall k', k' <> k -> assoc comp_eqb k' (tables (fst (dtab s k))) = assoc comp_eqb k' (tables s)) /\
  (forall tab, assoc comp_eqb k (tables s) = Some tab -> assoc comp_eqb k (tables (fst (dtab s k))) = Some tab).
Proof.
  intros Hc. unfold delta_table. destruct (assoc comp_eqb k (tables s)) as [tab|] eqn:E.
  - cbn. repeat split; auto; intros; congruence.
  - pose proof (build_spec s k Hc) as H. destruct (build s k) as [s' r]. cbn in H.
    destruct H as [-> [Hc' [Hb Hb']]]. destruct (fresh_table (templates s) k) as [tab|e]; cbn [fst snd templates tables].
    + repeat split; auto.
      * intros ? [= <-]. rewrite assoc_cons, comp_eqb_refl. reflexivity.
      * intros k' Hk. rewrite assoc_cons. destruct (comp_eqb k' k) eqn:Ek; [apply comp_eqb_eq in Ek; contradiction|]. now rewrite Hb'.
      * discriminate.
    + repeat split; auto; try discriminate. intros k' _. now rewrite Hb'.
Qed.

(* a stored table never changes *)
Definition keeps (s s' : state) : Prop :=
  forall k tab, assoc comp_eqb k (tables s) = Some tab -> assoc comp_eqb k (tables s') = Some tab.

Lemma keeps_base s s' : same_base s s' -> keeps s s'.
Proof. intros [_ H] k tab. now rewrite H. Qed.
Lemma dtab_keeps s k : coherent s -> keeps s (fst (dtab s k)).
Proof.
  intros Hc k' tab H. pose proof (dtab_spec s k Hc) as [_ [_ [_ [_ [H1 H2]]]]].
  destruct (comp_eqb k' k) eqn:E.
  - apply comp_eqb_eq in E. subst. now apply H2.
  - rewrite H1; [exact H|]. intros ->. rewrite comp_eqb_refl in E. discriminate.
Qed.

Lemma conv_state s m a b c : coherent s ->
  fst (conv s m a b c) = s \/ exists k, composition_key c = Ok k /\ fst (conv s m a b c) = fst (dtab s k).
Proof.
  intros Hc. unfold convert_magnitude.
  destruct (negb _); [now left|]. destruct (negb _); [now left|].
  destruct (composition_key c) as [k|e]; [|now left]. right. exists k. split; [reflexivity|].
  destruct (dtab s k) as [s' [tab|e]]; reflexivity.
Qed.

Lemma pred_state s H ob os fs G r c : coherent s ->
  fst (pred s H ob os fs G r c) = s \/ exists k, composition_key c = Ok k /\ fst (pred s H ob os fs G r c) = fst (dtab s k).
Proof.
  intros Hc. unfold predict_magnitudes.
  destruct (negb _); [now left|]. destruct (negb _); [now left|]. destruct (negb _); [now left|].
  destruct (negb _); [now left|]. destruct (negb _); [now left|].
  destruct (composition_key c) as [k|e]; [|now left]. right. exists k. split; [reflexivity|].
  destruct (dtab s k) as [s' [tab|e]]; reflexivity.
Qed.

Lemma dmag_spec s c a b : coherent s ->
  coherent (fst (dmag s c a b)) /\ same_base s (fst (dmag s c a b)).
Proof.
  intros Hc. unfold bandpass_delta_mag.
  destruct (String.eqb a "" || String.eqb b ""); [cbn; repeat split; auto|].
  destruct (String.eqb a b); [cbn; repeat split; auto|].
  pose proof (forc_spec s c [a; b] Hc) as H. destruct (forc s c [a; b]) as [s' r]. cbn in H.
  destruct H as [_ H].
  destruct r as [[|[x|] [|[y|] [|? ?]]]|e]; cbn; auto.
  destruct (Rlt_dec 0 x); cbn; auto. destruct (Rlt_dec 0 y); cbn; auto.
Qed.

(* the answer of bandpass_delta_mag depends on the registered templates only *)
Lemma dmag_value s s' c a b : coherent s -> coherent s' -> templates s = templates s' ->
  snd (dmag s c a b) = snd (dmag s' c a b).
Proof.
  intros Hc Hc' E. unfold bandpass_delta_mag.
  destruct (String.eqb a "" || String.eqb b ""); [reflexivity|].
  destruct (String.eqb a b); [reflexivity|].
  pose proof (forc_spec s c [a; b] Hc) as H. destruct (forc s c [a; b]) as [s1 r]. cbn in H.
  pose proof (forc_spec s' c [a; b] Hc') as H'. destruct (forc s' c [a; b]) as [s1' r']. cbn in H'.
  destruct H as [-> _], H' as [-> _]. rewrite E.
  destruct (fresh_for (templates s') c [a; b]) as [[|[x|] [|[y|] [|? ?]]]|e]; cbn; auto.
  destruct (Rlt_dec 0 x); cbn; auto. destruct (Rlt_dec 0 y); cbn; auto.
Qed.

Lemma forc_value s s' c fs : coherent s -> coherent s' -> templates s = templates s' ->
  snd (forc s c fs) = snd (forc s' c fs).
Proof. intros H H' E. rewrite (proj1 (forc_spec s c fs H)), (proj1 (forc_spec s' c fs H')). now rewrite E. Qed.

Definition reg_templates (ts : list (string * samples)) (o : call) : list (string * samples) :=
  match o with Register t wl rf => templates (fst (register_custom_template (mk_state ts [] []) t wl rf)) | _ => ts end.

Lemma register_spec s t wl rf : coherent s ->
  let s' := fst (register_custom_template s t wl rf) in
  coherent s' /\ templates s' = reg_templates (templates s) (Register t wl rf) /\ tables s' = tables s.
Proof.
  intros Hc. cbn. unfold register_custom_template.
  destruct (String.eqb t ""); [cbn; auto|]. destruct (negb _); [cbn; auto|]. destruct (_ <? 2)%nat; [cbn; auto|].
  destruct (increasing _); [|cbn; auto]. cbn. repeat split. intros t' f v. cbn. discriminate.
Qed.

Lemma step_spec s o : coherent s ->
  coherent (step solar curves vendored s o) /\
  templates (step solar curves vendored s o) = reg_templates (templates s) o /\
  keeps s (step solar curves vendored s o) /\
  (forall k, ~ uses k o -> assoc comp_eqb k (tables (step solar curves vendored s o)) = assoc comp_eqb k (tables s)).
Proof.
  intros Hc. destruct o as [t wl rf|t fs|wc ws fs|c a b|m a b c|H ob os fs G r c]; cbn [step].
  - destruct (register_spec s t wl rf Hc) as [H1 [H2 H3]]. repeat split; auto.
    + intros k tab. now rewrite H3.
    + intros k _. now rewrite H3.
  - destruct (geti_spec s t fs Hc) as [_ [H1 [H2 H3]]]. repeat split; auto; [now apply keeps_base; split|]. intros k _. now rewrite H3.
  - destruct (mixi_spec s wc ws fs Hc) as [_ [H1 [H2 H3]]]. repeat split; auto; [now apply keeps_base; split|]. intros k _. now rewrite H3.
  - destruct (dmag_spec s c a b Hc) as [H1 [H2 H3]]. repeat split; auto; [now apply keeps_base; split|]. intros k _. now rewrite H3.
  - destruct (conv_state s m a b c Hc) as [->|[k [Hk ->]]].
    + repeat split; auto. intros k tab. auto.
    + pose proof (dtab_spec s k Hc) as [_ [H1 [H2 [_ [H4 _]]]]]. repeat split; auto; [now apply dtab_keeps|].
      intros k' Hu. apply H4. intros ->. apply Hu. exact Hk.
  - destruct (pred_state s H ob os fs G r c Hc) as [->|[k [Hk ->]]].
    + repeat split; auto. intros k tab. auto.
    + pose proof (dtab_spec s k Hc) as [_ [H1 [H2 [_ [H4 _]]]]]. repeat split; auto; [now apply dtab_keeps|].
      intros k' Hu. apply H4. intros ->. apply Hu. exact Hk.
Qed.

Lemma after_spec : forall os s, coherent s ->
  coherent (hist s os) /\ templates (hist s os) = fold_left reg_templates os (templates s) /\
  keeps s (hist s os) /\
  (forall k, (forall o, In o os -> ~ uses k o) -> assoc comp_eqb k (tables (hist s os)) = assoc comp_eqb k (tables s)).
Proof.
  induction os as [|o os IH]; intros s Hc.
  - cbn. repeat split; auto. intros k tab; auto.
  - change (hist s (o :: os)) with (hist (step solar curves vendored s o) os). cbn [fold_left].
    destruct (step_spec s o Hc) as [H1 [H2 [H3 H4]]]. destruct (IH _ H1) as [I1 [I2 [I3 I4]]].
    split; [exact I1|]. split; [|split].
    + rewrite I2, H2. reflexivity.
    + intros k tab H. apply I3, H3, H.
    + intros k Hu. rewrite I4 by (intros; apply Hu; now right). apply H4, Hu. now left.
Qed.

Lemma coherent_start : coherent start.
Proof. intros t f v. discriminate. Qed.

Lemma reg_filter os : forall ts, fold_left reg_templates (filter is_register os) ts = fold_left reg_templates os ts.
Proof. induction os as [|o os IH]; intros ts; cbn; [reflexivity|]. destruct o; cbn; apply IH. Qed.

Lemma process_registered os :
  coherent (process solar curves vendored os) /\
  templates (process solar curves vendored (filter is_register os)) = templates (process solar curves vendored os).
Proof.
  unfold process. destruct (after_spec os start coherent_start) as [H1 [H2 _]].
  destruct (after_spec (filter is_register os) start coherent_start) as [_ [H3 _]].
  split; [exact H1|]. rewrite H2, H3. apply reg_filter.
Qed.

(* ---- convert ---- *)
Definition row_of (tab : list (string * option R)) (m : option R) (a b : option string) : option R :=
  omap2 Rplus m (omap2 Rminus (delta_of tab b) (delta_of tab a)).

Lemma conv_ok s m a b c s' out : coherent s -> conv s m a b c = (s', Ok out) ->
  exists k tab, composition_key c = Ok k /\ assoc comp_eqb k (tables s') = Some tab /\
    (assoc comp_eqb k (tables s) = Some tab \/ assoc comp_eqb k (tables s) = None /\ fresh_table (templates s) k = Ok tab) /\
    List.length a = List.length m /\ List.length b = List.length m /\ List.length out = List.length m /\
    (forall i x f g, nth_error m i = Some x -> nth_error a i = Some f -> nth_error b i = Some g ->
       nth_error out i = Some (row_of tab x f g)).
Proof.
  intros Hc H. unfold convert_magnitude in H.
  destruct (negb (lengths a m && lengths b m)) eqn:El; [discriminate|].
  match type of H with context [if ?x then _ else _] => destruct x end; [discriminate|].
  destruct (composition_key c) as [k|e]; [|discriminate].
  pose proof (dtab_spec s k Hc) as [H1 [_ [_ [H2 _]]]].
  destruct (dtab s k) as [s1 [tab|e]]; [|discriminate]. injection H as <- <-. cbn in H1, H2.
  exists k, tab. split; [reflexivity|]. split; [now apply H2|]. split.
  { destruct (assoc comp_eqb k (tables s)) as [tab'|]; [left; congruence|right; auto]. }
  apply negb_false_iff, andb_true_iff in El as [La Lb]. apply Nat.eqb_eq in La, Lb.
  repeat split; auto.
  - rewrite map_length, !combine_length. lia.
  - intros i x f g Hx Hf Hg. rewrite nth_error_map, !nth_combine, Hx, Hf, Hg. reflexivity.
Qed.

Lemma nth_some {A B} (l : list A) (m : list B) i x : List.length l = List.length m -> nth_error l i = Some x -> exists y, nth_error m i = Some y.
Proof.
  intros E H. destruct (nth_error m i) eqn:En; [eauto|]. apply nth_error_None in En.
  assert (i < List.length l)%nat by (apply nth_error_Some; congruence). lia.
Qed.

(* the two tables of two calls with the same composition agree *)
Lemma same_table s m a b c s1 out os m' a' b' c' s2 out' :
  coherent s -> conv s m a b c = (s1, Ok out) -> composition_key c' = composition_key c ->
  conv (hist s1 os) m' a' b' c' = (s2, Ok out') ->
  exists tab, 
    (forall i x f g, nth_error m i = Some x -> nth_error a i = Some f -> nth_error b i = Some g ->
       nth_error out i = Some (row_of tab x f g)) /\
    (forall i x f g, nth_error m' i = Some x -> nth_error a' i = Some f -> nth_error b' i = Some g ->
       nth_error out' i = Some (row_of tab x f g)).
Proof.
  intros Hc H Ek H'. pose proof (conv_ok s m a b c s1 out Hc H) as [k [tab [Hk [Ht [_ [_ [_ [_ Hr]]]]]]]].
  assert (Hc1 : coherent s1).
  { pose proof (step_spec s (Convert m a b c) Hc) as [X _]. cbn [step] in X. rewrite H in X. exact X. }
  pose proof (after_spec os s1 Hc1) as [Hc2 [_ [Hkeep _]]].
  pose proof (conv_ok _ _ _ _ _ _ _ Hc2 H') as [k' [tab' [Hk' [Ht' [Hd' [_ [_ [_ Hr']]]]]]]].
  exists tab. split; [exact Hr|].
  assert (k' = k) as -> by congruence. specialize (Hkeep _ _ Ht).
  destruct Hd' as [Hd'|[Hd' _]]; [|congruence]. assert (tab' = tab) as <- by congruence. exact Hr'.
Qed.

Lemma conv_coherent s m a b c s1 r : coherent s -> conv s m a b c = (s1, r) -> coherent s1.
Proof. intros Hc H. pose proof (step_spec s (Convert m a b c) Hc) as [X _]. cbn [step] in X. now rewrite H in X. Qed.

Lemma conv_error s m a b c e : coherent s -> snd (conv s m a b c) = Err e -> e = ValueError \/ e = ZeroDivisionError.
Proof.
  intros Hc. unfold convert_magnitude.
  destruct (negb _); [cbn; intros [= <-]; auto|]. destruct (negb _); [cbn; intros [= <-]; auto|].
  assert (K : forall e, composition_key c = Err e -> e = ValueError).
  { intros e0. unfold composition_key. destruct c as [t|[wc ws]].
    - destruct (String.eqb t ""); congruence.
    - destruct (Rlt_dec wc 0); [congruence|]. destruct (Rlt_dec ws 0); [congruence|]. destruct (Rle_dec (wc + ws) 0); congruence. }
  destruct (composition_key c) as [k|e0]; [|cbn; intros [= <-]; left; now apply K].
  pose proof (dtab_spec s k Hc) as [H1 _]. destruct (dtab s k) as [s1 [tab|e1]]; cbn in *; [discriminate|].
  intros [= <-]. destruct (assoc comp_eqb k (tables s)); [discriminate|].
  assert (N : forall fs e, mapM (norm_of solar curves) fs = Err e -> e = ValueError).
  { clear. induction fs as [|f l IH]; cbn; intros e; [discriminate|].
    unfold norm_of at 1. destruct (forallb (norm_ok solar) curves); [|cbn; congruence].
    destruct (curve_of curves f); [|cbn; congruence]. destruct (solar_norm solar s); [|cbn; congruence].
    cbn [bind]. destruct (mapM (norm_of solar curves) l) eqn:E; cbn; [discriminate|]. intros [= <-]. now apply IH. }
  assert (P : forall t fs e, mapM (fun f => match vendored t f with Some n => Ok n | None => Err ValueError end) fs = Err e -> e = ValueError).
  { clear. intros t. induction fs as [|f l IH]; cbn; intros e; [discriminate|].
    destruct (vendored t f); cbn; [|congruence]. destruct (mapM _ l) eqn:E; cbn; [discriminate|]. intros [= <-]. now apply IH. }
  assert (F : forall ts t fs e, fresh ts t fs = Err e -> e = ValueError).
  { intros ts t fs e. unfold fresh. destruct (assoc String.eqb t ts).
    - destruct (mapM (norm_of solar curves) fs) eqn:E; cbn; [discriminate|]. intros [= <-]. eapply N; eauto.
    - unfold get_precomputed. destruct fs as [|f l]; [discriminate|].
      destruct (mapM (fun f => match vendored t f with Some n => Ok n | None => Err ValueError end) (f :: l)) eqn:E; cbn [bind]; [|intros [= <-]; eapply P; eauto].
      destruct (mapM (norm_of solar curves) (f :: l)) eqn:E'; cbn [bind]; [discriminate|intros [= <-]; eapply N; eauto]. }
  assert (D : forall iv vs e, mapM (delta_entry iv) vs = Err e -> e = ZeroDivisionError).
  { clear. intros iv. induction vs as [|v l IH]; cbn; intros e; [discriminate|].
    destruct v as [v|]; cbn; [destruct (Rlt_dec 0 v); cbn; [|congruence]|];
    (destruct (mapM (delta_entry iv) l) eqn:E; cbn; [discriminate|]; intros [= <-]; now apply IH). }
  symmetry in H1. unfold fresh_table in H1. destruct (negb _); [injection H1 as ->; auto|].
  destruct (fresh_for (templates s) k (filter_ids curves)) as [vs|e2] eqn:E; cbn [bind] in H1.
  - destruct (assoc String.eqb "V" (combine (filter_ids curves) vs)) as [[iv|]|]; [|injection H1 as ->; auto|injection H1 as ->; auto].
    destruct (Rlt_dec 0 iv); [|injection H1 as ->; auto].
    destruct (mapM (delta_entry iv) vs) eqn:E'; cbn in H1; [discriminate|]. injection H1 as <-. right. eapply D; eauto.
  - injection H1 as <-. left. destruct k as [t|[wc ws]]; cbn in E; [eapply F; eauto|]. unfold fresh_mix in E.
    destruct (Rlt_dec wc 0); [congruence|]. destruct (Rlt_dec ws 0); [congruence|]. destruct (Rle_dec (wc + ws) 0); [congruence|].
    destruct (fresh (templates s) "C" (filter_ids curves)) eqn:E1; cbn in E; [|injection E as <-; eapply F; eauto].
    destruct (fresh (templates s) "S" (filter_ids curves)) eqn:E2; cbn in E; [discriminate|injection E as <-; eapply F; eauto].
Qed.

(* ---- values filter by filter ---- *)
Definition value (ts : list (string * samples)) (t : string) (f : string) : result (option R) :=
  match assoc String.eqb t ts with
  | None =>
      match vendored t f with
      | Some n => bind (norm_of solar curves f) (fun d => Ok (Some (n / d)))
      | None => Err ValueError
      end
  | Some tmpl => bind (norm_of solar curves f) (fun d => Ok (option_map (fun x => x / d) (fresh_value tmpl f)))
  end.

Lemma norm_err f e : norm_of solar curves f = Err e -> e = ValueError.
Proof.
  unfold norm_of. destruct (forallb _ curves); [|congruence]. destruct (curve_of curves f); [|congruence].
  destruct (solar_norm solar s); congruence.
Qed.

Lemma value_err ts t f e : value ts t f = Err e -> e = ValueError.
Proof.
  unfold value. destruct (assoc String.eqb t ts).
  - destruct (norm_of solar curves f) eqn:E; cbn; [discriminate|]. intros [= <-]. now apply norm_err in E.
  - destruct (vendored t f); [|congruence].
    destruct (norm_of solar curves f) eqn:E; cbn; [discriminate|]. intros [= <-]. now apply norm_err in E.
Qed.

Lemma mapM_err {A B} (f : A -> result B) l e : (forall x e, f x = Err e -> e = ValueError) -> mapM f l = Err e -> e = ValueError.
Proof.
  intros H. revert e. induction l as [|x l IH]; cbn; intros e; [discriminate|].
  destruct (f x) eqn:E; cbn; [|intros [= <-]; eauto]. destruct (mapM f l); cbn; [discriminate|]. intros [= <-]. now apply IH.
Qed.

Lemma fresh_values ts t fs : fs <> [] -> fresh ts t fs = mapM (value ts t) fs.
Proof.
  intros Hn. unfold fresh, value. destruct (assoc String.eqb t ts) as [tmpl|].
  - clear Hn. induction fs as [|f l IH]; [reflexivity|]. cbn [mapM]. rewrite <- IH. clear IH.
    destruct (norm_of solar curves f); cbn [bind]; [|reflexivity].
    destruct (mapM (norm_of solar curves) l); reflexivity.
  - unfold get_precomputed. destruct fs as [|f0 l0]; [contradiction|]. generalize (f0 :: l0). clear.
    induction l as [|f l IH]; [reflexivity|]. cbn [mapM]. rewrite <- IH. clear IH.
    destruct (vendored t f); cbn [bind]; [|reflexivity].
    destruct (norm_of solar curves f) as [d|e] eqn:E; cbn [bind].
    + destruct (mapM (fun f => match vendored t f with Some n => Ok n | None => Err ValueError end) l); cbn [bind]; [|reflexivity].
      destruct (mapM (norm_of solar curves) l); reflexivity.
    + pose proof (norm_err _ _ E) as ->.
      destruct (mapM (fun f => match vendored t f with Some n => Ok n | None => Err ValueError end) l) eqn:E'; cbn [bind]; [reflexivity|].
      f_equal. eapply mapM_err; [|exact E']. intros x e1. cbn. destruct (vendored t x); congruence.
Qed.

Definition value_for (ts : list (string * samples)) (c : composition) (f : string) : result (option R) :=
  match c with
  | inl t => value ts t f
  | inr (wc, ws) => bind (value ts "C" f) (fun x => bind (value ts "S" f) (fun y =>
      Ok (omap2 (fun x y => wc / (wc + ws) * x + ws / (wc + ws) * y) x y)))
  end.

Lemma fresh_for_values ts c k fs : composition_key c = Ok k -> fs <> [] ->
  fresh_for ts c fs = mapM (value_for ts c) fs /\ fresh_for ts k fs = mapM (value_for ts c) fs.
Proof.
  intros Hk Hn. destruct c as [t|[wc ws]]; cbn in Hk.
  - destruct (String.eqb t ""); [discriminate|]. injection Hk as <-. cbn. split; now apply fresh_values.
  - destruct (Rlt_dec wc 0) as [|A]; [discriminate|]. destruct (Rlt_dec ws 0) as [|B]; [discriminate|].
    destruct (Rle_dec (wc + ws) 0) as [|C]; [discriminate|]. injection Hk as <-.
    assert (E : wc / (wc + ws) + ws / (wc + ws) = 1) by (field; lra).
    assert (P1 : 0 <= wc / (wc + ws)) by (apply Rmult_le_pos; [lra|left; apply Rinv_0_lt_compat; lra]).
    assert (P2 : 0 <= ws / (wc + ws)) by (apply Rmult_le_pos; [lra|left; apply Rinv_0_lt_compat; lra]).
    assert (M : forall p q, bind (fresh ts "C" fs) (fun ic => bind (fresh ts "S" fs) (fun is =>
       Ok (map (fun r => omap2 (fun x y => p * x + q * y) (fst r) (snd r)) (combine ic is)))) =
       mapM (fun f => bind (value ts "C" f) (fun x => bind (value ts "S" f) (fun y => Ok (omap2 (fun x y => p * x + q * y) x y)))) fs).
    { intros p q. rewrite !(fresh_values _ _ _ Hn). clear Hn.
      induction fs as [|f l IH]; [reflexivity|]. cbn [mapM]. rewrite <- IH. clear IH.
      destruct (value ts "C" f); cbn [bind]; [|reflexivity].
      destruct (value ts "S" f) as [y|e] eqn:Ey; cbn [bind].
      - destruct (mapM (value ts "C") l); cbn [bind]; [|reflexivity]. destruct (mapM (value ts "S") l); reflexivity.
      - pose proof (value_err _ _ _ _ Ey) as ->. destruct (mapM (value ts "C") l) eqn:El; cbn [bind]; [reflexivity|].
        f_equal. eapply mapM_err; [|exact El]. intros x e1. apply value_err. }
    cbn [fresh_for value_for]. unfold fresh_mix. split.
    + destruct (Rlt_dec wc 0); [lra|]. destruct (Rlt_dec ws 0); [lra|]. destruct (Rle_dec (wc + ws) 0); [lra|]. apply M.
    + destruct (Rlt_dec (wc / (wc + ws)) 0); [lra|]. destruct (Rlt_dec (ws / (wc + ws)) 0); [lra|].
      rewrite E. destruct (Rle_dec 1 0); [lra|]. assert (D1 : forall x, x / 1 = x) by (intros; field). rewrite !D1. apply M.
Qed.

Lemma mapM_assoc {B} (g : string -> result B) : forall fs vs f, mapM g fs = Ok vs -> In f fs ->
  exists v, g f = Ok v /\ assoc String.eqb f (combine fs vs) = Some v.
Proof.
  induction fs as [|f0 l IH]; cbn; intros vs f H Hi; [contradiction|].
  destruct (g f0) as [v0|] eqn:E0; [|discriminate]. cbn in H. destruct (mapM g l) as [vl|] eqn:El; [|discriminate].
  cbn in H. injection H as <-. cbn [combine]. rewrite assoc_cons.
  destruct (String.eqb_spec f f0) as [->|Hne]; [eauto|]. destruct Hi as [Hi|Hi]; [congruence|]. now apply IH.
Qed.

Lemma entry_assoc iv : forall fs vs ds f v, mapM (delta_entry iv) vs = Ok ds ->
  assoc String.eqb f (combine fs vs) = Some v -> exists d, delta_entry iv v = Ok d /\ assoc String.eqb f (combine fs ds) = Some d.
Proof.
  induction fs as [|f0 l IH]; intros [|v0 vs] ds f v H Ha; cbn in Ha; try discriminate.
  cbn in H. destruct (delta_entry iv v0) as [d0|] eqn:E0; [|discriminate]. cbn in H.
  destruct (mapM (delta_entry iv) vs) as [dl|] eqn:El; [|discriminate]. cbn in H. injection H as <-.
  cbn [combine] in *. rewrite assoc_cons in *. destruct (String.eqb f f0).
  - injection Ha as <-. eauto.
  - eapply IH; eauto.
Qed.

(* an entry of a freshly built table *)
Lemma fresh_entry ts c k tab f : composition_key c = Ok k -> fresh_table ts k = Ok tab -> In f (filter_ids curves) ->
  exists iv v, value_for ts c "V" = Ok (Some iv) /\ 0 < iv /\ value_for ts c f = Ok v /\
    delta_entry iv v = Ok (delta_of tab (Some f)).
Proof.
  intros Hk H Hf. unfold fresh_table in H.
  destruct (in_strings "V" (filter_ids curves)) eqn:EV; [|discriminate]. cbn [negb] in H.
  apply in_strings_iff in EV.
  assert (Hn : filter_ids curves <> []) by (destruct (filter_ids curves); [contradiction|discriminate]).
  rewrite (proj2 (fresh_for_values ts c k _ Hk Hn)) in H.
  destruct (mapM (value_for ts c) (filter_ids curves)) as [vs|] eqn:E; [|discriminate]. cbn [bind] in H.
  destruct (mapM_assoc _ _ _ _ E EV) as [vV [HV AV]]. rewrite AV in H.
  destruct vV as [iv|]; [|discriminate]. destruct (Rlt_dec 0 iv) as [Hp|]; [|discriminate].
  destruct (mapM (delta_entry iv) vs) as [ds|] eqn:Ed; [|discriminate]. cbn [bind] in H. injection H as <-.
  destruct (mapM_assoc _ _ _ _ E Hf) as [v [Hv Av]].
  destruct (entry_assoc _ _ _ _ _ _ Ed Av) as [d [Hd Ad]].
  exists iv, v. repeat split; auto. cbn [delta_of]. now rewrite Ad.
Qed.

Lemma log10_div a b : 0 < a -> 0 < b -> log10 (a / b) = log10 a - log10 b.
Proof.
  intros A B. unfold log10. replace (ln (a / b)) with (ln a - ln b).
  - unfold Rdiv. ring.
  - unfold Rdiv at 1. rewrite ln_mult by (auto; now apply Rinv_0_lt_compat). rewrite ln_Rinv by exact B. ring.
Qed.

Lemma fresh_delta ts c k tab f d : composition_key c = Ok k -> fresh_table ts k = Ok tab -> In f (filter_ids curves) ->
  delta_of tab (Some f) = Some d ->
  exists iv v, value_for ts c "V" = Ok (Some iv) /\ 0 < iv /\ value_for ts c f = Ok (Some v) /\ 0 < v /\ d = - 5 / 2 * (log10 v - log10 iv).
Proof.
  intros Hk H Hf Hd. destruct (fresh_entry ts c k tab f Hk H Hf) as [iv [v [A [B [C D]]]]].
  rewrite Hd in D. destruct v as [v|]; cbn in D; [|discriminate]. destruct (Rlt_dec 0 v); [|discriminate].
  injection D as <-. exists iv, v. repeat split; auto. rewrite log10_div by lra. reflexivity.
Qed.

Lemma conv_known s m a b c s' out : conv s m a b c = (s', Ok out) ->
  (forall f, In f a -> exists g, f = Some g /\ In g (filter_ids curves)) /\
  (forall f, In f b -> exists g, f = Some g /\ In g (filter_ids curves)).
Proof.
  intros H. unfold convert_magnitude in H.
  destruct (negb (lengths a m && lengths b m)); [discriminate|].
  match type of H with context [if ?x then _ else _] => destruct x eqn:E end; [discriminate|].
  apply negb_false_iff, andb_true_iff in E as [A B]. rewrite forallb_forall in A, B.
  split; intros f Hf; [specialize (A _ Hf)|specialize (B _ Hf)]; (destruct f as [g|]; [|discriminate]; exists g; split; [reflexivity|now apply known_iff]).
Qed.

(* a conversion with a composition not used before follows the current integrals *)
Lemma conv_fresh s m a b c k s' x y f g : coherent s -> composition_key c = Ok k -> assoc comp_eqb k (tables s) = None ->
  conv s m a b c = (s', Ok y) ->
  forall i v, nth_error m i = Some (Some x) -> nth_error a i = Some (Some f) -> nth_error b i = Some (Some g) ->
  nth_error y i = Some (Some v) ->
  exists rf rg, snd (forc s c [f; g]) = Ok [Some rf; Some rg] /\ 0 < rf /\ 0 < rg /\ v = x - 5 / 2 * log10 (rg / rf).
Proof.
  intros Hc Hk Hn H i v Hm Ha Hb Hy.
  destruct (conv_known _ _ _ _ _ _ _ H) as [Ka Kb].
  destruct (Ka _ (nth_error_In _ _ Ha)) as [f' [[= <-] Hf]]. destruct (Kb _ (nth_error_In _ _ Hb)) as [g' [[= <-] Hg]].
  destruct (conv_ok s m a b c s' y Hc H) as [k' [tab [Hk' [_ [[Ht|[_ Ht]] [_ [_ [_ Hr]]]]]]]].
  { congruence. }
  assert (k' = k) as -> by congruence.
  rewrite (Hr i _ _ _ Hm Ha Hb) in Hy. unfold row_of in Hy.
  destruct (delta_of tab (Some g)) as [dg|] eqn:Eg; [|cbn [omap2] in Hy; discriminate].
  destruct (delta_of tab (Some f)) as [df|] eqn:Ef; [|cbn [omap2] in Hy; discriminate]. cbn [omap2] in Hy. injection Hy as <-.
  destruct (fresh_delta _ _ _ _ _ _ Hk Ht Hg Eg) as [iv [vg [V1 [P1 [V2 [P2 ->]]]]]].
  destruct (fresh_delta _ _ _ _ _ _ Hk Ht Hf Ef) as [iv' [vf [V1' [P1' [V2' [P2' ->]]]]]].
  assert (iv' = iv) as -> by congruence.
  exists vf, vg. rewrite (proj1 (forc_spec s c [f; g] Hc)).
  assert (N : [f; g] <> []) by discriminate.
  rewrite (proj1 (fresh_for_values _ _ _ _ Hk N)). cbn [mapM]. rewrite V2, V2'. cbn [bind].
  repeat split; auto. rewrite log10_div by lra. lra.
Qed.

Lemma forc_delta s c f g rf rg : coherent s -> f <> "" -> g <> "" ->
  snd (forc s c [f; g]) = Ok [Some rf; Some rg] -> 0 < rf -> 0 < rg ->
  snd (dmag s c f g) = Ok (if String.eqb f g then 0 else - 5 / 2 * log10 (rg / rf)).
Proof.
  intros Hc Hf Hg H P Q. unfold bandpass_delta_mag.
  destruct (String.eqb_spec f ""); [contradiction|]. destruct (String.eqb_spec g ""); [contradiction|]. cbn [orb].
  destruct (String.eqb f g); [reflexivity|].
  destruct (forc s c [f; g]) as [s' r]. cbn in H. subst r.
  destruct (Rlt_dec 0 rf); [|contradiction]. destruct (Rlt_dec 0 rg); [|contradiction]. reflexivity.
Qed.

(* V is the zero point of every stored table *)
Definition v_zero (s : state) : Prop :=
  forall k tab, assoc comp_eqb k (tables s) = Some tab -> delta_of tab (Some "V") = Some 0.

Lemma fresh_v c ts k tab : composition_key c = Ok k -> fresh_table ts k = Ok tab -> delta_of tab (Some "V") = Some 0.
Proof.
  intros Hk H. assert (HV : In "V" (filter_ids curves)).
  { unfold fresh_table in H. destruct (in_strings "V" (filter_ids curves)) eqn:E; [|discriminate]. now apply in_strings_iff. }
  destruct (fresh_entry ts c k tab "V" Hk H HV) as [iv [v [A [B [C D]]]]].
  assert (v = Some iv) as -> by congruence. unfold delta_entry in D. destruct (Rlt_dec 0 iv); [|contradiction].
  apply (f_equal (fun r => match r with Ok d => d | Err _ => None end)) in D. rewrite <- D. f_equal. rewrite log10_div by lra. lra.
Qed.

Lemma dtab_v s c k : coherent s -> v_zero s -> composition_key c = Ok k -> v_zero (fst (dtab s k)).
Proof.
  intros Hc Hv Hk k' tab H. pose proof (dtab_spec s k Hc) as [D1 [_ [_ [D3 [D4 D5]]]]].
  destruct (comp_eqb k' k) eqn:E.
  - apply comp_eqb_eq in E. subst k'. destruct (assoc comp_eqb k (tables s)) as [t0|] eqn:Es.
    + specialize (D5 _ eq_refl). assert (tab = t0) as -> by congruence. now apply Hv in Es.
    + destruct (fresh_table (templates s) k) as [t1|e] eqn:Ef.
      * specialize (D3 _ D1). assert (tab = t1) as -> by congruence. eapply fresh_v; eauto.
      * exfalso. unfold delta_table in H. rewrite Es in H.
        pose proof (build_spec s k Hc) as [B1 [_ [_ B2]]]. destruct (build s k) as [s1 r]. cbn in B1, B2.
        subst r. rewrite Ef in H. cbn in H. rewrite B2, Es in H. discriminate.
  - rewrite D4 in H by (intros ->; rewrite comp_eqb_refl in E; discriminate). now apply Hv in H.
Qed.

Lemma step_v s o : coherent s -> v_zero s -> v_zero (step solar curves vendored s o).
Proof.
  intros Hc Hv. assert (B : forall s', same_base s s' -> v_zero s') by (intros s' [_ E] k tab; rewrite E; apply Hv).
  destruct o as [t wl rf|t fs|wc ws fs|c a b|m a b c|H ob os fs G r c]; cbn [step].
  - destruct (register_spec s t wl rf Hc) as [_ [_ E]]. intros k tab. rewrite E. apply Hv.
  - apply B, geti_spec, Hc.
  - apply B, mixi_spec, Hc.
  - apply B, dmag_spec, Hc.
  - destruct (conv_state s m a b c Hc) as [->|[k [Hk ->]]]; [exact Hv|eapply dtab_v; eauto].
  - destruct (pred_state s H ob os fs G r c Hc) as [->|[k [Hk ->]]]; [exact Hv|eapply dtab_v; eauto].
Qed.

Lemma after_v : forall os s, coherent s -> v_zero s -> v_zero (hist s os).
Proof.
  induction os as [|o os IH]; intros s Hc Hv; [exact Hv|].
  change (hist s (o :: os)) with (hist (step solar curves vendored s o) os).
  apply IH; [apply step_spec, Hc|now apply step_v].
Qed.

Lemma v_start : v_zero start.
Proof. intros k tab. discriminate. Qed.

(* ---- predict ---- *)
Definition pred_row (tab : list (string * option R)) (ref : string) (h : R) (o b : position) (f : option string) (g : R) : option R :=
  match (if String.eqb ref "V" then Some h else omap2 Rminus (Some h) (delta_of tab (Some ref))) with
  | None => None
  | Some hv => omap2 Rplus (apparent_v hv (p_xyz o) (p_xyz b) g) (delta_of tab f)
  end.

Lemma pred_ok s H ob os fs G ref c s' out : coherent s -> pred s H ob os fs G ref c = (s', Ok out) ->
  exists k tab, composition_key c = Ok k /\ assoc comp_eqb k (tables s') = Some tab /\
    (assoc comp_eqb k (tables s) = Some tab \/ assoc comp_eqb k (tables s) = None) /\
    List.length H = List.length ob /\ List.length os = List.length ob /\ List.length fs = List.length ob /\
    List.length G = List.length ob /\ List.length out = List.length ob /\
    (forall i h o b f g, nth_error H i = Some h -> nth_error ob i = Some o -> nth_error os i = Some b ->
       nth_error fs i = Some f -> nth_error G i = Some g ->
       nth_error out i = Some (pred_row tab ref h o b f g) /\ geometry_ok (p_xyz o) (p_xyz b) = true /\ known (filter_ids curves) f = true) /\
    known (filter_ids curves) (Some ref) = true.
Proof.
  intros Hc E. unfold predict_magnitudes in E.
  destruct (lengths ob fs) eqn:L1; cbn [negb] in E; [|discriminate].
  destruct (forallb (known (filter_ids curves)) fs && known (filter_ids curves) (Some ref)) eqn:K; cbn [negb] in E; [|discriminate].
  destruct (lengths os ob) eqn:L2; cbn [negb] in E; [|discriminate].
  destruct (forallb _ (combine ob os)) eqn:Gm; cbn [negb] in E; [|discriminate].
  destruct (lengths H ob && lengths G ob) eqn:L3; cbn [negb] in E; [|discriminate].
  destruct (composition_key c) as [k|e]; [|discriminate].
  pose proof (dtab_spec s k Hc) as [H1 [_ [_ [H2 _]]]].
  destruct (dtab s k) as [s1 [tab|e]]; [|discriminate]. injection E as <- <-. cbn in H1, H2.
  apply andb_true_iff in L3 as [L3 L4]. apply andb_true_iff in K as [K1 K2]. unfold lengths in *.
  apply Nat.eqb_eq in L1, L2, L3, L4.
  exists k, tab. split; [reflexivity|]. split; [now apply H2|]. split.
  { destruct (assoc comp_eqb k (tables s)) as [tab'|]; [left; congruence|right; auto]. }
  repeat (split; [lia|]). split; [rewrite map_length, !combine_length; lia|]. split; [|exact K2].
  intros i h o b f g Hh Ho Hb Hf Hg. repeat split.
  - rewrite nth_error_map, !nth_combine, Hh, Ho, Hb, Hf, Hg. reflexivity.
  - rewrite forallb_forall in Gm. apply (Gm (o, b)). apply (nth_error_In _ i). now rewrite nth_combine, Ho, Hb.
  - rewrite forallb_forall in K1. apply K1. now apply (nth_error_In _ i).
Qed.

Lemma pred_coherent s H ob os fs G ref c s1 r : coherent s -> pred s H ob os fs G ref c = (s1, r) -> coherent s1.
Proof. intros Hc E. pose proof (step_spec s (Predict H ob os fs G ref c) Hc) as [X _]. cbn [step] in X. now rewrite E in X. Qed.
End S.
