(* C71, C72, C74 and the photometry statements C141-C150. *)
From Coq Require Import Reals Lra Lia.
From Coq Require Import List String Bool Sorted.
From Verif Require Import Base StrOrder BandModel BandProofs SphModel KepModel FrameModel FrameProofs PhotModel PhotSpec PhotState PhotGrey PhotPhase PhotH PhotToy.
Import ListNotations.
Open Scope string_scope.
Open Scope list_scope.
Open Scope R_scope.

Section P.
Variable solar : samples.
Variable curves : list curve.
Variable vendored : string -> string -> option R.
Notation conv := (convert_magnitude solar curves vendored).
Notation pred := (predict_magnitudes solar curves vendored).
Notation dmag := (bandpass_delta_mag solar curves vendored).
Notation forc := (integrals_for solar curves vendored).
Notation hist := (after solar curves vendored).
Notation proc := (process solar curves vendored).

Lemma proc_coherent os : coherent solar curves (proc os).
Proof. apply process_registered. Qed.

Lemma row_inv tab x f g v : row_of tab x f g = Some v -> exists y df dg, x = Some y /\ delta_of tab f = Some df /\ delta_of tab g = Some dg /\ v = y + (dg - df).
Proof.
  unfold row_of. destruct x as [y|]; [|discriminate]. destruct (delta_of tab g) as [dg|]; [|discriminate].
  destruct (delta_of tab f) as [df|]; [|discriminate]. cbn. intros [= <-]. eauto 8.
Qed.

Lemma conv_len s m a b c s' out : coherent solar curves s -> conv s m a b c = (s', Ok out) ->
  List.length a = List.length m /\ List.length b = List.length m /\ List.length out = List.length m.
Proof. intros Hc H. destruct (conv_ok _ _ _ _ _ _ _ _ _ _ Hc H) as [k [tab [_ [_ [_ [A [B [C _]]]]]]]]. auto. Qed.

Lemma nth_rows {A B C} (out : list A) (m : list B) (a : list C) i v :
  nth_error out i = Some v -> List.length out = List.length m -> List.length a = List.length m ->
  exists x f, nth_error m i = Some x /\ nth_error a i = Some f.
Proof.
  intros H L1 L2. destruct (nth_some out m i v L1 H) as [x Hx]. destruct (nth_some m a i x (eq_sym L2) Hx) as [f Hf]. eauto.
Qed.

(* ---- C71 ---- *)

(* equal filters: a reported value is the value that went in *)
Theorem C71_identity : forall os m fs c s' out i v,
  conv (proc os) m fs fs c = (s', Ok out) -> nth_error out i = Some (Some v) -> nth_error m i = Some (Some v).
Proof.
  intros os m fs c s' out i v H Hv. destruct (conv_ok _ _ _ _ _ _ _ _ _ _ (proc_coherent os) H) as [k [tab [_ [_ [_ [A [_ [C R]]]]]]]].
  destruct (nth_rows out m fs i _ Hv C A) as [x [f [Hx Hf]]]. rewrite (R i x f f Hx Hf Hf) in Hv. injection Hv as Hv.
  apply row_inv in Hv as [y [df [dg [-> [E1 [E2 ->]]]]]]. rewrite Hx. do 2 f_equal. assert (df = dg) by congruence. lra.
Qed.

(* there and back, whatever was called in between *)
Theorem C71_inverse : forall os m a b c s1 out os' s2 out' i v,
  conv (proc os) m a b c = (s1, Ok out) -> conv (hist s1 os') out b a c = (s2, Ok out') ->
  nth_error out' i = Some (Some v) -> nth_error m i = Some (Some v).
Proof.
  intros os m a b c s1 out os' s2 out' i v H1 H2 Hv. pose proof (proc_coherent os) as Hc.
  destruct (same_table _ _ _ _ _ _ _ _ _ _ _ _ _ _ _ _ _ Hc H1 eq_refl H2) as [tab [R1 R2]].
  destruct (conv_len _ _ _ _ _ _ _ Hc H1) as [A [B C]].
  pose proof (conv_coherent _ _ _ _ _ _ _ _ _ _ Hc H1) as Hc1.
  pose proof (proj1 (after_spec solar curves vendored os' s1 Hc1)) as Hc2.
  destruct (conv_len _ _ _ _ _ _ _ Hc2 H2) as [A' [B' C']].
  destruct (nth_rows out' out b i _ Hv C' A') as [y [g [Hy Hg]]].
  destruct (nth_rows out m a i _ Hy C A) as [x [f [Hx Hf]]].
  rewrite (R2 i y g f Hy Hg Hf) in Hv. rewrite (R1 i x f g Hx Hf Hg) in Hy. injection Hy as Hy. injection Hv as Hv.
  apply row_inv in Hv as [y0 [d1 [d2 [-> [E1 [E2 ->]]]]]]. apply row_inv in Hy as [x0 [d3 [d4 [-> [E3 [E4 ->]]]]]].
  rewrite Hx. do 2 f_equal. assert (d1 = d4) by congruence. assert (d2 = d3) by congruence. lra.
Qed.

(* a chain of conversions agrees with the direct one *)
Theorem C71_transitive : forall os m a b d c s1 ab os1 s2 bd os2 s3 ad i v,
  conv (proc os) m a b c = (s1, Ok ab) -> conv (hist s1 os1) ab b d c = (s2, Ok bd) ->
  conv (hist s2 os2) m a d c = (s3, Ok ad) ->
  nth_error bd i = Some (Some v) -> nth_error ad i = Some (Some v).
Proof.
  intros os m a b d c s1 ab os1 s2 bd os2 s3 ad i v H1 H2 H3 Hv. pose proof (proc_coherent os) as Hc.
  pose proof (conv_coherent _ _ _ _ _ _ _ _ _ _ Hc H1) as Hc1.
  pose proof (proj1 (after_spec solar curves vendored os1 s1 Hc1)) as Hc1'.
  pose proof (conv_coherent _ _ _ _ _ _ _ _ _ _ Hc1' H2) as Hc2.
  pose proof (proj1 (after_spec solar curves vendored os2 s2 Hc2)) as Hc2'.
  destruct (conv_ok _ _ _ _ _ _ _ _ _ _ Hc H1) as [k [t1 [K [T1 [_ [A [B [C R1]]]]]]]].
  destruct (conv_ok _ _ _ _ _ _ _ _ _ _ Hc1' H2) as [k2 [t2 [K2 [T2 [O2 [A2 [B2 [C2 R2]]]]]]]].
  destruct (conv_ok _ _ _ _ _ _ _ _ _ _ Hc2' H3) as [k3 [t3 [K3 [T3 [O3 [A3 [B3 [C3 R3]]]]]]]].
  assert (k2 = k) by congruence. assert (k3 = k) by congruence. subst k2 k3.
  pose proof (proj1 (proj2 (proj2 (after_spec solar curves vendored os1 s1 Hc1))) k t1 T1) as T1'.
  assert (t2 = t1) by (destruct O2 as [O2|[O2 _]]; congruence). subst t2.
  pose proof (proj1 (proj2 (proj2 (after_spec solar curves vendored os2 s2 Hc2))) k t1 T2) as T2'.
  assert (t3 = t1) by (destruct O3 as [O3|[O3 _]]; congruence). subst t3.
  destruct (nth_rows bd ab b i _ Hv C2 A2) as [y [g [Hy Hg]]].
  destruct (nth_some ab d i y (eq_sym B2) Hy) as [h Hh].
  destruct (nth_rows ab m a i _ Hy C A) as [x [f [Hx Hf]]].
  rewrite (R3 i x f h Hx Hf Hh). rewrite (R2 i y g h Hy Hg Hh) in Hv. rewrite (R1 i x f g Hx Hf Hg) in Hy.
  injection Hy as Hy. injection Hv as Hv.
  apply row_inv in Hv as [y0 [d1 [d2 [-> [E1 [E2 ->]]]]]]. apply row_inv in Hy as [x0 [d3 [d4 [-> [E3 [E4 ->]]]]]].
  unfold row_of. rewrite E2, E3. cbn. do 2 f_equal. assert (d1 = d4) by congruence. lra.
Qed.

(* the shift is -2.5 log10 of the ratio of the mean reflectances, the value bandpass_delta_mag
   gives, for a composition that was not converted with before *)
Theorem C71_law : forall os m a b c k s' out i x f g v d,
  composition_key c = Ok k -> (forall o, In o os -> ~ uses k o) ->
  conv (proc os) m a b c = (s', Ok out) ->
  nth_error m i = Some (Some x) -> nth_error a i = Some (Some f) -> nth_error b i = Some (Some g) ->
  nth_error out i = Some (Some v) -> snd (dmag (proc os) c f g) = Ok d -> v = x + d.
Proof.
  intros os m a b c k s' out i x f g v d Hk Hu H Hm Ha Hb Hv Hd. pose proof (proc_coherent os) as Hc.
  assert (N : assoc comp_eqb k (tables (proc os)) = None).
  { unfold process. rewrite (proj2 (proj2 (proj2 (after_spec solar curves vendored os start (coherent_start _ _)))) k Hu). reflexivity. }
  destruct (conv_fresh solar curves vendored _ _ _ _ _ _ _ _ _ _ _ Hc Hk N H i v Hm Ha Hb Hv) as [rf [rg [F [P [Q ->]]]]].
  assert (f <> "" /\ g <> "") as [Nf Ng].
  { unfold bandpass_delta_mag in Hd. destruct (String.eqb_spec f ""), (String.eqb_spec g ""); cbn in Hd; try discriminate. auto. }
  rewrite (forc_delta solar curves vendored _ c f g rf rg Hc Nf Ng F P Q) in Hd. injection Hd as <-.
  destruct (String.eqb_spec f g) as [->|]; [|lra].
  assert (E : rf = rg).
  { pose proof (forc_spec solar curves vendored _ c [g; g] Hc) as [S _].
    rewrite S, (proj1 (fresh_for_values solar curves vendored _ c k [g; g] Hk ltac:(discriminate))) in F. cbn in F.
    destruct (value_for solar curves vendored (templates (proc os)) c g); cbn in F; [|discriminate]. congruence. }
  subst rg. unfold Rdiv. rewrite Rinv_r by lra. rewrite log10_1. lra.
Qed.

(* mixes depend on the ratio of their weights only *)
Theorem C71_mix_scale : forall os m a b wc ws k, 0 < k ->
  conv (proc os) m a b (inr (k * wc, k * ws)) = conv (proc os) m a b (inr (wc, ws)).
Proof.
  intros os m a b wc ws k Hk. unfold convert_magnitude.
  replace (composition_key (inr (k * wc, k * ws))) with (composition_key (inr (wc, ws))); [reflexivity|].
  unfold composition_key.
  destruct (Rlt_dec wc 0), (Rlt_dec (k * wc) 0); try reflexivity; try nra.
  destruct (Rlt_dec ws 0), (Rlt_dec (k * ws) 0); try reflexivity; try nra.
  destruct (Rle_dec (wc + ws) 0), (Rle_dec (k * wc + k * ws) 0); try reflexivity; try nra.
  do 3 f_equal; field; nra.
Qed.

(* bad input is refused and leaves nothing behind *)
Theorem C71_errors : forall os m a b c,
  List.length a <> List.length m \/ List.length b <> List.length m \/
  In None a \/ In None b \/ (exists f, (In (Some f) a \/ In (Some f) b) /\ ~ In f (map cu_id curves)) \/
  c = inl "" \/ (exists wc ws, c = inr (wc, ws) /\ (wc < 0 \/ ws < 0 \/ wc + ws <= 0)) ->
  conv (proc os) m a b c = (proc os, Err ValueError).
Proof.
  intros os m a b c H. unfold convert_magnitude.
  destruct (negb (lengths a m && lengths b m)) eqn:EL; [reflexivity|].
  apply negb_false_iff, andb_true_iff in EL as [L1 L2]. unfold lengths in *. apply Nat.eqb_eq in L1, L2.
  destruct (negb (forallb (known (filter_ids curves)) a && forallb (known (filter_ids curves)) b)) eqn:EK; [reflexivity|].
  apply negb_false_iff, andb_true_iff in EK as [K1 K2]. rewrite forallb_forall in K1, K2.
  destruct H as [H|[H|[H|[H|[[f [Hf Hn]]|[->|[wc [ws [-> H]]]]]]]]]; try contradiction.
  - apply K1 in H. discriminate.
  - apply K2 in H. discriminate.
  - exfalso. apply Hn. destruct Hf as [Hf|Hf]; [apply K1 in Hf|apply K2 in Hf]; now apply known_iff in Hf.
  - reflexivity.
  - unfold composition_key. destruct (Rlt_dec wc 0); [reflexivity|]. destruct (Rlt_dec ws 0); [reflexivity|].
    destruct (Rle_dec (wc + ws) 0); [reflexivity|]. lra.
Qed.

(* ---- C74 ---- *)
Theorem C74_reregistration_partial : forall os c k,
  composition_key c = Ok k -> (forall o, In o os -> ~ uses k o) ->
  (forall m a b, snd (conv (proc os) m a b c) = snd (conv (proc (filter is_register os)) m a b c)) /\
  (forall H ob obs fs G r, snd (pred (proc os) H ob obs fs G r c) = snd (pred (proc (filter is_register os)) H ob obs fs G r c)).
Proof.
  intros os c k Hk Hu.
  assert (D : snd (delta_table solar curves vendored (proc os) k) = snd (delta_table solar curves vendored (proc (filter is_register os)) k)).
  { rewrite (proj1 (dtab_spec solar curves vendored _ k (proc_coherent os))),
            (proj1 (dtab_spec solar curves vendored _ k (proc_coherent (filter is_register os)))).
    rewrite (proj2 (process_registered solar curves vendored os)). unfold process.
    rewrite !(proj2 (proj2 (proj2 (after_spec solar curves vendored _ start (coherent_start _ _)))) k); [reflexivity| |exact Hu].
    intros o Ho. apply filter_In in Ho as [_ Ho]. destruct o; try discriminate. cbn. tauto. }
  split; intros; unfold convert_magnitude, predict_magnitudes; rewrite Hk;
    destruct (delta_table solar curves vendored (proc os) k) as [s1 r1], (delta_table solar curves vendored (proc (filter is_register os)) k) as [s2 r2];
    cbn in D; subst r2; repeat (match goal with |- context [if ?x then _ else _] => destruct x end; try reflexivity); destruct r1; reflexivity.
Qed.

(* ---- C141: synthetic colours follow the registrations in force ---- *)
Theorem C141_current_templates : forall os,
  (forall c f g, snd (dmag (proc os) c f g) = snd (dmag (proc (filter is_register os)) c f g)) /\
  (forall c fs, snd (forc (proc os) c fs) = snd (forc (proc (filter is_register os)) c fs)).
Proof.
  intros os. pose proof (proc_coherent os) as H1. pose proof (proc_coherent (filter is_register os)) as H2.
  pose proof (proj2 (process_registered solar curves vendored os)) as E.
  split; intros; [apply dmag_value|apply forc_value]; auto.
Qed.

(* ---- C142: grey templates ---- *)
Lemma forc_pair s t f g x y : coherent solar curves s -> value solar curves vendored (templates s) t f = Ok x ->
  value solar curves vendored (templates s) t g = Ok y -> snd (forc s (inl t) [f; g]) = Ok [x; y].
Proof.
  intros Hc Hf Hg. rewrite (proj1 (forc_spec solar curves vendored s (inl t) [f; g] Hc)). cbn [fresh_for].
  rewrite fresh_values by discriminate. cbn [mapM]. now rewrite Hf, Hg.
Qed.

Theorem C142_grey_template_partial : forall os t wl rf s' c f g pf pg,
  forallb (norm_ok solar) curves = true ->
  register_custom_template (proc os) t wl rf = (s', Ok tt) -> 0 < c -> (forall v, In v rf -> v = c) ->
  f <> "" -> g <> "" ->
  curve_of curves f = Some pf -> curve_of curves g = Some pg -> covers wl pf -> covers wl pg ->
  snd (dmag s' (inl t) f g) = Ok 0 /\ snd (forc s' (inl t) [f; g]) = Ok [Some c; Some c].
Proof.
  intros os t wl rf s' c f g pf pg Hnorm H Hc Hg Nf Ng Cf Cg Vf Vg.
  assert (Hs : coherent solar curves s').
  { pose proof (proj1 (register_spec solar curves (proc os) t wl rf (proc_coherent os))) as X. now rewrite H in X. }
  destruct (register_ok _ _ _ _ _ H) as [Ht [L [N [I [T _]]]]].
  assert (V : forall f pf, curve_of curves f = Some pf -> covers wl pf -> value solar curves vendored (templates s') t f = Ok (Some c)).
  { intros f0 p0 C0 V0. apply value_grey with (wl := wl) (rf := rf) (pts := p0); auto. rewrite T, assoc_cons, String.eqb_refl. reflexivity. }
  assert (F : snd (forc s' (inl t) [f; g]) = Ok [Some c; Some c]) by (apply forc_pair; eauto).
  split; [|exact F]. rewrite (forc_delta solar curves vendored s' (inl t) f g c c Hs Nf Ng F Hc Hc).
  destruct (String.eqb f g); [reflexivity|]. f_equal. unfold Rdiv at 2. rewrite Rinv_r by lra. rewrite log10_1. ring.
Qed.

(* ---- C143: only the shape of a template matters ---- *)
Theorem C143_rescaled_template : forall os t wl rf k s1 s2 f g d, 0 < k ->
  register_custom_template (proc os) t wl rf = (s1, Ok tt) ->
  register_custom_template (proc os) t wl (map (Rmult k) rf) = (s2, Ok tt) ->
  (snd (dmag s1 (inl t) f g) = Ok d <-> snd (dmag s2 (inl t) f g) = Ok d).
Proof.
  intros os t wl rf k s1 s2 f g d Hk H1 H2.
  assert (C1 : coherent solar curves s1).
  { pose proof (proj1 (register_spec solar curves (proc os) t wl rf (proc_coherent os))) as X. now rewrite H1 in X. }
  assert (C2 : coherent solar curves s2).
  { pose proof (proj1 (register_spec solar curves (proc os) t wl (map (Rmult k) rf) (proc_coherent os))) as X. now rewrite H2 in X. }
  destruct (register_ok _ _ _ _ _ H1) as [_ [_ [_ [_ [T1 _]]]]]. destruct (register_ok _ _ _ _ _ H2) as [_ [_ [_ [_ [T2 _]]]]].
  assert (V : forall f, value solar curves vendored (templates s2) t f = bind (value solar curves vendored (templates s1) t f) (fun v => Ok (option_map (Rmult k) v))).
  { intros f0. apply value_rescale with (wl := wl) (rf := rf); [rewrite T1|rewrite T2]; rewrite assoc_cons, String.eqb_refl; reflexivity. }
  unfold bandpass_delta_mag. destruct (String.eqb f "" || String.eqb g ""); [cbn; tauto|]. destruct (String.eqb f g); [cbn; tauto|].
  pose proof (proj1 (forc_spec solar curves vendored s1 (inl t) [f; g] C1)) as F1.
  pose proof (proj1 (forc_spec solar curves vendored s2 (inl t) [f; g] C2)) as F2.
  cbn [fresh_for] in F1, F2. rewrite fresh_values in F1, F2 by discriminate. cbn [mapM] in F1, F2. rewrite !V in F2.
  destruct (forc s1 (inl t) [f; g]) as [x1 r1], (forc s2 (inl t) [f; g]) as [x2 r2]. cbn [snd fst] in F1, F2. subst r1 r2.
  destruct (value solar curves vendored (templates s1) t f) as [vf|]; cbn [bind]; [|cbn; tauto].
  destruct (value solar curves vendored (templates s1) t g) as [vg|]; cbn [bind]; [|cbn; tauto].
  destruct vf as [a|], vg as [b|]; cbn [option_map snd]; try tauto.
  destruct (Rlt_dec 0 a) as [Pa|Na], (Rlt_dec 0 (k * a)) as [Pa'|Na']; try (exfalso; nra); cbn [snd]; try tauto.
  destruct (Rlt_dec 0 b) as [Pb|Nb], (Rlt_dec 0 (k * b)) as [Pb'|Nb']; try (exfalso; nra); cbn [snd]; try tauto.
  replace (k * b / (k * a)) with (b / a) by (field; lra). tauto.
Qed.

(* ---- C147: predictions ---- *)
(* predicting in another filter is converting the prediction *)
Theorem C147_predict_then_convert : forall os H ob obs fs gs G r c s1 mf os1 s2 mg os2 s3 mc i v,
  pred (proc os) H ob obs fs G r c = (s1, Ok mf) ->
  pred (hist s1 os1) H ob obs gs G r c = (s2, Ok mg) ->
  conv (hist s2 os2) mf fs gs c = (s3, Ok mc) ->
  nth_error mc i = Some (Some v) -> nth_error mg i = Some (Some v).
Proof.
  intros os H ob obs fs gs G r c s1 mf os1 s2 mg os2 s3 mc i v H1 H2 H3 Hv. pose proof (proc_coherent os) as Hc.
  pose proof (pred_coherent _ _ _ _ _ _ _ _ _ _ _ _ _ Hc H1) as Hc1.
  destruct (after_spec solar curves vendored os1 s1 Hc1) as [Hc1' [_ [Q1 _]]].
  pose proof (pred_coherent _ _ _ _ _ _ _ _ _ _ _ _ _ Hc1' H2) as Hc2.
  destruct (after_spec solar curves vendored os2 s2 Hc2) as [Hc2' [_ [Q2 _]]].
  destruct (pred_ok _ _ _ _ _ _ _ _ _ _ _ _ _ Hc H1) as [k [t1 [K [T1 [_ [LH [Lo [Lf [LG [Lm [R1 _]]]]]]]]]]].
  destruct (pred_ok _ _ _ _ _ _ _ _ _ _ _ _ _ Hc1' H2) as [k2 [t2 [K2 [T2 [O2 [_ [_ [Lg [_ [Lm2 [R2 _]]]]]]]]]]].
  destruct (conv_ok _ _ _ _ _ _ _ _ _ _ Hc2' H3) as [k3 [t3 [K3 [T3 [O3 [A3 [B3 [C3 R3]]]]]]]].
  assert (k2 = k) by congruence. assert (k3 = k) by congruence. subst k2 k3.
  specialize (Q1 k t1 T1). assert (t2 = t1) by (destruct O2; congruence). subst t2.
  specialize (Q2 k t1 T2). assert (t3 = t1) by (destruct O3 as [O3|[O3 _]]; congruence). subst t3.
  destruct (nth_rows mc mf fs i _ Hv C3 A3) as [x [f [Hx Hf]]].
  destruct (nth_some mf gs i x (eq_sym B3) Hx) as [g Hg].
  rewrite (R3 i x f g Hx Hf Hg) in Hv. injection Hv as Hv.
  destruct (nth_some fs ob i f Lf Hf) as [o Ho].
  destruct (nth_some ob obs i o (eq_sym Lo) Ho) as [b Hb]. destruct (nth_some ob H i o (eq_sym LH) Ho) as [h Hh].
  destruct (nth_some ob G i o (eq_sym LG) Ho) as [gg HG].
  rewrite (proj1 (R1 i h o b f gg Hh Ho Hb Hf HG)) in Hx. injection Hx as Hx.
  rewrite (proj1 (R2 i h o b g gg Hh Ho Hb Hg HG)). f_equal. subst x.
  apply row_inv in Hv as [y [df [dg [Ey [E1 [E2 ->]]]]]].
  unfold pred_row in *. destruct (if String.eqb r "V" then Some h else omap2 Rminus (Some h) (delta_of t1 (Some r))) as [hv|]; [|discriminate].
  destruct (apparent_v hv (p_xyz o) (p_xyz b) gg) as [m|]; [|discriminate]. rewrite E1 in Ey. cbn in Ey. injection Ey as <-.
  rewrite E2. cbn. f_equal. lra.
Qed.

(* predictions are additive in H, for every reference filter *)
Theorem C147_additive : forall os H H' dH ob obs fs G r c s1 m os1 s2 m' i h v v',
  (forall i x, nth_error H i = Some x -> nth_error H' i = Some (x + dH)) ->
  pred (proc os) H ob obs fs G r c = (s1, Ok m) -> pred (hist s1 os1) H' ob obs fs G r c = (s2, Ok m') ->
  nth_error H i = Some h -> nth_error m i = Some (Some v) -> nth_error m' i = Some (Some v') -> v' = v + dH.
Proof.
  intros os H H' dH ob obs fs G r c s1 m os1 s2 m' i h v v' Hd H1 H2 Hh Hv Hv'. pose proof (proc_coherent os) as Hc.
  pose proof (pred_coherent _ _ _ _ _ _ _ _ _ _ _ _ _ Hc H1) as Hc1.
  destruct (after_spec solar curves vendored os1 s1 Hc1) as [Hc1' [_ [Q1 _]]].
  destruct (pred_ok _ _ _ _ _ _ _ _ _ _ _ _ _ Hc H1) as [k [t1 [K [T1 [_ [LH [Lo [Lf [LG [Lm [R1 _]]]]]]]]]]].
  destruct (pred_ok _ _ _ _ _ _ _ _ _ _ _ _ _ Hc1' H2) as [k2 [t2 [K2 [T2 [O2 [_ [_ [_ [_ [_ [R2 _]]]]]]]]]]].
  assert (k2 = k) by congruence. subst k2. specialize (Q1 k t1 T1). assert (t2 = t1) by (destruct O2; congruence). subst t2.
  destruct (nth_some H ob i h LH Hh) as [o Ho]. destruct (nth_some ob obs i o (eq_sym Lo) Ho) as [b Hb].
  destruct (nth_some ob fs i o (eq_sym Lf) Ho) as [f Hf]. destruct (nth_some ob G i o (eq_sym LG) Ho) as [g HG].
  rewrite (proj1 (R1 i h o b f g Hh Ho Hb Hf HG)) in Hv. rewrite (proj1 (R2 i _ o b f g (Hd i h Hh) Ho Hb Hf HG)) in Hv'.
  injection Hv as Hv. injection Hv' as Hv'. unfold pred_row, apparent_v in *.
  destruct (String.eqb r "V"); [|destruct (delta_of t1 (Some r)) as [dr|]; cbn in Hv, Hv'; [|discriminate]];
    destruct (correction_from_cos _ g); cbn in Hv, Hv'; try discriminate;
    destruct (delta_of t1 f); cbn in Hv, Hv'; try discriminate; injection Hv as <-; injection Hv' as <-; ring.
Qed.

(* V predicted at H in V: the standard H-G magnitude *)
Theorem C147_v_magnitude : forall os H ob obs fs G c s1 m i h o b g,
  pred (proc os) H ob obs fs G "V" c = (s1, Ok m) ->
  nth_error H i = Some h -> nth_error ob i = Some o -> nth_error obs i = Some b -> nth_error fs i = Some (Some "V") -> nth_error G i = Some g ->
  0 <= g <= 1 -> cos (angle_at (p_xyz o) (p_xyz b)) <> -1 ->
  let t := tan (angle_at (p_xyz o) (p_xyz b) / 2) in
  nth_error m i = Some (Some (h + 5 * log10 (norm (p_xyz o) * norm (vplus (p_xyz o) (scale (-1) (p_xyz b))))
    - 5 / 2 * log10 ((1 - g) * exp (- (333 / 100) * power t (63 / 100)) + g * exp (- (187 / 100) * power t (122 / 100))))).
Proof.
  intros os H ob obs fs G c s1 m i h o b g H1 Hh Ho Hb Hf HG Hg Hcos t. pose proof (proc_coherent os) as Hc.
  pose proof (pred_coherent _ _ _ _ _ _ _ _ _ _ _ _ _ Hc H1) as Hc1.
  destruct (pred_ok _ _ _ _ _ _ _ _ _ _ _ _ _ Hc H1) as [k [t1 [K [T1 [_ [LH [Lo [Lf [LG [Lm [R1 _]]]]]]]]]]].
  destruct (R1 i h o b _ g Hh Ho Hb Hf HG) as [-> [GO _]].
  assert (V : delta_of t1 (Some "V") = Some 0).
  { pose proof (step_v solar curves vendored (proc os) (Predict H ob obs fs G "V" c) Hc (after_v solar curves vendored os start (coherent_start _ _) v_start)) as X.
    cbn [step] in X. rewrite H1 in X. exact (X k t1 T1). }
  unfold pred_row. change (String.eqb "V" "V") with true. cbv iota. rewrite V. unfold apparent_v.
  apply geometry_iff in GO as [P Q]. destruct (cos_phase_dot _ _ P Q) as [E B]. 
  assert (A : cos (angle_at (p_xyz o) (p_xyz b)) = cos_phase (p_xyz o) (p_xyz b)).
  { rewrite E. unfold angle_at. rewrite cos_acos by lra. reflexivity. }
  assert (A' : acos (cos_phase (p_xyz o) (p_xyz b)) = angle_at (p_xyz o) (p_xyz b)) by (rewrite E; reflexivity).
  rewrite <- E in B. rewrite A in Hcos.
  rewrite correction_value by lra. cbn [option_map omap2]. do 2 f_equal.
  rewrite tan_of_cos by lra. rewrite A'. fold t. unfold phase_fn, phi1, phi2. lra.
Qed.

(* ---- C72 ---- *)
(* exact predictions are inverted, for every weighting *)
Theorem C72_inverts : forall os h ob obs fs G c s1 ms os1 s2 m0s sg ds,
  pred (proc os) (map (fun _ => h) ob) ob obs fs G "V" c = (s1, Ok ms) ->
  pred (hist s1 os1) (map (fun _ => 0) ob) ob obs fs G "V" c = (s2, Ok m0s) ->
  ds = map (fun p => mk_det (fst p) (fst (snd p)) (snd (snd p))) (combine ms (combine sg m0s)) ->
  (forall f, estimate_h ds = Ok f -> f_H f = h) /\
  ((exists m, In (Some m) ms) -> List.length sg = List.length ms -> (forall v, In (Some v) sg -> v <> 0) -> exists f, estimate_h ds = Ok f).
Proof.
  intros os h ob obs fs G c s1 ms os1 s2 m0s sg ds H1 H2 ->. pose proof (proc_coherent os) as Hc.
  pose proof (pred_coherent _ _ _ _ _ _ _ _ _ _ _ _ _ Hc H1) as Hc1.
  destruct (after_spec solar curves vendored os1 s1 Hc1) as [Hc1' [_ [Q1 _]]].
  destruct (pred_ok _ _ _ _ _ _ _ _ _ _ _ _ _ Hc H1) as [k [t1 [K [T1 [_ [LH [Lo [Lf [LG [Lm [R1 _]]]]]]]]]]].
  destruct (pred_ok _ _ _ _ _ _ _ _ _ _ _ _ _ Hc1' H2) as [k2 [t2 [K2 [T2 [O2 [_ [_ [_ [_ [Lm2 [R2 _]]]]]]]]]]].
  assert (k2 = k) by congruence. subst k2. specialize (Q1 k t1 T1). assert (t2 = t1) by (destruct O2; congruence). subst t2.
  assert (REL : forall i x, nth_error ms i = Some x -> exists y, nth_error m0s i = Some y /\ x = option_map (fun m => h + m) y).
  { intros i x Hx. destruct (nth_some ms ob i x Lm Hx) as [o Ho]. destruct (nth_some ob obs i o (eq_sym Lo) Ho) as [b Hb].
    destruct (nth_some ob fs i o (eq_sym Lf) Ho) as [f Hf]. destruct (nth_some ob G i o (eq_sym LG) Ho) as [g HG].
    exists (pred_row t1 "V" 0 o b f g). split.
    - apply (R2 i 0 o b f g); auto. now apply map_nth_error with (f := fun _ => 0) in Ho.
    - assert (E : nth_error ms i = Some (pred_row t1 "V" h o b f g)) by (apply (R1 i h o b f g); auto; now apply map_nth_error with (f := fun _ => h) in Ho).
      rewrite Hx in E. injection E as ->. apply pred_row_H. }
  set (ds := map _ (combine ms (combine sg m0s))).
  assert (ROW : forall d, In d ds -> d_mag d = option_map (fun m => h + m) (d_m0 d)).
  { intros d Hd. apply in_map_iff in Hd as [[x [v y]] [<- Hin]]. cbn.
    apply In_nth_error in Hin as [i Hi].
    assert (Hn : nth_error ms i = Some x /\ nth_error m0s i = Some y).
    { clear -Hi. revert sg m0s i Hi. induction ms as [|a ms IH]; intros [|b sg] [|c m0s] [|i] Hi; cbn in *; try discriminate.
      - injection Hi as -> -> ->. auto.
      - apply (IH sg m0s i Hi). }
    destruct Hn as [N1 N2]. destruct (REL i x N1) as [y' [Hy ->]]. congruence. }
  assert (HS : forall r, In r (map fst (keep_some (map usable ds))) -> r = h).
  { intros r Hr. apply in_map_iff in Hr as [[r0 s0] [<- Hin]]. apply keep_some_in, in_map_iff in Hin as [d [Hu Hd]].
    apply usable_iff in Hu as [m [m0 [E1 [E2 [-> _]]]]]. rewrite (ROW d Hd), E2 in E1. injection E1 as <-. cbn. ring. }
  split.
  - intros f Hf. apply estimate_unfold in Hf.
    destruct (fit_ok _ _ _ (eq_trans (map_length _ _) (eq_sym (map_length _ _))) Hf) as [N [_ [-> [L [P _]]]]].
    assert (h <= wmean (fit_weights (map fst (keep_some (map usable ds))) (map snd (keep_some (map usable ds)))) (map fst (keep_some (map usable ds))) <= h); [|lra].
    apply wmean_bounds; auto.
    + intros E. rewrite E in L. cbn in L. destruct (map fst (keep_some (map usable ds))); [contradiction|discriminate].
    + intros x Hx. rewrite (HS x Hx). lra.
  - intros [m Hm] Ls NZ.
    assert (Ne : keep_some (map usable ds) <> []).
    { apply In_nth_error in Hm as [i Hi]. destruct (REL i _ Hi) as [y [Hy E]]. destruct y as [y|]; [|discriminate].
      assert (List.length ms = List.length m0s) as LL by lia.
      destruct (nth_some ms sg i _ (eq_sym Ls) Hi) as [v Hv].
      assert (In (Some (m - y, v)) (map usable ds)) as X.
      { apply in_map_iff. exists (mk_det (Some m) v (Some y)). split; [reflexivity|]. apply in_map_iff.
        exists (Some m, (v, Some y)). split; [reflexivity|]. apply nth_error_In with i.
        clear -Hi Hy Hv. revert sg m0s i Hi Hy Hv. induction ms as [|a ms IH]; intros [|b sg] [|c m0s] [|i] Hi Hy Hv; cbn in *; try discriminate.
        - congruence.
        - apply IH; auto. }
      apply keep_some_in in X. intros E0. rewrite E0 in X. contradiction. }
    unfold estimate_h. destruct (keep_some (map usable ds)) as [|r0 rows] eqn:Ek; [contradiction|].
    apply fit_succeeds; [now rewrite !map_length|discriminate|].
    intros v Hv. apply NZ. rewrite <- Ek in Hv. apply in_map_iff in Hv as [[r v'] [E Hin]]. cbn in E. subst v'.
    apply keep_some_in, in_map_iff in Hin as [d [Hu Hd]]. apply usable_iff in Hu as [m1 [m2 [_ [_ [_ Es]]]]].
    apply in_map_iff in Hd as [[x [w y]] [<- Hin]]. cbn in Es. subst w. apply in_combine_r in Hin. now apply in_combine_l in Hin.
Qed.
End P.

(* the estimate lies between the smallest and largest per-row value, is the weighted
   least-squares solution, and counts the rows it used *)
Theorem C72_between : forall ds f lo hi,
  estimate_h ds = Ok f ->
  (forall d m m0, In d ds -> d_mag d = Some m -> d_m0 d = Some m0 -> lo <= m - m0 <= hi) ->
  lo <= f_H f <= hi /\
  f_n f = List.length (filter (fun d => match d_mag d, d_m0 d with Some _, Some _ => true | _, _ => false end) ds).
Proof.
  intros ds f lo hi H HB. apply estimate_unfold in H.
  destruct (fit_ok _ _ _ (eq_trans (map_length _ _) (eq_sym (map_length _ _))) H) as [N [Hn [-> [L [P _]]]]]. split.
  - apply wmean_bounds; auto.
    + intros E. rewrite E in L. cbn in L. destruct (map fst (keep_some (map usable ds))); [contradiction|discriminate].
    + intros x Hx. apply in_map_iff in Hx as [[r s] [<- Hin]]. apply keep_some_in, in_map_iff in Hin as [d [Hu Hd]].
      apply usable_iff in Hu as [m [m0 [E1 [E2 [-> _]]]]]. cbn. eauto.
  - rewrite Hn, map_length. clear. induction ds as [|d ds IH]; cbn; [reflexivity|]. unfold usable at 1.
    destruct (d_mag d), (d_m0 d); cbn; auto.
Qed.

Theorem C72_least_squares : forall rows f x,
  rows <> [] -> estimate_h (map (fun r => mk_det (Some (fst r)) (Some (fst (snd r))) (Some (snd (snd r)))) rows) = Ok f ->
  let w := map (fun r => 1 / (fst (snd r) * fst (snd r))) rows in
  let h := map (fun r => fst r - snd (snd r)) rows in
  misfit w h (f_H f) <= misfit w h x /\
  ((2 <= List.length rows)%nat ->
     f_chi2 f = Some (misfit w h (f_H f) / INR (List.length rows - 1)) /\
     exists hs, f_sigma f = Some hs /\ sqrt (1 / rsum w) <= hs).
Proof.
  intros rows f x Hn H w h. apply estimate_unfold in H.
  assert (K : keep_some (map usable (map (fun r => mk_det (Some (fst r)) (Some (fst (snd r))) (Some (snd (snd r)))) rows)) =
              map (fun r => (fst r - snd (snd r), Some (fst (snd r)))) rows).
  { clear. induction rows as [|r rows IH]; cbn; [reflexivity|]. now rewrite IH. }
  rewrite K, !map_map in H. cbn in H. fold h in H.
  assert (S : all_some (map (fun r : R * (R * R) => Some (fst (snd r))) rows) = Some (map (fun r => fst (snd r)) rows)).
  { rewrite <- (map_map (fun r => fst (snd r)) Some). apply all_some_map. }
  destruct (fit_ok _ _ _ (eq_trans (map_length _ _) (eq_sym (map_length _ _))) H) as [_ [_ [E [L [P [_ Q]]]]]]. fold h in E, L, Q.
  unfold fit_weights in *. rewrite S in *. assert (Ew : weights (map (fun r => fst (snd r)) rows) = w) by (unfold weights, w; now rewrite map_map).
  rewrite Ew in *. split.
  - rewrite E. apply wmean_minimal; auto. intros E0. unfold w in E0. apply map_eq_nil in E0. contradiction.
  - intros H2. assert (Lh : List.length h = List.length rows) by apply map_length. rewrite Lh in Q.
    destruct (Q _ eq_refl H2) as [C [hs [S1 S2]]]. rewrite Ew in *. split; [exact C|]. exists hs. split; [exact S1|].
    rewrite S2. pose proof (sqrt_pos (1 / rsum w)). destruct (Rlt_dec _ _) as [Hl|]; [|lra].
    assert (1 <= sqrt (misfit w h (f_H f) / INR (List.length rows - 1))) by (rewrite <- sqrt_1 at 1; apply sqrt_le_1; lra). nra.
Qed.

(* the grouped call reports, per object id and once, what the single call reports for the
   rows of that object; objects whose single call fails are absent *)
Theorem C72_grouped : forall ds,
  (forall i f, In (i, f) (estimate_h_grouped ds) <->
     estimate_h (map snd (filter (fun d => match fst d with Some j => String.eqb j i | None => false end) ds)) = Ok f) /\
  NoDup (map fst (estimate_h_grouped ds)) /\
  StronglySorted (fun i j => str_leb i j = true) (map fst (estimate_h_grouped ds)).
Proof.
  intros ds. destruct (grouped_spec ds) as [G S]. split; [exact G|]. split; [now apply sorted_nodup|].
  induction S as [|x l S IH F]; constructor; auto. eapply Forall_impl; [|exact F]. now intros a [Ha _].
Qed.

(* two objects, one with a vanishing sigma: dropped without an error *)
Example C72_case :
  let good := mk_det (Some 20) (Some 1) (Some 4) in
  let good' := mk_det (Some 22) (Some 1) (Some 4) in
  let bad := mk_det (Some 20) (Some 0) (Some 4) in
  (exists f, estimate_h [good; good'] = Ok f /\ f_H f = 17 /\ f_n f = 2%nat) /\
  estimate_h [bad] = Err ValueError /\
  map fst (estimate_h_grouped [(Some "b", good); (Some "a", bad); (None, good); (Some "b", good')]) = ["b"].
Proof.
  cbn zeta.
  assert (A : exists f, estimate_h [mk_det (Some 20) (Some 1) (Some 4); mk_det (Some 22) (Some 1) (Some 4)] = Ok f /\ f_H f = 17 /\ f_n f = 2%nat).
  { unfold estimate_h, fit_rows. cbn. destruct (Req_EM_T 1 0); [lra|]. cbn. destruct (Rle_dec _ 0); [lra|]. eexists. split; [reflexivity|]. cbn. split; [field; lra|reflexivity]. }
  assert (B : estimate_h [mk_det (Some 20) (Some 0) (Some 4)] = Err ValueError).
  { unfold estimate_h, fit_rows. cbn. destruct (Req_EM_T 0 0); [|lra]. reflexivity. }
  split; [exact A|]. split; [exact B|].
  unfold estimate_h_grouped. cbn -[fit_rows].
  destruct A as [f [A _]]. apply estimate_unfold in A. cbn -[fit_rows] in A. rewrite A.
  assert (B' : fit_rows [20 - 4] [Some 0] = Err ValueError) by (unfold fit_rows; cbn; destruct (Req_EM_T 0 0); [|lra]; reflexivity).
  rewrite B'. reflexivity.
Qed.

(* ---- concrete histories ---- *)
Lemma toy_step s o : coherent sun4 toy s -> coherent sun4 toy (step sun4 toy none s o).
Proof. intros H. now apply step_spec. Qed.

Lemma log2_pos : 0 < log10 2.
Proof. rewrite <- log10_1. apply log10_mono; lra. Qed.

Definition colour_of (r : result (list (option R))) : option R := match r with Ok [Some v] => Some v | _ => None end.

(* register grey, convert, register red: the conversion still uses the grey template,
   while bandpass_delta_mag uses the red one; converting first after the second
   registration gives the red colour *)
Theorem C74_reregistration_refuted : exists solar curves vendored t wl rf rf' d,
  let reg := Register t wl rf in
  let reg' := Register t wl rf' in
  let use := Convert [Some 20] [Some "V"] [Some "F"] (inl t) in
  let os := [reg; use; reg'] in
  let ask s := snd (convert_magnitude solar curves vendored s [Some 20] [Some "V"] [Some "F"] (inl t)) in
  0 < d /\
  ask (process solar curves vendored os) = Ok [Some 20] /\
  ask (process solar curves vendored [reg; reg']) = Ok [Some (20 - d)] /\
  snd (bandpass_delta_mag solar curves vendored (process solar curves vendored os) (inl t) "V" "F") = Ok (- d).
Proof.
  exists sun4, toy, none, "A", wl4, grey4, red4, (5 / 2 * log10 2).
  cbn zeta. pose proof log2_pos as P. split; [lra|].
  destruct grey_sorted as [GS GI]. destruct red_sorted as [RS RI].
  assert (REG : forall s rf tm, (rf = grey4 /\ tm = combine wl4 grey4 \/ rf = red4 /\ tm = red) ->
    step sun4 toy none s (Register "A" wl4 rf) = mk_state (("A", tm) :: templates s) [] (tables s)).
  { intros s rf tm [[-> ->]|[-> ->]]; unfold step, register_custom_template; cbn [String.eqb]; change (String.eqb "A" "") with false; cbv iota;
      change (negb (lengths wl4 grey4)) with false; change (negb (lengths wl4 red4)) with false; change (List.length wl4 <? 2)%nat with false; cbv iota.
    - rewrite GS, GI. reflexivity.
    - rewrite RS, RI. reflexivity. }
  set (s1 := step sun4 toy none start (Register "A" wl4 grey4)).
  assert (E1 : s1 = mk_state [("A", combine wl4 grey4)] [] []) by (apply REG; auto).
  assert (C1 : coherent sun4 toy s1) by (apply toy_step, coherent_start).
  destruct (toy_convert s1 (table_of 1 1 1) 20 C1) as [V1 [T1 M1]].
  { rewrite E1. cbn [tables templates]. rewrite assoc_nil. apply toy_grey. rewrite GS. reflexivity. }
  set (s2 := step sun4 toy none s1 (Convert [Some 20] [Some "V"] [Some "F"] (inl "A"))).
  assert (C2 : coherent sun4 toy s2) by now apply toy_step.
  set (s3 := step sun4 toy none s2 (Register "A" wl4 red4)).
  assert (E3 : s3 = mk_state (("A", red) :: templates s2) [] (tables s2)) by (apply REG; auto).
  assert (C3 : coherent sun4 toy s3) by now apply toy_step.
  assert (T2 : assoc comp_eqb (inl "A") (tables s2) = Some (table_of 1 1 1)) by exact T1.
  set (s4 := step sun4 toy none s1 (Register "A" wl4 red4)).
  assert (E4 : s4 = mk_state (("A", red) :: templates s1) [] (tables s1)) by (apply REG; auto).
  assert (C4 : coherent sun4 toy s4) by now apply toy_step.
  change (process sun4 toy none [Register "A" wl4 grey4; Convert [Some 20] [Some "V"] [Some "F"] (inl "A"); Register "A" wl4 red4]) with s3.
  change (process sun4 toy none [Register "A" wl4 grey4; Register "A" wl4 red4]) with s4.
  split; [|split].
  - rewrite (proj1 (toy_convert s3 (table_of 1 1 1) 20 C3 ltac:(rewrite E3; cbn [tables]; now rewrite T2))).
    cbn. do 3 f_equal. ring.
  - rewrite (proj1 (toy_convert s4 (table_of 1 2 (5 / 3)) 20 C4 ltac:(rewrite E4; cbn [tables templates]; rewrite E1; cbn [tables]; rewrite assoc_nil; apply toy_red; now rewrite assoc_cons))).
    cbn. do 3 f_equal. replace (1 / 1) with 1 by field. replace (2 / 1) with 2 by field. rewrite log10_1. field.
  - assert (A3 : assoc String.eqb "A" (templates s3) = Some red) by (rewrite E3; reflexivity).
    destruct (red_values (templates s3) A3) as [RV [RF _]].
    rewrite (forc_delta sun4 toy none s3 (inl "A") "V" "F" 1 2 C3); try discriminate; try lra.
    + change (String.eqb "V" "F") with false. cbv iota. f_equal. replace (2 / 1) with 2 by field. lra.
    + now apply forc_pair.
Qed.

(* a conversion that runs, back and forth: the red template in a fresh process *)
Example C71_case : exists s1 s2 v,
  convert_magnitude sun4 toy none (process sun4 toy none [Register "A" wl4 red4]) [Some 20; None] [Some "V"; Some "V"] [Some "F"; Some "W"] (inl "A") = (s1, Ok [Some v; None]) /\
  v < 20 /\
  convert_magnitude sun4 toy none s1 [Some v; None] [Some "F"; Some "W"] [Some "V"; Some "V"] (inl "A") = (s2, Ok [Some 20; None]).
Proof.
  destruct red_sorted as [RS RI]. set (s0 := process sun4 toy none [Register "A" wl4 red4]).
  assert (C0 : coherent sun4 toy s0) by apply proc_coherent.
  assert (E0 : s0 = mk_state [("A", red)] [] []).
  { unfold s0, process, after. cbn [fold_left step]. unfold register_custom_template. change (String.eqb "A" "") with false.
    change (negb (lengths wl4 red4)) with false. change (List.length wl4 <? 2)%nat with false. cbv iota. now rewrite RS, RI. }
  pose proof (dtab_spec sun4 toy none s0 (inl "A") C0) as [D1 [C1 [_ [D3 _]]]].
  assert (FT : fresh_table sun4 toy none (templates s0) (inl "A") = Ok (table_of 1 2 (5 / 3))) by (rewrite E0; now apply toy_red).
  rewrite FT in D1. rewrite E0 in D1 at 2. cbn [tables] in D1. rewrite assoc_nil in D1. specialize (D3 _ D1).
  exists (fst (delta_table sun4 toy none s0 (inl "A"))), (fst (delta_table sun4 toy none s0 (inl "A"))), (20 - 5 / 2 * log10 2).
  assert (CK : forall s m f, convert_magnitude sun4 toy none s [m; None] [Some "V"; Some "V"] [Some "F"; Some "W"] (inl "A") = f ->
               True) by auto. clear CK.
  pose proof log2_pos as P. assert (L1 : log10 (1 / 1) = 0) by (replace (1 / 1) with 1 by field; apply log10_1).
  assert (L2 : log10 (2 / 1) = log10 2) by (f_equal; field).
  split; [|split; [lra|]].
  - assert (DT : delta_table sun4 toy none s0 (inl "A") = (fst (delta_table sun4 toy none s0 (inl "A")), Ok (table_of 1 2 (5 / 3))))
      by (rewrite <- D1; apply surjective_pairing).
    set (s' := fst (delta_table sun4 toy none s0 (inl "A"))) in *. clearbody s0.
    unfold convert_magnitude. cbn -[delta_table table_of]. rewrite DT. cbn. rewrite L1, L2. do 4 f_equal. lra.
  - set (s' := fst (delta_table sun4 toy none s0 (inl "A"))) in *.
    assert (DT : delta_table sun4 toy none s' (inl "A") = (s', Ok (table_of 1 2 (5 / 3)))) by (unfold delta_table; now rewrite D3).
    unfold convert_magnitude. cbn -[delta_table table_of]. rewrite DT. cbn. rewrite L1, L2. do 4 f_equal. lra.
Qed.

(* a grey template that covers only a quarter of a filter makes the object look dark in it *)
Theorem C142_grey_template_refuted : exists solar curves vendored t wl rf d,
  forallb (norm_ok solar) curves = true /\ 0 < d /\ (forall v, In v rf -> v = 1) /\
  snd (bandpass_delta_mag solar curves vendored (process solar curves vendored [Register t wl rf]) (inl t) "V" "W") = Ok d.
Proof.
  exists sun4, toy, none, "A", [1; 2], [1; 1], (5 / 2 * log10 5).
  split; [apply toy_norms|]. split; [assert (log10 1 < log10 5) by (apply log10_mono; lra); rewrite log10_1 in *; lra|].
  split; [cbn; intros v [<-|[<-|[]]]; reflexivity|].
  assert (S : sort by_wl (combine [1; 2] [1; 1]) = ptsV) by (unfold by_wl; cbn; ev; auto).
  assert (I : increasing ptsV = true) by (unfold ptsV; cbn; ev; auto).
  set (s1 := process sun4 toy none [Register "A" [1; 2] [1; 1]]).
  assert (C1 : coherent sun4 toy s1) by apply proc_coherent.
  assert (E1 : templates s1 = [("A", ptsV)]).
  { unfold s1, process, after. cbn [fold_left step]. unfold register_custom_template. change (String.eqb "A" "") with false.
    change (negb (lengths [1; 2] [1; 1])) with false. change (List.length [1; 2] <? 2)%nat with false. cbv iota. now rewrite S, I. }
  assert (IV : integral_photon sun4 ptsV ptsV = Some (3 / 2)).
  { unfold integral_photon, wl_min, wl_max, sun4, ptsV, grid. cbn [fold_right hd fst snd List.length Nat.ltb Nat.leb filter]. ev. f_equal. lra. }
  assert (IW : integral_photon sun4 ptsW ptsV = Some (3 / 2)).
  { unfold integral_photon, wl_min, wl_max, sun4, ptsV, ptsW, grid. cbn [fold_right hd fst snd List.length Nat.ltb Nat.leb filter]. ev. f_equal. lra. }
  assert (A : assoc String.eqb "A" (templates s1) = Some ptsV) by (rewrite E1; reflexivity).
  rewrite (forc_delta sun4 toy none s1 (inl "A") "V" "W" 1 (1 / 5) C1); try discriminate; try lra.
  - change (String.eqb "V" "W") with false. cbv iota. f_equal. replace (1 / 5 / 1) with (1 / 5) by field.
    rewrite log10_div by lra. rewrite log10_1. lra.
  - apply forc_pair; auto.
    + rewrite (value_custom _ "A" ptsV "V" ptsV (3 / 2) (Some (3 / 2)) A eq_refl norm_V IV). cbn. do 2 f_equal. lra.
    + rewrite (value_custom _ "A" ptsV "W" ptsW (15 / 2) (Some (3 / 2)) A eq_refl norm_W IW). cbn. do 2 f_equal. lra.
Qed.

(* the hypotheses of the grey statement are met *)
Example C142_case : exists s', register_custom_template start "A" wl4 grey4 = (s', Ok tt) /\
  forallb (norm_ok sun4) toy = true /\ curve_of toy "W" = Some ptsW /\ covers wl4 ptsW.
Proof.
  destruct grey_sorted as [GS GI]. eexists. split; [|split; [apply toy_norms|split; [reflexivity|]]].
  - unfold register_custom_template. change (String.eqb "A" "") with false.
    change (negb (lengths wl4 grey4)) with false. change (List.length wl4 <? 2)%nat with false. cbv iota. rewrite GS, GI. reflexivity.
  - intros p [<-|[<-|[]]]; cbn; split; (exists 1 + exists 4); cbn; split; auto; lra.
Qed.

(* ---- C144: the phase angle ---- *)
Theorem C144_phase_angle : forall objs obss out,
  calculate_phase_angle objs obss = Ok out ->
  List.length out = List.length objs /\ List.length obss = List.length objs /\
  forall i o b, nth_error objs i = Some o -> nth_error obss i = Some b ->
    p_sun o = true /\ p_sun b = true /\ p_frame o = p_frame b /\
    0 < norm (p_xyz o) /\ 0 < norm (vplus (p_xyz o) (scale (-1) (p_xyz b))) /\
    nth_error out i = Some (degrees (angle_at (p_xyz o) (p_xyz b))) /\ 0 <= degrees (angle_at (p_xyz o) (p_xyz b)) <= 180.
Proof.
  intros objs obss out. unfold calculate_phase_angle.
  destruct (lengths obss objs) eqn:L; [|discriminate]. cbn [negb].
  destruct (forallb p_sun objs) eqn:S1; [|discriminate]. cbn [negb]. destruct (forallb p_sun obss) eqn:S2; [|discriminate]. cbn [negb].
  destruct (forallb _ (combine objs obss)) eqn:F; [|discriminate]. cbn [negb].
  destruct (forallb (fun p => geometry_ok _ _) (combine objs obss)) eqn:G; [|discriminate]. cbn [negb]. intros [= <-].
  unfold lengths in L. apply Nat.eqb_eq in L. rewrite map_length, combine_length. split; [lia|]. split; [exact L|].
  intros i o b Ho Hb. rewrite forallb_forall in S1, S2, F, G.
  assert (N : nth_error (combine objs obss) i = Some (o, b)) by now rewrite nth_combine, Ho, Hb.
  pose proof (nth_error_In _ _ N) as Hin. specialize (F _ Hin). specialize (G _ Hin). cbn in F, G. apply String.eqb_eq in F.
  rewrite (map_nth_error _ i _ N). cbn [fst snd]. rewrite (phase_is_angle _ _ G). apply geometry_iff in G as [P Q].
  repeat split; auto.
  - apply S1. eapply nth_error_In; eauto.
  - apply S2. eapply nth_error_In; eauto.
  - pose proof (acos_bound (dot (scale (-1) (p_xyz o)) (vplus (p_xyz b) (scale (-1) (p_xyz o))) / (norm (scale (-1) (p_xyz o)) * norm (vplus (p_xyz b) (scale (-1) (p_xyz o)))))) as B.
    pose proof PI_RGT_0. unfold degrees, angle_at. apply Rmult_le_pos; [lra|]. apply Rmult_le_pos; [lra|]. left. apply Rinv_0_lt_compat. lra.
  - pose proof (acos_bound (dot (scale (-1) (p_xyz o)) (vplus (p_xyz b) (scale (-1) (p_xyz o))) / (norm (scale (-1) (p_xyz o)) * norm (vplus (p_xyz b) (scale (-1) (p_xyz o)))))) as B.
    pose proof PI_RGT_0. unfold degrees, angle_at.
    apply Rmult_le_reg_r with (PI / 180); [lra|]. unfold Rdiv. rewrite Rmult_assoc. 
    replace (180 * / PI * (PI * / 180)) with 1 by (field; lra). lra.
Qed.

(* rows that are not heliocentric, in different frames, or degenerate are refused *)
Theorem C144_refusals : forall objs obss,
  (List.length obss <> List.length objs \/
   exists i o b, nth_error objs i = Some o /\ nth_error obss i = Some b /\
     (p_sun o = false \/ p_sun b = false \/ p_frame o <> p_frame b \/ norm (p_xyz o) = 0 \/ norm (vplus (p_xyz o) (scale (-1) (p_xyz b))) = 0)) ->
  calculate_phase_angle objs obss = Err ValueError.
Proof.
  intros objs obss H. destruct (calculate_phase_angle objs obss) as [out|e] eqn:E.
  - destruct (C144_phase_angle _ _ _ E) as [_ [L R]]. destruct H as [H|[i [o [b [Ho [Hb H]]]]]]; [contradiction|].
    destruct (R i o b Ho Hb) as [A [B [C [D [F _]]]]]. destruct H as [H|[H|[H|[H|H]]]]; try congruence; lra.
  - unfold calculate_phase_angle in E. repeat match type of E with context [if ?x then _ else _] => destruct x end; congruence.
Qed.

Example C144_case : calculate_phase_angle [mk_pos true "ecliptic" (1, 0, 0)] [mk_pos true "ecliptic" (1, 1, 0)] = Ok [90].
Proof.
  assert (N1 : norm (1, 0, 0) = 1) by (unfold norm; cbn; replace (1 * 1 + 0 * 0 + 0 * 0) with 1 by ring; apply sqrt_1).
  assert (N2 : norm (vplus (1, 0, 0) (scale (-1) (1, 1, 0))) = 1).
  { unfold norm. cbn. match goal with |- sqrt ?x = _ => replace x with 1 by ring end. apply sqrt_1. }
  assert (G : geometry_ok (1, 0, 0) (1, 1, 0) = true) by (apply geometry_iff; rewrite N1, N2; lra).
  unfold calculate_phase_angle. cbn [lengths List.length Nat.eqb forallb combine fst snd p_sun p_frame p_xyz andb negb map].
  unfold lengths. cbn [List.length Nat.eqb negb]. rewrite String.eqb_refl, G. cbn [andb negb]. rewrite phase_is_angle by exact G. do 2 f_equal.
  unfold angle_at. match goal with |- context [acos ?x] => replace x with 0 end.
  - rewrite acos_0. unfold degrees. field. apply PI_neq0.
  - cbn. unfold Rdiv. ring_simplify. ring.
Qed.

(* ---- C145: the phase function ---- *)
Theorem C145_phase_function : forall G, 0 <= G <= 1 ->
  hg_phase_correction 0 G = 0 /\
  (forall a b, 0 <= a < b -> b < 180 -> 0 <= hg_phase_correction a G <= hg_phase_correction b G) /\
  (forall o o' b x x', correction_from_cos (cos_phase o b) G = Some x -> correction_from_cos (cos_phase o' b) G = Some x' ->
     geometry_ok o b = true -> geometry_ok o' b = true -> angle_at o b < angle_at o' b -> x < x').
Proof.
  intros G HG. split; [apply hg_zero|]. split.
  - intros a b H Hb. split; [|apply hg_mono; auto].
    destruct (Req_dec a 0) as [->|Na]; [rewrite hg_zero; lra|]. rewrite <- (hg_zero G). apply hg_mono; auto; lra.
  - intros o o' b x x' Hx Hx' P P' A. apply geometry_iff in P as [P1 P2]. apply geometry_iff in P' as [Q1 Q2].
    destruct (cos_phase_dot o b P1 P2) as [E B]. destruct (cos_phase_dot o' b Q1 Q2) as [E' B'].
    assert (L : cos_phase o' b < cos_phase o b).
    { assert (X : cos (angle_at o b) = cos_phase o b) by (rewrite E; unfold angle_at; apply cos_acos; lra).
      assert (X' : cos (angle_at o' b) = cos_phase o' b) by (rewrite E'; unfold angle_at; apply cos_acos; lra).
      rewrite <- X, <- X'. apply cos_decreasing_1; try exact A; unfold angle_at; apply acos_bound. }
    rewrite <- E in B. rewrite <- E' in B'.
    assert (-1 < cos_phase o' b). { unfold correction_from_cos in Hx'. destruct (Rlt_dec (-1) (cos_phase o' b)); [exact r|discriminate]. }
    eapply correction_mono; eauto; lra.
Qed.

(* ---- C146: the two phase functions ---- *)
Theorem C146_two_corrections_refuted : exists alpha x y, 0 <= alpha < 180 /\
  correction_from_cos (cos (radians alpha)) 0 = Some x /\ hg_phase_correction alpha 0 = y /\ y = 30 /\ y < x.
Proof. destruct hg_differs as [alpha [x [A [B [C D]]]]]. exists alpha, x, 30. auto. Qed.
Theorem C146_two_corrections_partial : forall alpha G x, 0 <= alpha < 180 -> 0 <= G <= 1 ->
  correction_from_cos (cos (radians alpha)) G = Some x -> x <= 30 -> hg_phase_correction alpha G = x.
Proof. intros alpha G x H HG Hx L. rewrite (hg_same alpha G x H HG Hx). now apply Rmin_left. Qed.

(* ---- C148: frames in predictions ---- *)
(* the components of one point in the two frames *)
Definition same_point (ecl equ : vec) : Prop :=
  let '(x, y, z) := ecl in equ = (x, cos obliquity * y - sin obliquity * z, sin obliquity * y + cos obliquity * z).

Theorem C148_frames_refuted : exists solar curves vendored os b o o' m m',
  p_frame b = "ecliptic" /\ p_frame o = "ecliptic" /\ p_frame o' = "equatorial" /\ same_point (p_xyz o) (p_xyz o') /\
  let ask p := snd (predict_magnitudes solar curves vendored (process solar curves vendored os) [20] [p] [b] [Some "V"] [0] "V" (inl "A")) in
  ask o = Ok [Some m] /\ ask o' = Ok [Some m'] /\ m < m' /\
  calculate_phase_angle [o'] [b] = Err ValueError.
Proof.
  set (b := mk_pos true "ecliptic" (0, 1, 0)). set (o := mk_pos true "ecliptic" (0, 2, 0)).
  set (o' := mk_pos true "equatorial" (0, cos obliquity * 2 - sin obliquity * 0, sin obliquity * 2 + cos obliquity * 0)).
  set (s0 := process sun4 toy none [Register "A" wl4 red4]).
  pose proof obliquity_range as OR. pose proof PI_RGT_0 as PP.
  assert (SP : 0 < sin obliquity) by (apply sin_gt_0; lra). assert (CP : 0 < cos obliquity) by (apply cos_gt_0; lra).
  pose proof (sin2_cos2 obliquity) as T. unfold Rsqr in T. assert (CL : cos obliquity < 1) by nra.
  set (D := sqrt (5 - 4 * cos obliquity)).
  assert (DD : D * D = 5 - 4 * cos obliquity) by (apply sqrt_sqrt; lra).
  assert (D0 : 0 <= D) by apply sqrt_pos. assert (DP : 1 < D) by nra.
  assert (No : norm (p_xyz o) = 2) by (unfold norm; cbn; replace (0 * 0 + 2 * 2 + 0 * 0) with (2 * 2) by ring; apply sqrt_square; lra).
  assert (Nb : norm (p_xyz b) = 1) by (unfold norm; cbn; replace (0 * 0 + 1 * 1 + 0 * 0) with (1 * 1) by ring; apply sqrt_square; lra).
  assert (No' : norm (p_xyz o') = 2).
  { unfold norm. cbn. match goal with |- sqrt ?x = _ => replace x with (2 * 2) by nra end. apply sqrt_square; lra. }
  assert (Nd : norm (vplus (p_xyz o) (scale (-1) (p_xyz b))) = 1).
  { unfold norm. cbn. match goal with |- sqrt ?x = _ => replace x with (1 * 1) by ring end. apply sqrt_square; lra. }
  assert (Nd' : norm (vplus (p_xyz o') (scale (-1) (p_xyz b))) = D).
  { unfold norm, D. cbn. f_equal. nra. }
  assert (C : cos_phase (p_xyz o) (p_xyz b) = 1).
  { unfold cos_phase, clip1. rewrite No, Nd, Nb. replace ((2 * 2 + 1 * 1 - 1 * 1) / (2 * 2 * 1)) with 1 by field. rewrite Rmax_left by lra. apply Rmin_left; lra. }
  assert (C' : cos_phase (p_xyz o') (p_xyz b) = (3 + D * D) / (4 * D)).
  { unfold cos_phase, clip1. rewrite No', Nd', Nb. replace ((2 * 2 + D * D - 1 * 1) / (2 * 2 * D)) with ((3 + D * D) / (4 * D)) by (field; lra).
    rewrite Rmax_left, Rmin_left; [reflexivity| |].
    - apply Rmult_le_reg_r with (4 * D); [lra|]. unfold Rdiv. rewrite Rmult_assoc, Rinv_l by lra. nra.
    - apply Rle_trans with 0; [lra|]. apply Rmult_le_pos; [nra|]. left. apply Rinv_0_lt_compat. lra. }
  assert (R' : -1 < (3 + D * D) / (4 * D) < 1).
  { split; [apply Rlt_le_trans with 0; [lra|]; apply Rmult_le_pos; [nra|]; left; apply Rinv_0_lt_compat; lra|].
    apply Rmult_lt_reg_r with (4 * D); [lra|]. unfold Rdiv. rewrite Rmult_assoc, Rinv_l by lra. nra. }
  assert (K : correction_from_cos 1 0 = Some 0) by (apply correction_opposition; lra).
  destruct (correction_from_cos ((3 + D * D) / (4 * D)) 0) as [x'|] eqn:K'; [|rewrite correction_value in K' by lra; discriminate].
  assert (X : 0 < x') by (apply (correction_mono 1 _ 0 0 x') in K'; auto; lra).
  exists sun4, toy, none, [Register "A" wl4 red4], b, o, o', (20 + 5 * log10 (2 * 1) + 0 + 0), (20 + 5 * log10 (2 * D) + x' + 0).
  split; [reflexivity|]. split; [reflexivity|]. split; [reflexivity|]. split; [reflexivity|]. cbn zeta. fold s0.
  assert (C0 : coherent sun4 toy s0) by apply proc_coherent.
  assert (E0 : s0 = mk_state [("A", red)] [] []).
  { destruct red_sorted as [RS RI]. unfold s0, process, after. cbn [fold_left step]. unfold register_custom_template. change (String.eqb "A" "") with false.
    change (negb (lengths wl4 red4)) with false. change (List.length wl4 <? 2)%nat with false. cbv iota. now rewrite RS, RI. }
  pose proof (dtab_spec sun4 toy none s0 (inl "A") C0) as [D1 _].
  assert (FT : fresh_table sun4 toy none (templates s0) (inl "A") = Ok (table_of 1 2 (5 / 3))) by (rewrite E0; now apply toy_red).
  rewrite FT in D1. rewrite E0 in D1 at 2. cbn [tables] in D1. rewrite assoc_nil in D1.
  assert (DV : delta_of (table_of 1 2 (5 / 3)) (Some "V") = Some 0).
  { cbn. f_equal. replace (1 / 1) with 1 by field. rewrite log10_1. ring. }
  assert (ASK : forall p, geometry_ok (p_xyz p) (p_xyz b) = true ->
    snd (predict_magnitudes sun4 toy none s0 [20] [p] [b] [Some "V"] [0] "V" (inl "A")) =
    Ok [omap2 Rplus (apparent_v 20 (p_xyz p) (p_xyz b) 0) (Some 0)]).
  { intros p Hp. unfold predict_magnitudes. cbn [lengths List.length Nat.eqb negb combine forallb fst snd]. rewrite Hp.
    assert (DT : delta_table sun4 toy none s0 (inl "A") = (fst (delta_table sun4 toy none s0 (inl "A")), Ok (table_of 1 2 (5 / 3))))
      by (rewrite <- D1; apply surjective_pairing).
    clearbody s0. set (s' := fst (delta_table sun4 toy none s0 (inl "A"))) in *. clearbody s'.
    cbn -[delta_table delta_of apparent_v omap2 table_of p_xyz]. rewrite DT.
    cbn -[delta_table delta_of apparent_v omap2 table_of p_xyz]. now rewrite DV. }
  split; [|split; [|split]].
  - rewrite ASK by (apply geometry_iff; rewrite No, Nd; lra). unfold apparent_v. rewrite C, K, No, Nd. reflexivity.
  - rewrite ASK by (apply geometry_iff; rewrite No', Nd'; lra). unfold apparent_v. rewrite C', K', No', Nd'. reflexivity.
  - assert (log10 (2 * 1) < log10 (2 * D)) by (apply log10_mono; lra). lra.
  - apply C144_refusals. right. exists 0%nat, o', b. split; [reflexivity|]. split; [reflexivity|]. right. right. left. discriminate.
Qed.

(* the prediction is a function of the components alone *)
Theorem C148_frames_partial : forall solar curves vendored s H ob obs ob' obs' fs G r c,
  map p_xyz ob = map p_xyz ob' -> map p_xyz obs = map p_xyz obs' ->
  predict_magnitudes solar curves vendored s H ob obs fs G r c = predict_magnitudes solar curves vendored s H ob' obs' fs G r c.
Proof.
  intros solar curves vendored s H ob obs ob' obs' fs G r c E1 E2.
  assert (L1 : List.length ob = List.length ob') by (rewrite <- (map_length p_xyz ob), E1; apply map_length).
  assert (L2 : List.length obs = List.length obs') by (rewrite <- (map_length p_xyz obs), E2; apply map_length).
  unfold predict_magnitudes, lengths. rewrite L1, L2.
  replace (forallb (fun p => geometry_ok (p_xyz (fst p)) (p_xyz (snd p))) (combine ob obs)) with
          (forallb (fun p => geometry_ok (p_xyz (fst p)) (p_xyz (snd p))) (combine ob' obs')).
  2: { clear L1 L2. revert ob' obs obs' E1 E2. induction ob as [|x ob IH]; intros [|x' ob'] [|y obs] [|y' obs'] E1 E2; cbn in *; try discriminate; auto.
       injection E1 as Ex E1. injection E2 as Ey E2. rewrite Ex, Ey. f_equal. now apply IH. }
  destruct (negb _); [reflexivity|]. destruct (negb _); [reflexivity|]. destruct (negb _); [reflexivity|]. destruct (negb _); [reflexivity|].
  destruct (negb _); [reflexivity|]. destruct (composition_key c); [|reflexivity].
  destruct (delta_table solar curves vendored s a) as [s' [tab|e]]; [|reflexivity]. do 2 f_equal.
  clear L1 L2. revert H ob' obs obs' fs G E1 E2. induction ob as [|x ob IH]; intros [|h H] [|x' ob'] [|y obs] [|y' obs'] [|f fs] [|g G] E1 E2; cbn in *; try discriminate; auto.
  injection E1 as Ex E1. injection E2 as Ey E2. rewrite Ex, Ey. f_equal. now apply IH.
Qed.

(* the hypotheses of C143, C145 and C146 are met *)
Example C143_case : exists s1 s2, register_custom_template start "A" wl4 red4 = (s1, Ok tt) /\
  register_custom_template start "A" wl4 (map (Rmult 3) red4) = (s2, Ok tt) /\
  snd (bandpass_delta_mag sun4 toy none s1 (inl "A") "V" "F") = Ok (- 5 / 2 * log10 (2 / 1)).
Proof.
  destruct red_sorted as [RS RI].
  assert (E : register_custom_template start "A" wl4 red4 = (mk_state [("A", red)] [] [], Ok tt)).
  { unfold register_custom_template. change (String.eqb "A" "") with false.
    change (negb (lengths wl4 red4)) with false. change (List.length wl4 <? 2)%nat with false. cbv iota. rewrite RS, RI. reflexivity. }
  eexists. eexists. split; [exact E|]. split.
  - unfold register_custom_template. change (String.eqb "A" "") with false.
    change (negb (lengths wl4 (map (Rmult 3) red4))) with false. change (List.length wl4 <? 2)%nat with false. cbv iota.
    rewrite combine_rescale, sort_rescale, RS, increasing_rescale, RI. reflexivity.
  - assert (C : coherent sun4 toy (mk_state [("A", red)] [] [])) by (intros t f v; discriminate).
    destruct (red_values [("A", red)] eq_refl) as [V [F _]].
    rewrite (forc_delta sun4 toy none _ (inl "A") "V" "F" 1 2 C); try discriminate; try lra; [reflexivity|].
    now apply forc_pair.
Qed.
Example C145_case : geometry_ok (0, 2, 0) (0, 1, 0) = true /\ correction_from_cos (cos_phase (0, 2, 0) (0, 1, 0)) (15 / 100) = Some 0.
Proof.
  assert (No : norm (0, 2, 0) = 2) by (unfold norm; cbn; replace (0 * 0 + 2 * 2 + 0 * 0) with (2 * 2) by ring; apply sqrt_square; lra).
  assert (Nb : norm (0, 1, 0) = 1) by (unfold norm; cbn; replace (0 * 0 + 1 * 1 + 0 * 0) with (1 * 1) by ring; apply sqrt_square; lra).
  assert (Nd : norm (vplus (0, 2, 0) (scale (-1) (0, 1, 0))) = 1).
  { unfold norm. cbn. match goal with |- sqrt ?x = _ => replace x with (1 * 1) by ring end. apply sqrt_square; lra. }
  split; [apply geometry_iff; rewrite No, Nd; lra|].
  assert (C : cos_phase (0, 2, 0) (0, 1, 0) = 1).
  { unfold cos_phase, clip1. rewrite No, Nd, Nb. replace ((2 * 2 + 1 * 1 - 1 * 1) / (2 * 2 * 1)) with 1 by field. rewrite Rmax_left by lra. apply Rmin_left; lra. }
  rewrite C. apply correction_opposition. lra.
Qed.
Example C146_case : correction_from_cos (cos (radians 0)) (15 / 100) = Some 0.
Proof. unfold radians. rewrite Rmult_0_l, cos_0. apply correction_opposition. lra. Qed.

Print Assumptions C71_identity.
Print Assumptions C71_inverse.
Print Assumptions C71_transitive.
Print Assumptions C71_law.
Print Assumptions C71_mix_scale.
Print Assumptions C71_errors.
Print Assumptions C72_inverts.
Print Assumptions C72_between.
Print Assumptions C72_least_squares.
Print Assumptions C72_grouped.
Print Assumptions C74_reregistration_refuted.
Print Assumptions C74_reregistration_partial.
Print Assumptions C141_current_templates.
Print Assumptions C142_grey_template_refuted.
Print Assumptions C142_grey_template_partial.
Print Assumptions C143_rescaled_template.
Print Assumptions C144_phase_angle.
Print Assumptions C144_refusals.
Print Assumptions C145_phase_function.
Print Assumptions C146_two_corrections_refuted.
Print Assumptions C146_two_corrections_partial.
Print Assumptions C147_predict_then_convert.
Print Assumptions C147_additive.
Print Assumptions C147_v_magnitude.
Print Assumptions C148_frames_refuted.
Print Assumptions C148_frames_partial.
