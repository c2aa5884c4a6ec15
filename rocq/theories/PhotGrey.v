(* Integrals of grey and rescaled templates. *)
From Coq Require Import Reals Lra Lia.
From Coq Require Import List String Bool.
From Verif Require Import Base BandModel BandProofs SphModel KepModel PhotModel PhotSpec PhotState.
Import ListNotations.
Open Scope string_scope.
Open Scope list_scope.
Open Scope R_scope.

Lemma fold_min_le d l : forall p, In p l -> fold_right (fun p m => Rmin (fst p) m) d l <= fst (p : R * R).
Proof.
  induction l as [|q l IH]; cbn; intros p H; [contradiction|].
  destruct H as [<-|H]; [apply Rmin_l|]. eapply Rle_trans; [apply Rmin_r|]. now apply IH.
Qed.
Lemma fold_max_ge d l : forall p, In p l -> fst (p : R * R) <= fold_right (fun p m => Rmax (fst p) m) d l.
Proof.
  induction l as [|q l IH]; cbn; intros p H; [contradiction|].
  destruct H as [<-|H]; [apply Rmax_l|]. eapply Rle_trans; [|apply Rmax_r]. now apply IH.
Qed.
Lemma fold_min_glb d l x : x <= d -> (forall p, In p l -> x <= fst (p : R * R)) -> x <= fold_right (fun p m => Rmin (fst p) m) d l.
Proof.
  intros Hd. induction l as [|q l IH]; cbn; intros H; [exact Hd|]. apply Rmin_glb; [apply H; now left|]. apply IH. intros; apply H; now right.
Qed.
Lemma fold_max_lub d l x : d <= x -> (forall p, In p l -> fst (p : R * R) <= x) -> fold_right (fun p m => Rmax (fst p) m) d l <= x.
Proof.
  intros Hd. induction l as [|q l IH]; cbn; intros H; [exact Hd|]. apply Rmax_lub; [apply H; now left|]. apply IH. intros; apply H; now right.
Qed.

Lemma wl_min_le l p : In p l -> wl_min l <= fst p.
Proof. apply fold_min_le. Qed.
Lemma wl_max_ge l p : In p l -> fst p <= wl_max l.
Proof. apply fold_max_ge. Qed.
Lemma wl_min_glb l x : l <> [] -> (forall p, In p l -> x <= fst p) -> x <= wl_min l.
Proof. intros Hn H. apply fold_min_glb; [|exact H]. destruct l; [contradiction|]. apply H. now left. Qed.
Lemma wl_max_lub l x : l <> [] -> (forall p, In p l -> fst p <= x) -> wl_max l <= x.
Proof. intros Hn H. apply fold_max_lub; [|exact H]. destruct l; [contradiction|]. apply H. now left. Qed.

Lemma increasing_cons p l : increasing (p :: l) = true -> increasing l = true /\ forall q, In q l -> fst p < fst q.
Proof.
  revert p. induction l as [|q l IH]; intros p H; cbn in *; [split; [reflexivity|contradiction]|].
  destruct (Rlt_dec (fst p) (fst q)) as [Hpq|]; [|discriminate]. cbn in H.
  destruct (IH q H) as [H1 H2]. split; [exact H|]. intros r [<-|Hr]; [exact Hpq|]. specialize (H2 _ Hr). lra.
Qed.

Lemma wl_max_cons p l : l <> [] -> (forall q, In q l -> fst p < fst q) -> wl_max (p :: l) = wl_max l.
Proof.
  intros Hn H. destruct l as [|q l]; [contradiction|]. apply Rle_antisym.
  - apply wl_max_lub; [discriminate|]. intros r [<-|Hr]; [|now apply wl_max_ge].
    apply Rle_trans with (fst q); [left; apply H; now left|apply wl_max_ge; now left].
  - apply wl_max_lub; [discriminate|]. intros r Hr. apply wl_max_ge. now right.
Qed.

Lemma interp_from_grey c : forall l p x, increasing (p :: l) = true -> (forall q, In q (p :: l) -> snd q = c) ->
  fst p <= x <= wl_max (p :: l) -> interp_from p l x = c.
Proof.
  induction l as [|q l IH]; intros p x Hi Hc Hx; cbn [interp_from].
  - destruct (Rle_dec x (fst p)) as [|Hn]; [apply Hc; now left|]. exfalso. apply Hn.
    unfold wl_max in Hx. cbn in Hx. rewrite Rmax_left in Hx by lra. lra.
  - destruct (Rlt_dec x (fst q)) as [Hlt|Hge].
    + rewrite (Hc p), (Hc q) by (cbn; auto). unfold Rdiv. ring.
    + destruct (increasing_cons _ _ Hi) as [Hi' Hq]. apply IH; [exact Hi'|intros; apply Hc; now right|].
      rewrite (wl_max_cons p (q :: l)) in Hx by (auto; discriminate). lra.
Qed.

Lemma interp_grey c l x : increasing l = true -> l <> [] -> (forall q, In q l -> snd q = c) ->
  wl_min l <= x <= wl_max l -> interp l x = c.
Proof.
  intros Hi Hn Hc Hx. destruct l as [|p l]; [contradiction|]. cbn [interp].
  assert (fst p <= wl_min (p :: l)).
  { apply wl_min_glb; [discriminate|]. intros q [<-|Hq]; [lra|]. left. now apply (increasing_cons _ _ Hi). }
  destruct (Rlt_dec x (fst p)); [lra|]. apply interp_from_grey; auto. lra.
Qed.

Lemma trapezoid_scale c f g w : (forall p, In p w -> f p = c * g p) -> trapezoid f w = c * trapezoid g w.
Proof.
  induction w as [|a w IH]; intros H; [cbn; ring|]. destruct w as [|b w]; [cbn; ring|].
  cbn [trapezoid] in *. rewrite IH by (intros; apply H; now right).
  rewrite (H a), (H b) by (cbn; auto). field.
Qed.

Lemma grid_in solar lo hi p : In p (grid solar lo hi) -> lo <= fst p <= hi.
Proof.
  unfold grid. rewrite filter_In. intros [_ H]. destruct (Rle_dec lo (fst p)); [|discriminate].
  destruct (Rle_dec (fst p) hi); [|discriminate]. lra.
Qed.

(* a grey template measures its reflectance in every filter it covers *)
Lemma integral_grey solar pts tmpl c d :
  increasing tmpl = true -> tmpl <> [] -> (forall q, In q tmpl -> snd q = c) ->
  wl_min tmpl <= wl_min pts -> wl_max pts <= wl_max tmpl ->
  solar_norm solar pts = Some d -> integral_photon solar pts tmpl = Some (c * d).
Proof.
  intros Hi Hn Hc Hlo Hhi. unfold solar_norm, integral_photon.
  destruct (_ <? 2)%nat; [discriminate|].
  rewrite (Rmax_left (wl_min pts) (wl_min tmpl)) by exact Hlo.
  rewrite (Rmin_left (wl_max pts) (wl_max tmpl)) by exact Hhi.
  set (lo := Rmax (wl_min solar) (wl_min pts)). set (hi := Rmin (wl_max solar) (wl_max pts)).
  destruct (Rle_dec hi lo); [discriminate|]. destruct (_ <? 2)%nat; [discriminate|].
  intros [= <-]. f_equal. apply trapezoid_scale. intros p Hp. apply grid_in in Hp.
  rewrite (interp_grey c tmpl) by (auto; unfold lo, hi in Hp;
    pose proof (Rmax_r (wl_min solar) (wl_min pts)); pose proof (Rmin_r (wl_max solar) (wl_max pts)); lra).
  ring.
Qed.

(* rescaling a template *)
Definition rescale (k : R) (l : samples) : samples := map (fun p => (fst p, k * snd p)) l.

Lemma interp_from_rescale k : forall l p x, interp_from (fst p, k * snd p) (rescale k l) x = k * interp_from p l x.
Proof.
  induction l as [|q l IH]; intros p x; cbn.
  - destruct (Rle_dec x (fst p)); ring.
  - destruct (Rlt_dec x (fst q)); [unfold Rdiv; ring|apply IH].
Qed.
Lemma interp_rescale k l x : interp (rescale k l) x = k * interp l x.
Proof. destruct l as [|p l]; cbn; [ring|]. destruct (Rlt_dec x (fst p)); [ring|apply interp_from_rescale]. Qed.

Lemma wl_rescale k l : wl_min (rescale k l) = wl_min l /\ wl_max (rescale k l) = wl_max l.
Proof.
  unfold wl_min, wl_max. replace (fst (hd (0, 0) (rescale k l))) with (fst (hd (0, 0) l)) by (destruct l; reflexivity).
  generalize (fst (hd (0, 0) l)). intros d. unfold rescale.
  induction l as [|p l [I1 I2]]; cbn; [auto|]. rewrite I1, I2. auto.
Qed.

Lemma integral_rescale solar pts tmpl k :
  integral_photon solar pts (rescale k tmpl) = option_map (fun x => k * x) (integral_photon solar pts tmpl).
Proof.
  unfold integral_photon. destruct (wl_rescale k tmpl) as [-> ->].
  destruct (Rle_dec _ _); [reflexivity|]. destruct (_ <? 2)%nat; [reflexivity|]. cbn. f_equal.
  apply trapezoid_scale. intros p _. rewrite interp_rescale. ring.
Qed.

Lemma insert_rescale k p l : insert by_wl (fst p, k * snd p) (rescale k l) = rescale k (insert by_wl p l).
Proof.
  induction l as [|q l IH]; [reflexivity|]. unfold rescale in *. cbn [map insert].
  assert (E : by_wl (fst p, k * snd p) (fst q, k * snd q) = by_wl p q) by reflexivity. rewrite E.
  destruct (by_wl p q); cbn [map]; [reflexivity|]. now rewrite IH.
Qed.
Lemma sort_rescale k l : sort by_wl (rescale k l) = rescale k (sort by_wl l).
Proof.
  induction l as [|p l IH]; [reflexivity|]. change (rescale k (p :: l)) with ((fst p, k * snd p) :: rescale k l).
  cbn [sort]. rewrite IH. apply insert_rescale.
Qed.
Lemma increasing_rescale k l : increasing (rescale k l) = increasing l.
Proof. induction l as [|p [|q l] IH]; cbn in *; auto. now rewrite IH. Qed.
Lemma combine_rescale k : forall wl rf, combine wl (map (Rmult k) rf) = rescale k (combine wl rf).
Proof. induction wl as [|w wl IH]; intros [|r rf]; cbn; auto. now rewrite IH. Qed.

(* what a successful registration stores *)
Lemma register_ok s t wl rf s' : register_custom_template s t wl rf = (s', Ok tt) ->
  t <> "" /\ List.length wl = List.length rf /\ (2 <= List.length wl)%nat /\
  increasing (sort by_wl (combine wl rf)) = true /\
  templates s' = (t, sort by_wl (combine wl rf)) :: templates s /\ tables s' = tables s /\ integrals s' = [].
Proof.
  unfold register_custom_template. destruct (String.eqb_spec t ""); [discriminate|].
  destruct (lengths wl rf) eqn:L; cbn [negb]; [|discriminate].
  destruct (Nat.ltb_spec (List.length wl) 2); [discriminate|].
  destruct (increasing _) eqn:I; [|discriminate]. intros [= <-]. cbn. apply Nat.eqb_eq in L. repeat split; auto.
Qed.

Lemma sorted_template wl rf : List.length wl = List.length rf -> (2 <= List.length wl)%nat ->
  let t := sort by_wl (combine wl rf) in
  t <> [] /\ (forall q, In q t <-> In q (combine wl rf)) /\
  forall w, In w wl -> exists v, In v rf /\ In (w, v) t.
Proof.
  intros L N t. split; [|split].
  - intros E. pose proof (sort_length by_wl (combine wl rf)) as S. fold t in S. rewrite E, combine_length in S. cbn in S. lia.
  - intros q. apply sort_In.
  - intros w Hw. apply In_nth_error in Hw as [i Hi]. destruct (nth_some wl rf i w L Hi) as [v Hv].
    exists v. split; [now apply nth_error_In in Hv|]. apply sort_In. apply (nth_error_In _ i). now rewrite nth_combine, Hi, Hv.
Qed.

Lemma covers_min wl rf pts : List.length wl = List.length rf -> (2 <= List.length wl)%nat -> pts <> [] -> covers wl pts ->
  wl_min (sort by_wl (combine wl rf)) <= wl_min pts /\ wl_max pts <= wl_max (sort by_wl (combine wl rf)).
Proof.
  intros L N Hp Hc. destruct (sorted_template wl rf L N) as [_ [_ H]]. split.
  - apply wl_min_glb; [exact Hp|]. intros p Hi. destruct (Hc _ Hi) as [[l [Hl Hle]] _].
    destruct (H _ Hl) as [v [_ Hv]]. eapply Rle_trans; [apply (wl_min_le _ _ Hv)|exact Hle].
  - apply wl_max_lub; [exact Hp|]. intros p Hi. destruct (Hc _ Hi) as [_ [h [Hh Hle]]].
    destruct (H _ Hh) as [v [_ Hv]]. eapply Rle_trans; [exact Hle|apply (wl_max_ge _ _ Hv)].
Qed.

Section G.
Variable solar : samples.
Variable curves : list curve.
Variable vendored : string -> string -> option R.

(* the vendored data are usable: every filter has a positive norm *)
Hypothesis norms : forallb (norm_ok solar) curves = true.

Lemma norm_known f pts : curve_of curves f = Some pts -> exists d, solar_norm solar pts = Some d /\ 0 < d /\ norm_of solar curves f = Ok d.
Proof.
  intros H. unfold norm_of. rewrite norms, H. unfold curve_of in H.
  destruct (find (fun c => String.eqb f (cu_id c)) curves) as [c|] eqn:E; [|discriminate]. injection H as <-.
  apply find_some in E as [Hi _]. rewrite forallb_forall in norms. specialize (norms _ Hi). unfold norm_ok in norms.
  destruct (solar_norm solar (cu_pts c)) as [d|]; [|discriminate]. destruct (Rlt_dec 0 d); [|discriminate]. eauto.
Qed.

Lemma norm_pts pts d : solar_norm solar pts = Some d -> pts <> [].
Proof. intros H ->. discriminate. Qed.

Lemma value_grey (ts : list (string * samples)) t wl rf c f pts :
  assoc String.eqb t ts = Some (sort by_wl (combine wl rf)) ->
  increasing (sort by_wl (combine wl rf)) = true -> List.length wl = List.length rf -> (2 <= List.length wl)%nat ->
  (forall v, In v rf -> v = c) -> curve_of curves f = Some pts -> covers wl pts ->
  value solar curves vendored ts t f = Ok (Some c).
Proof.
  intros Ht Hi L N Hc Hf Hv. unfold value. rewrite Ht.
  destruct (norm_known f pts Hf) as [d [Hd [Hp ->]]]. cbn [bind]. unfold fresh_value. rewrite Hf.
  destruct (sorted_template wl rf L N) as [Hne [Hin _]].
  destruct (covers_min wl rf pts L N (norm_pts _ _ Hd) Hv) as [H1 H2].
  rewrite (integral_grey solar pts _ c d Hi Hne) ; auto.
  - cbn. repeat f_equal. field. lra.
  - intros [w v] Hq. apply Hin, in_combine_r in Hq. cbn. now apply Hc.
Qed.

Lemma value_rescale (ts ts' : list (string * samples)) t wl rf k f :
  assoc String.eqb t ts = Some (sort by_wl (combine wl rf)) ->
  assoc String.eqb t ts' = Some (sort by_wl (combine wl (map (Rmult k) rf))) ->
  value solar curves vendored ts' t f = bind (value solar curves vendored ts t f) (fun v => Ok (option_map (Rmult k) v)).
Proof.
  intros H H'. unfold value. rewrite H, H', combine_rescale, sort_rescale.
  destruct (norm_of solar curves f) as [d|e]; cbn; [|reflexivity]. unfold fresh_value.
  destruct (curve_of curves f); [|reflexivity]. rewrite integral_rescale.
  destruct (integral_photon solar s _); cbn; [|reflexivity]. do 2 f_equal. unfold Rdiv. ring.
Qed.
End G.
