(* A small set of filters for the photometry examples: solar spectrum flat at four
   wavelengths, V on the blue half, F on the red half, W across both. *)
From Coq Require Import Reals Lra Lia.
From Coq Require Import List String Bool.
From Verif Require Import Base BandModel BandProofs SphModel KepModel PhotModel PhotSpec PhotState PhotGrey.
Import ListNotations.
Open Scope string_scope.
Open Scope list_scope.
Open Scope R_scope.

Definition sun4 : samples := [(1, 1); (2, 1); (3, 1); (4, 1)].
Definition ptsV : samples := [(1, 1); (2, 1)].
Definition ptsF : samples := [(3, 1); (4, 1)].
Definition ptsW : samples := [(1, 1); (4, 1)].
Definition toy : list curve := [mk_curve "V" ptsV; mk_curve "F" ptsF; mk_curve "W" ptsW].
Definition none (t f : string) : option R := None.

Definition wl4 : list R := [1; 2; 3; 4].
Definition grey4 : list R := [1; 1; 1; 1].
Definition red4 : list R := [1; 1; 2; 2].

Arguments IZR : simpl never.

Ltac plain a := lazymatch a with context [Rmin] => fail | context [Rmax] => fail | _ => idtac end.
Ltac ev :=
  repeat (match goal with
  | |- context [Rmin ?a ?b] => plain a; plain b; first [rewrite (Rmin_left a b) by lra | rewrite (Rmin_right a b) by lra]
  | |- context [Rmax ?a ?b] => plain a; plain b; first [rewrite (Rmax_left a b) by lra | rewrite (Rmax_right a b) by lra]
  end);
  repeat (match goal with
  | |- context [Rle_dec ?a ?b] =>
      destruct (Rle_dec a b); [try (exfalso; lra)|try (exfalso; lra)]
  | |- context [Rlt_dec ?a ?b] =>
      destruct (Rlt_dec a b); [try (exfalso; lra)|try (exfalso; lra)]
  end; cbn [List.length Nat.ltb Nat.leb trapezoid filter interp interp_from fst snd andb]).

Lemma norm_V : solar_norm sun4 ptsV = Some (3 / 2).
Proof.
  unfold solar_norm, wl_min, wl_max, sun4, ptsV, grid. cbn [fold_right hd fst snd List.length Nat.ltb Nat.leb filter]. ev. f_equal. lra.
Qed.
Lemma norm_F : solar_norm sun4 ptsF = Some (7 / 2).
Proof. unfold solar_norm, wl_min, wl_max, sun4, ptsF, grid. cbn [fold_right hd fst snd List.length Nat.ltb Nat.leb filter]. ev. f_equal. lra. Qed.
Lemma norm_W : solar_norm sun4 ptsW = Some (15 / 2).
Proof. unfold solar_norm, wl_min, wl_max, sun4, ptsW, grid. cbn [fold_right hd fst snd List.length Nat.ltb Nat.leb filter]. ev. f_equal. lra. Qed.

Lemma toy_norms : forallb (norm_ok sun4) toy = true.
Proof. cbn. unfold norm_ok. cbn [cu_pts]. rewrite norm_V, norm_F, norm_W. ev. reflexivity. Qed.

Definition red : samples := combine wl4 red4.
Lemma red_sorted : sort by_wl (combine wl4 red4) = red /\ increasing red = true.
Proof. unfold red, wl4, red4, by_wl. cbn. ev; cbn; ev; cbn; ev; cbn; ev; auto. Qed.
Lemma grey_sorted : sort by_wl (combine wl4 grey4) = combine wl4 grey4 /\ increasing (combine wl4 grey4) = true.
Proof. unfold wl4, grey4, by_wl. cbn. ev; cbn; ev; cbn; ev; cbn; ev; auto. Qed.

Lemma red_V : integral_photon sun4 ptsV red = Some (3 / 2).
Proof. unfold integral_photon, wl_min, wl_max, sun4, ptsV, red, wl4, red4, grid. cbn [combine fold_right hd fst snd List.length Nat.ltb Nat.leb filter]. ev. f_equal. lra. Qed.
Lemma red_F : integral_photon sun4 ptsF red = Some 7.
Proof. unfold integral_photon, wl_min, wl_max, sun4, ptsF, red, wl4, red4, grid. cbn [combine fold_right hd fst snd List.length Nat.ltb Nat.leb filter]. ev. f_equal. lra. Qed.
Lemma red_W : integral_photon sun4 ptsW red = Some (25 / 2).
Proof. unfold integral_photon, wl_min, wl_max, sun4, ptsW, red, wl4, red4, grid. cbn [combine fold_right hd fst snd List.length Nat.ltb Nat.leb filter]. ev. f_equal. lra. Qed.

Lemma toy_norm_of f pts d : curve_of toy f = Some pts -> solar_norm sun4 pts = Some d -> norm_of sun4 toy f = Ok d.
Proof. intros H1 H2. unfold norm_of. rewrite toy_norms, H1, H2. reflexivity. Qed.

Lemma value_custom ts t tmpl f pts d x : assoc String.eqb t ts = Some tmpl -> curve_of toy f = Some pts ->
  solar_norm sun4 pts = Some d -> integral_photon sun4 pts tmpl = x ->
  value sun4 toy none ts t f = Ok (option_map (fun v => v / d) x).
Proof. intros H1 H2 H3 <-. unfold value. rewrite H1, (toy_norm_of _ _ _ H2 H3). cbn. unfold fresh_value. now rewrite H2. Qed.

Section Values.
Variable ts : list (string * samples).
Hypothesis Hr : assoc String.eqb "A" ts = Some red.
Lemma red_values : value sun4 toy none ts "A" "V" = Ok (Some 1) /\ value sun4 toy none ts "A" "F" = Ok (Some 2) /\
  value sun4 toy none ts "A" "W" = Ok (Some (5 / 3)).
Proof.
  split; [|split].
  - rewrite (value_custom ts "A" red "V" ptsV (3 / 2) (Some (3 / 2)) Hr eq_refl norm_V red_V). cbn. do 2 f_equal. lra.
  - rewrite (value_custom ts "A" red "F" ptsF (7 / 2) (Some 7) Hr eq_refl norm_F red_F). cbn. do 2 f_equal. lra.
  - rewrite (value_custom ts "A" red "W" ptsW (15 / 2) (Some (25 / 2)) Hr eq_refl norm_W red_W). cbn. do 2 f_equal. lra.
Qed.
End Values.

Lemma grey_values ts : assoc String.eqb "A" ts = Some (sort by_wl (combine wl4 grey4)) ->
  forall f pts, curve_of toy f = Some pts -> value sun4 toy none ts "A" f = Ok (Some 1).
Proof.
  intros H f pts Hf. eapply value_grey with (wl := wl4) (rf := grey4); eauto.
  - apply toy_norms.
  - destruct grey_sorted as [-> ->]. reflexivity.
  - cbn. lia.
  - cbn. intros v [<-|[<-|[<-|[<-|[]]]]]; reflexivity.
  - assert (forall p, In p pts -> 1 <= fst p <= 4).
    { unfold curve_of in Hf. cbn in Hf. intros p Hp.
      destruct (String.eqb f "V"); [injection Hf as <-; cbn in Hp; destruct Hp as [<-|[<-|[]]]; cbn; lra|].
      destruct (String.eqb f "F"); [injection Hf as <-; cbn in Hp; destruct Hp as [<-|[<-|[]]]; cbn; lra|].
      destruct (String.eqb f "W"); [injection Hf as <-; cbn in Hp; destruct Hp as [<-|[<-|[]]]; cbn; lra|discriminate]. }
    intros p Hp. specialize (H0 p Hp). split; [exists 1|exists 4]; split; try (cbn; auto; fail); lra.
Qed.

Definition table_of (v f w : R) : list (string * option R) :=
  [("V", Some (- 5 / 2 * log10 (v / v))); ("F", Some (- 5 / 2 * log10 (f / v))); ("W", Some (- 5 / 2 * log10 (w / v)))].

Lemma toy_table ts v f w : value sun4 toy none ts "A" "V" = Ok (Some v) -> value sun4 toy none ts "A" "F" = Ok (Some f) ->
  value sun4 toy none ts "A" "W" = Ok (Some w) -> 0 < v -> 0 < f -> 0 < w ->
  fresh_table sun4 toy none ts (inl "A") = Ok (table_of v f w).
Proof.
  intros V F W Pv Pf Pw. unfold fresh_table. change (in_strings "V" (filter_ids toy)) with true. cbn [negb].
  unfold fresh_for. rewrite fresh_values by discriminate.
  change (filter_ids toy) with ["V"; "F"; "W"]. cbn [mapM]. rewrite V, F, W. cbn [bind combine].
  rewrite !assoc_cons. change (String.eqb "V" "V") with true. cbv iota.
  cbn [mapM]. unfold delta_entry.
  repeat match goal with |- context [Rlt_dec 0 ?x] => destruct (Rlt_dec 0 x); [|lra] end. cbn. reflexivity.
Qed.

Lemma toy_grey ts : assoc String.eqb "A" ts = Some (sort by_wl (combine wl4 grey4)) ->
  fresh_table sun4 toy none ts (inl "A") = Ok (table_of 1 1 1).
Proof. intros H. apply toy_table; try lra; eapply grey_values; eauto; reflexivity. Qed.

Lemma toy_red ts : assoc String.eqb "A" ts = Some red -> fresh_table sun4 toy none ts (inl "A") = Ok (table_of 1 2 (5 / 3)).
Proof. intros H. destruct (red_values ts H) as [V [F W]]. apply toy_table; auto; lra. Qed.

(* a conversion from the table in force *)
Lemma toy_convert s tab x : coherent sun4 toy s ->
  match assoc comp_eqb (inl "A") (tables s) with Some t => Ok t | None => fresh_table sun4 toy none (templates s) (inl "A") end = Ok tab ->
  snd (convert_magnitude sun4 toy none s [Some x] [Some "V"] [Some "F"] (inl "A")) =
    Ok [omap2 Rplus (Some x) (omap2 Rminus (delta_of tab (Some "F")) (delta_of tab (Some "V")))] /\
  assoc comp_eqb (inl "A") (tables (fst (convert_magnitude sun4 toy none s [Some x] [Some "V"] [Some "F"] (inl "A")))) = Some tab /\
  templates (fst (convert_magnitude sun4 toy none s [Some x] [Some "V"] [Some "F"] (inl "A"))) = templates s.
Proof.
  intros Hc H. pose proof (dtab_spec sun4 toy none s (inl "A") Hc) as [D1 [_ [D2 [D3 _]]]]. rewrite H in D1.
  specialize (D3 _ D1). unfold convert_magnitude. cbn -[delta_table].
  destruct (delta_table sun4 toy none s (inl "A")) as [s' r]. cbn in D1, D2, D3. subst r. cbn. auto.
Qed.
