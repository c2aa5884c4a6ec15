(* C73: map_to_canonical_filter_bands resolves as documented.
   C140: the fallback is used for the documented generic bands only (refuted). *)
From Coq Require Import List String Ascii Bool Lia.
From Verif Require Import Base BandModel BandSpec BandProofs.
Import ListNotations.
Open Scope string_scope.
Open Scope list_scope.

(* Rows are independent: a table is mapped exactly when both its parts are, and the
   output is the outputs of the parts in order. *)
Theorem C73_rows : forall curves table allow mode,
  let run := map_to_canonical_filter_bands curves table in
  (In mode ["raise"; "skip"] -> run [] [] allow mode = Ok []) /\
  forall c c' b b', length c = length b ->
    run (c ++ c') (b ++ b') allow mode =
    match run c b allow mode, run c' b' allow mode with
    | Ok o, Ok o' => Ok (o ++ o')
    | _, _ => Err ValueError
    end.
Proof.
  intros curves table allow mode run. split.
  - intros H. unfold run. now rewrite (run_rows _ _ [] [] allow mode [] (proj2 (in_strings_iff _ _) H) eq_refl).
  - intros. now apply run_append.
Qed.

(* Whatever comes back: one entry per row, each with a curve or null, null only in
   'skip' mode; every failure is a ValueError. *)
Theorem C73_sound : forall curves table codes bands allow mode,
  let run := map_to_canonical_filter_bands curves table codes bands allow mode in
  (forall out, run = Ok out ->
     length codes = length bands /\ length out = length bands /\
     (forall f, In (Some f) out -> In f curves) /\
     (mode = "raise" -> ~ In None out) /\ In mode ["raise"; "skip"]) /\
  (forall e, run = Err e -> e = ValueError) /\
  (length codes <> length bands -> run = Err ValueError).
Proof.
  intros curves table codes bands allow mode run. repeat apply conj.
  - intros out H. destruct (run_inv _ _ _ _ _ _ _ H) as [rows [Hz [Hm [Hf ->]]]].
    assert (L : length codes = length bands /\ length rows = length bands).
    { clear - Hz. revert bands rows Hz. induction codes as [|x l IH]; intros [|y m] rows Hz; cbn in Hz; try discriminate.
      - injection Hz as <-. auto.
      - destruct (zip_opt l m) eqn:E; [|discriminate]. injection Hz as <-. destruct (IH _ _ E). cbn. lia. }
    rewrite map_length. split; [apply L|]. split; [apply L|].
    assert (forall v, In v (map (fun r => row_value curves table allow (fst r) (snd r)) rows) ->
      (forall f, v = Some f -> In f curves) /\ (mode = "raise" -> v <> None)) as A.
    { intros v Hv. apply in_map_iff in Hv as [r [<- Hr]].
      rewrite forallb_forall in Hf. specialize (Hf _ Hr). unfold row_ok in Hf.
      apply andb_true_iff in Hf as [Hf H3]. apply andb_true_iff in Hf as [H1 H2].
      split.
      - intros f E. rewrite E in H3. cbn [is_none negb andb] in H3. rewrite negb_involutive in H3. now apply known_iff.
      - intros -> E. unfold row_value in E. cbn [String.eqb andb negb] in H1, H2.
        change (String.eqb "raise" "raise") with true in H1. change (String.eqb "raise" "skip") with false in H2.
        cbn [andb negb] in H1, H2. rewrite andb_true_r in H2.
        destruct (negb allow && snd _); [discriminate|]. rewrite E in H1. discriminate. }
    split; [|split].
    + intros f Hi. now apply (proj1 (A _ Hi)).
    + intros E Hi. now apply (proj2 (A _ Hi) E).
    + now apply in_strings_iff.
  - intros e. apply run_error.
  - intros H. unfold run, map_to_canonical_filter_bands.
    destruct (zip_opt codes bands) eqn:E; [|reflexivity]. exfalso. apply H. clear - E.
    revert bands l E. induction codes as [|x c IH]; intros [|y m] l E; cbn in E; try discriminate; [reflexivity|].
    destruct (zip_opt c m) eqn:E'; [|discriminate]. cbn. f_equal. eauto.
Qed.

(* A single row, rule by rule; with C73_rows this fixes the whole function. *)
Ltac one H := rewrite (run_rows _ _ [_] [_] _ _ [(_, _)] (proj2 (in_strings_iff _ _) H) eq_refl); cbn [forallb map fst snd].

(* first rule: a filter id is passed through, whatever the observatory *)
Theorem C73_canonical : forall curves table code s allow mode,
  In mode ["raise"; "skip"] -> In s curves ->
  map_to_canonical_filter_bands curves table [code] [Some s] allow mode = Ok [Some s].
Proof.
  intros curves table code s allow mode Hm Hs. one Hm.
  unfold row_ok. rewrite (value_known _ _ _ _ _ Hs), (proj2 (known_iff _ _) Hs).
  unfold resolve_row. rewrite (proj2 (known_iff _ _) Hs). cbn. now rewrite !andb_false_r.
Qed.

(* second rule: the observatory table (first row with the key), LSST spellings included *)
Theorem C73_mapped : forall curves table c b f allow mode,
  In mode ["raise"; "skip"] -> ~ In b curves ->
  (c <> "X05" /\ first_value (c ++ "|" ++ b)%string table f
   \/ (exists x s w w', c = "X05" /\ b = (w ++ s ++ w')%string /\ blank w /\ blank w' /\
        In x ["u"; "g"; "r"; "i"; "z"; "y"] /\ In s (spellings x) /\ first_value ("X05|" ++ x)%string table f)) ->
  (In f curves -> map_to_canonical_filter_bands curves table [Some c] [Some b] allow mode = Ok [Some f]) /\
  (~ In f curves -> map_to_canonical_filter_bands curves table [Some c] [Some b] allow mode = Err ValueError).
Proof.
  intros curves table c b f allow mode Hm Hb H.
  assert (F : first_value (c ++ "|" ++ band_for_map c b)%string table f).
  { destruct H as [[Hc Hf]|[x [s [w [w' [-> [-> [Hw [Hw' [Hx [Hs Hf]]]]]]]]]]]; unfold band_for_map.
    - destruct (String.eqb_spec c "X05"); [contradiction|exact Hf].
    - change (String.eqb "X05" "X05") with true. cbv iota. rewrite (normal_spelling x s w w' Hx Hs Hw Hw'). exact Hf. }
  one Hm. unfold row_ok. rewrite (value_mapped _ _ allow _ _ _ Hb F).
  unfold resolve_row. rewrite (known_false _ _ Hb). unfold key_of. rewrite (proj1 (lookup_first _ _ _) F).
  cbn [is_none fst snd]. rewrite !andb_false_r. split; intros Hf.
  - rewrite (proj2 (known_iff _ _) Hf). reflexivity.
  - rewrite (known_false _ _ Hf). reflexivity.
Qed.

(* third rule, and rows no rule covers *)
Theorem C73_fallback : forall curves table code b allow mode,
  In mode ["raise"; "skip"] -> ~ In b curves ->
  (code = None \/ exists c, code = Some c /\ c <> "X05" /\ ~ In (c ++ "|" ++ b)%string (map fst table)) ->
  let run := map_to_canonical_filter_bands curves table [code] [Some b] allow mode in
  (forall f, In (lower b, f) generic -> allow = true -> In f curves -> run = Ok [Some f]) /\
  (forall f, In (lower b, f) generic -> allow = false ->
     run = if String.eqb mode "skip" then Ok [None] else Err ValueError) /\
  ((forall f, ~ In (lower b, f) generic) ->
     run = if String.eqb mode "skip" then Ok [None] else Err ValueError).
Proof.
  intros curves table code b allow mode Hm Hb Hc.
  assert (U : unmapped table code (Some b)).
  { destruct Hc as [->|[c [-> [Hc Hk]]]]; cbn; [exact I|]. unfold band_for_map.
    destruct (String.eqb_spec c "X05"); [contradiction|exact Hk]. }
  intros run. unfold run. one Hm. unfold row_ok. rewrite (value_fallback _ _ allow _ _ Hb U).
  unfold resolve_row. rewrite (known_false _ _ Hb), (unmapped_lookup _ _ _ U).
  cbn in Hm. repeat apply conj.
  - intros f Hf -> Hk. rewrite (proj2 (fallback_generic _ _) Hf). cbn [is_none fst snd].
    rewrite (proj2 (known_iff _ _) Hk). cbn. now rewrite andb_false_r.
  - intros f Hf ->. rewrite (proj2 (fallback_generic _ _) Hf). cbn [is_none fst snd].
    destruct Hm as [<-|[<-|[]]]; reflexivity.
  - intros Hn. destruct (fallback_of (Some b)) as [f|] eqn:E.
    + exfalso. apply fallback_generic in E. exact (Hn _ E).
    + cbn [is_none fst snd]. destruct Hm as [<-|[<-|[]]]; destruct allow; reflexivity.
Qed.

Theorem C73_null_band : forall curves table code allow mode,
  In mode ["raise"; "skip"] ->
  map_to_canonical_filter_bands curves table [code] [None] allow mode =
  if String.eqb mode "skip" then Ok [None] else Err ValueError.
Proof.
  intros curves table code allow mode Hm. one Hm.
  unfold row_ok. rewrite value_null. unfold resolve_row. cbn in Hm.
  destruct code; destruct Hm as [<-|[<-|[]]]; destruct allow; reflexivity.
Qed.

Example C73_case :
  let curves := ["V"; "SDSS_g"; "LSST_g"; "LSST_y"; "ATLAS_o"] in
  let table := [("X05|g", "LSST_g"); ("X05|y", "LSST_y"); ("T05|o", "ATLAS_o")] in
  map_to_canonical_filter_bands curves table
    [Some "X05"; Some "X05"; Some "T05"; Some "500"; None; Some "T05"]
    [Some " Lg"; Some "Y"; Some "o"; Some "g"; Some "V"; Some "w"] true "skip"
  = Ok [Some "LSST_g"; Some "LSST_y"; Some "ATLAS_o"; Some "SDSS_g"; Some "V"; None]
  /\ map_to_canonical_filter_bands curves table [Some "500"] [Some "g"] false "raise" = Err ValueError.
Proof. split; reflexivity. Qed.

(* The documentation names the generic bands u/g/r/i/z/y.  The upper-case letters of the
   Johnson-Cousins and Gaia systems are treated as the same bands: a reported "R" becomes
   Sloan r although the Cousins R curve is available, in 'raise' mode and without notice. *)
Theorem C140_generic_bands_refuted :
  (exists curves table code b f,
     map_to_canonical_filter_bands curves table [Some code] [Some b] true "raise" = Ok [Some f] /\
     ~ In b curves /\ ~ In (code ++ "|" ++ b)%string (map fst table) /\
     ~ In (b, f) generic /\ In "Bessell_R" curves) /\
  forall curves table c, In "SDSS_r" curves -> ~ In "R" curves -> c <> "X05" ->
    ~ In (c ++ "|R")%string (map fst table) ->
    map_to_canonical_filter_bands curves table [Some c] [Some "R"] true "raise" = Ok [Some "SDSS_r"].
Proof.
  split.
  - exists ["V"; "Bessell_R"; "SDSS_r"], [], "703", "R", "SDSS_r".
    repeat apply conj; try reflexivity; cbn; try tauto; intros H; repeat (destruct H as [H|H]; try discriminate H); contradiction.
  - intros curves table c Hr HR Hc Ht.
    apply (proj1 (C73_fallback curves table (Some c) "R" true "raise" (or_introl eq_refl) HR
                    (or_intror (ex_intro _ c (conj eq_refl (conj Hc Ht)))))); auto. cbn. tauto.
Qed.

(* what does hold: the fallback never answers for anything but one of the six letters,
   in either case, and always with the documented filter of that letter *)
Theorem C140_generic_bands_partial : forall curves table code b f allow mode,
  map_to_canonical_filter_bands curves table [code] [Some b] allow mode = Ok [Some f] ->
  ~ In b curves ->
  (code = None \/ exists c, code = Some c /\ c <> "X05" /\ ~ In (c ++ "|" ++ b)%string (map fst table)) ->
  allow = true /\ In (lower b, f) generic /\ String.length b = 1.
Proof.
  intros curves table code b f allow mode H Hb Hc.
  destruct (run_inv _ _ _ _ _ _ _ H) as [rows [Hz [Hm _]]].
  pose proof (C73_fallback curves table code b allow mode (proj1 (in_strings_iff _ _) Hm) Hb Hc) as [F1 [F2 F3]].
  cbv zeta in *.
  assert (D : (exists g, In (lower b, g) generic) \/ forall g, ~ In (lower b, g) generic).
  { destruct (fallback_of (Some b)) as [g|] eqn:E.
    - left. exists g. now apply fallback_generic.
    - right. intros g Hg. apply fallback_generic in Hg. congruence. }
  destruct D as [[g Hg]|D].
  - destruct allow.
    + assert (g = f) as ->.
      { assert (In g curves \/ ~ In g curves) as [K|K].
        { destruct (in_dec string_dec g curves); auto. }
        - rewrite (F1 g Hg eq_refl K) in H. congruence.
        - exfalso. assert (U : unmapped table code (Some b)).
          { destruct Hc as [->|[c [-> [Hc Hk]]]]; cbn; [exact I|]. unfold band_for_map.
            destruct (String.eqb_spec c "X05"); [contradiction|exact Hk]. }
          destruct (run_inv _ _ _ _ _ _ _ H) as [r2 [Hz2 [_ [Hf Ho]]]]. cbn in Hz2. injection Hz2 as <-.
          cbn [map fst snd] in Ho. rewrite (value_fallback _ _ _ _ _ Hb U) in Ho.
          rewrite (proj2 (fallback_generic _ _) Hg) in Ho. injection Ho as ->.
          apply K. exact (proj1 (proj2 (proj2 (proj1 (C73_sound curves table [code] [Some b] true mode) _ H))) _ (or_introl eq_refl)). }
      repeat split; auto. rewrite <- lower_length. clear - Hg. unfold generic in Hg. cbn [In] in Hg.
      repeat destruct Hg as [Hg|Hg]; try contradiction; injection Hg as <- _; reflexivity.
    + rewrite (F2 g Hg eq_refl) in H. destruct (String.eqb mode "skip"); discriminate.
  - rewrite (F3 D) in H. destruct (String.eqb mode "skip"); discriminate.
Qed.

Print Assumptions C73_rows.
Print Assumptions C73_sound.
Print Assumptions C73_canonical.
Print Assumptions C73_mapped.
Print Assumptions C73_fallback.
Print Assumptions C73_null_band.
Print Assumptions C140_generic_bands_refuted.
Print Assumptions C140_generic_bands_partial.
