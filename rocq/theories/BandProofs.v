From Coq Require Import List String Ascii Bool Lia.
From Verif Require Import Base BandModel BandSpec.
Import ListNotations.
Open Scope string_scope.
Open Scope list_scope.

Lemma in_strings_iff s l : in_strings s l = true <-> In s l.
Proof.
  unfold in_strings. rewrite existsb_exists. split.
  - intros [x [H E]]. apply String.eqb_eq in E. now subst.
  - intros H. exists s. now rewrite String.eqb_refl.
Qed.

Lemma known_iff curves s : known curves (Some s) = true <-> In s curves.
Proof. apply in_strings_iff. Qed.

Lemma known_false curves s : ~ In s curves -> known curves (Some s) = false.
Proof. intros H. destruct (known curves (Some s)) eqn:E; auto. apply known_iff in E. contradiction. Qed.

Lemma lookup_first k l v : first_value k l v <-> lookup k l = Some v.
Proof.
  split.
  - induction 1; cbn; [now rewrite String.eqb_refl|].
    destruct (String.eqb_spec k k'); [congruence|auto].
  - induction l as [|[k' v'] l IH]; cbn; [discriminate|].
    destruct (String.eqb_spec k k') as [->|Hn].
    + intros [= ->]. constructor.
    + intros H. constructor; auto.
Qed.

Lemma lookup_none k l : ~ In k (map fst l) -> lookup k l = None.
Proof.
  induction l as [|[k' v'] l IH]; cbn; [reflexivity|]. intros H.
  destruct (String.eqb_spec k k') as [->|Hn]; [tauto|]. apply IH. tauto.
Qed.

Lemma zip_app {A B} (a a' : list A) (b b' : list B) : length a = length b ->
  zip_opt (a ++ a') (b ++ b') =
  match zip_opt a b, zip_opt a' b' with Some x, Some y => Some (x ++ y) | _, _ => None end.
Proof.
  revert b. induction a as [|x a IH]; intros [|y b] E; cbn in *; try discriminate.
  - destruct (zip_opt a' b'); reflexivity.
  - injection E as E. rewrite (IH _ E). destruct (zip_opt a b), (zip_opt a' b'); reflexivity.
Qed.

Lemma zip_len {A B} (a : list A) : forall (b : list B), length a = length b -> exists r, zip_opt a b = Some r.
Proof.
  induction a as [|x a IH]; intros [|y b] E; cbn in *; try discriminate; [eauto|].
  injection E as E. destruct (IH _ E) as [r ->]. eauto.
Qed.

Lemma zip_nth {A B} (a : list A) : forall (b : list B) r, zip_opt a b = Some r ->
  forall i x, nth_error r i = Some x <-> nth_error a i = Some (fst x) /\ nth_error b i = Some (snd x).
Proof.
  induction a as [|y a IH]; intros [|z b] r E i x; cbn in E; try discriminate.
  - injection E as <-. destruct i; cbn; split; [discriminate|intros [? _]; discriminate|discriminate|intros [? _]; discriminate].
  - destruct (zip_opt a b) as [r'|] eqn:E'; [|discriminate]. injection E as <-.
    destruct i; cbn; [|now apply IH]. split.
    + intros [= <-]. auto.
    + intros [H1 H2]. destruct x as [x1 x2]; cbn in *. congruence.
Qed.

Section T.
Variable curves : list string.
Variable band_map : list (string * string).
Notation run := (map_to_canonical_filter_bands curves band_map).

(* one row, in the given flags *)
Definition row_value (allow : bool) (code band : option string) : option string :=
  let r := resolve_row curves band_map code band in
  if negb allow && snd r then None else fst r.

Definition row_ok (allow : bool) (mode : string) (code band : option string) : bool :=
  let r := resolve_row curves band_map code band in
  negb (String.eqb mode "raise" && is_none (fst r))
  && negb (negb allow && snd r && negb (String.eqb mode "skip"))
  && negb (negb (is_none (row_value allow code band)) && negb (known curves (row_value allow code band))).

Lemma run_rows codes bands allow mode rows :
  in_strings mode ["raise"; "skip"] = true -> zip_opt codes bands = Some rows ->
  run codes bands allow mode =
  if forallb (fun r => row_ok allow mode (fst r) (snd r)) rows
  then Ok (map (fun r => row_value allow (fst r) (snd r)) rows) else Err ValueError.
Proof.
  intros Hm Hz. unfold map_to_canonical_filter_bands. rewrite Hz, Hm. cbn [negb].
  set (out := map _ rows).
  assert (E1 : existsb (fun o => is_none (fst o)) out = existsb (fun r => is_none (fst (resolve_row curves band_map (fst r) (snd r)))) rows).
  { unfold out. clear. induction rows as [|r l IH]; cbn; [reflexivity|now rewrite IH]. }
  assert (E2 : existsb snd out = existsb (fun r => snd (resolve_row curves band_map (fst r) (snd r))) rows).
  { unfold out. clear. induction rows as [|r l IH]; cbn; [reflexivity|now rewrite IH]. }
  assert (E3 : (if negb allow && existsb snd out
          then map (fun o : option string * bool => if snd o then None else fst o) out
          else map fst out) = map (fun r => row_value allow (fst r) (snd r)) rows).
  { unfold out, row_value. destruct allow; cbn [negb andb].
    - now rewrite map_map.
    - destruct (existsb snd _) eqn:E.
      + rewrite map_map. apply map_ext. intros r. reflexivity.
      + rewrite map_map. apply map_ext_in. intros r Hr.
        destruct (snd (resolve_row curves band_map (fst r) (snd r))) eqn:Er; [|reflexivity].
        exfalso. rewrite <- not_true_iff_false in E. apply E. apply existsb_exists.
        exists (resolve_row curves band_map (fst r) (snd r)). split; [|exact Er]. now apply in_map with (f := fun r => resolve_row curves band_map (fst r) (snd r)). }
  rewrite E3, E1, E2. clear E1 E2 E3 out Hz.
  assert (E4 : existsb (fun f => negb (is_none f) && negb (known curves f)) (map (fun r => row_value allow (fst r) (snd r)) rows)
     = existsb (fun r => negb (is_none (row_value allow (fst r) (snd r))) && negb (known curves (row_value allow (fst r) (snd r)))) rows).
  { clear. induction rows as [|r l IH]; cbn; [reflexivity|now rewrite IH]. }
  rewrite E4. clear E4.
  match goal with |- (if ?a then _ else if ?b then _ else if ?c then _ else _) = if ?d then _ else _ =>
    assert (E : d = negb a && negb b && negb c) end.
  { unfold row_ok. clear Hm. induction rows as [|r l IH].
    - cbn. now rewrite !andb_false_r.
    - cbn [forallb existsb]. rewrite IH. 
      destruct (String.eqb mode "raise"), (String.eqb mode "skip"), allow, (is_none (fst (resolve_row curves band_map (fst r) (snd r)))),
       (snd (resolve_row curves band_map (fst r) (snd r))); cbn [negb andb orb];
      repeat match goal with |- context [existsb ?f ?l] => destruct (existsb f l) end;
      repeat match goal with |- context [is_none ?f] => destruct (is_none f) end;
      repeat match goal with |- context [known ?c ?f] => destruct (known c f) end; reflexivity. }
  rewrite E. clear E.
  match goal with |- (if ?a then _ else if ?b then _ else if ?c then _ else _) = _ =>
    generalize a b c end.
  intros [|] [|] [|]; reflexivity.
Qed.

Lemma run_bad_mode codes bands allow mode : in_strings mode ["raise"; "skip"] = false -> run codes bands allow mode = Err ValueError.
Proof.
  intros H. unfold map_to_canonical_filter_bands. destruct (zip_opt codes bands); [|reflexivity]. now rewrite H.
Qed.

Lemma run_error codes bands allow mode e : run codes bands allow mode = Err e -> e = ValueError.
Proof.
  unfold map_to_canonical_filter_bands.
  destruct (zip_opt codes bands); [|congruence].
  repeat match goal with |- context [if ?b then _ else _] => destruct b end; congruence.
Qed.

Lemma run_inv codes bands allow mode out : run codes bands allow mode = Ok out ->
  exists rows, zip_opt codes bands = Some rows /\ in_strings mode ["raise"; "skip"] = true /\
    forallb (fun r => row_ok allow mode (fst r) (snd r)) rows = true /\
    out = map (fun r => row_value allow (fst r) (snd r)) rows.
Proof.
  intros H. destruct (zip_opt codes bands) as [rows|] eqn:Z.
  2: unfold map_to_canonical_filter_bands in H; rewrite Z in H; discriminate.
  destruct (in_strings mode ["raise"; "skip"]) eqn:M.
  2: rewrite run_bad_mode in H by exact M; discriminate.
  rewrite (run_rows _ _ _ _ _ M Z) in H.
  destruct (forallb _ rows) eqn:F; [|discriminate]. injection H as <-. exists rows; auto.
Qed.

Lemma run_append c c' b b' allow mode : length c = length b ->
  run (c ++ c') (b ++ b') allow mode =
  match run c b allow mode, run c' b' allow mode with
  | Ok o, Ok o' => Ok (o ++ o')
  | _, _ => Err ValueError
  end.
Proof.
  intros E. destruct (zip_len _ _ E) as [r Hr].
  destruct (in_strings mode ["raise"; "skip"]) eqn:M.
  2: rewrite !run_bad_mode by exact M; reflexivity.
  rewrite (run_rows _ _ _ _ _ M Hr).
  destruct (zip_opt c' b') as [r'|] eqn:Hr'.
  - rewrite (run_rows _ _ _ _ _ M Hr').
    rewrite (run_rows _ _ _ _ (r ++ r') M) by now rewrite (zip_app _ _ _ _ E), Hr, Hr'.
    rewrite forallb_app, map_app. destruct (forallb _ r), (forallb _ r'); reflexivity.
  - unfold map_to_canonical_filter_bands. rewrite (zip_app _ _ _ _ E), Hr, Hr'.
    destruct (forallb _ r); reflexivity.
Qed.

(* what one row gives *)
Lemma value_known allow code s : In s curves -> row_value allow code (Some s) = Some s.
Proof.
  intros H. unfold row_value, resolve_row. rewrite (proj2 (known_iff _ _) H). cbn. now rewrite andb_false_r.
Qed.

Lemma value_mapped allow c b f : ~ In b curves ->
  first_value (c ++ "|" ++ band_for_map c b)%string band_map f ->
  row_value allow (Some c) (Some b) = Some f.
Proof.
  intros H Hf. unfold row_value, resolve_row. rewrite (known_false _ _ H). unfold key_of.
  rewrite (proj1 (lookup_first _ _ _) Hf). cbn. now rewrite andb_false_r.
Qed.

Definition unmapped (code band : option string) : Prop :=
  match code, band with
  | Some c, Some b => ~ In (c ++ "|" ++ band_for_map c b)%string (map fst band_map)
  | _, _ => True
  end.

Lemma unmapped_lookup code band : unmapped code band ->
  match key_of code band with Some k => lookup k band_map | None => None end = None.
Proof. destruct code, band; cbn; intros H; auto. now apply lookup_none. Qed.

Lemma value_fallback allow code b : ~ In b curves -> unmapped code (Some b) ->
  row_value allow code (Some b) = if allow then fallback_of (Some b) else None.
Proof.
  intros H Hu. unfold row_value, resolve_row. rewrite (known_false _ _ H), (unmapped_lookup _ _ Hu).
  destruct (fallback_of (Some b)), allow; reflexivity.
Qed.

Lemma value_null allow code : row_value allow code None = None.
Proof. unfold row_value, resolve_row. cbn. destruct code; cbn; now rewrite andb_false_r. Qed.
End T.

Lemma fallback_generic b f : fallback_of (Some b) = Some f <-> In (lower b, f) generic.
Proof.
  unfold fallback_of, generic. cbn [In].
  repeat match goal with |- context [String.eqb ?x ?y] => destruct (String.eqb_spec x y) as [->|] end;
  split; intros H;
  repeat match goal with H : _ \/ _ |- _ => destruct H as [H|H] end; try contradiction; try congruence; try tauto;
  injection H as <-; auto 8.
Qed.

(* the LSST spellings *)
Lemma blank_char s : blank s -> forall c r, s = String c r -> is_space c = true /\ blank r.
Proof. destruct 1; intros c r [= <- <-]; split; auto. Qed.

Lemma trim_left_blank w s : blank w -> trim_left (w ++ s) = trim_left s.
Proof. induction 1; cbn; auto. Qed.
Lemma trim_right_blank w : blank w -> trim_right w = "".
Proof. induction 1 as [|s H IH|s H IH]; cbn; [reflexivity|rewrite IH; reflexivity|rewrite IH; reflexivity]. Qed.
Lemma trim_right_app s w : blank w -> trim_right (s ++ w) = trim_right s.
Proof.
  intros H. induction s as [|c s IH]; cbn; [now apply trim_right_blank|]. now rewrite IH.
Qed.
Lemma app_assoc_s a b c : ((a ++ b) ++ c = a ++ (b ++ c))%string.
Proof. induction a; cbn; [reflexivity|now f_equal]. Qed.

Lemma trim_pad w s w' : blank w -> blank w' -> (exists c r, s = String c r /\ is_space c = false) ->
  trim (w ++ s ++ w') = trim s.
Proof.
  intros H H' [c [r [-> Hc]]]. unfold trim. rewrite trim_left_blank by exact H. cbn [append trim_left].
  rewrite Hc. change (String c (r ++ w')) with (String c r ++ w')%string. now apply trim_right_app.
Qed.

Lemma normal_spelling x s w w' : In x ["u"; "g"; "r"; "i"; "z"; "y"] -> In s (spellings x) -> blank w -> blank w' ->
  normalize_x05 (w ++ s ++ w')%string = x.
Proof.
  intros Hx Hs H H'. unfold normalize_x05. rewrite trim_pad by
   (auto; cbn in Hx; repeat (destruct Hx as [<-|Hx]); try contradiction; cbn in Hs; repeat (destruct Hs as [<-|Hs]); try contradiction;
    eexists; eexists; (split; [reflexivity|reflexivity])).
  cbn in Hx; repeat (destruct Hx as [<-|Hx]); try contradiction; cbn in Hs; repeat (destruct Hs as [<-|Hs]); try contradiction; reflexivity.
Qed.

Lemma lower_length s : String.length (lower s) = String.length s.
Proof. induction s; cbn; auto. Qed.
