(* Lemmas about the contents of OEF files and the query. *)
From Coq Require Import Ascii String QArith ZArith List Bool Lia.
From Verif Require Import Base TimeModel MpcModel ObsModel AdesModel AdesSpec AdesProofs ObsProofs CovModel CovSpec CovProofs NeoModel NeoSpec NeoProofs.
Import ListNotations.
Open Scope string_scope.
Open Scope list_scope.
Open Scope nat_scope.

Section Contents.
Variable fl : str -> option Q.
Notation float_ := (float_ fl).
Lemma reads_mapM : forall ts qs, reads fl ts qs -> mapM float_ ts = Ok qs.
Proof.
  induction 1 as [|t q ts qs H Hs IH]; auto. cbn [mapM]. unfold NeoModel.float_ at 1. rewrite H. cbn [bind]. rewrite IH. reflexivity.
Qed.
Lemma reads_concat : forall vss qs, reads fl (concat vss) qs -> exists qss, mapM (mapM float_) vss = Ok qss /\ concat qss = qs.
Proof.
  induction vss as [|v vss IH]; intros qs H.
  - inversion H; subst. exists []. auto.
  - cbn [concat] in H. unfold reads in H. apply Forall2_app_inv_l in H. destruct H as (a & b & A & B & ->).
    destruct (IH b B) as (qss & E & <-). exists (a :: qss). cbn [mapM]. rewrite (reads_mapM v a A). cbn [bind]. rewrite E. auto.
Qed.
Lemma mapM_map : forall {A B C} (g : B -> result C) (h : A -> B) l, mapM (fun x => g (h x)) l = mapM g (map h l).
Proof. intros A B C g h. induction l as [|x l IH]; auto. cbn. destruct (g (h x)); auto. cbn [bind]. rewrite IH. reflexivity. Qed.
Lemma tl_words : forall k ls vss, map words ls = map (cons (s_ k)) vss -> map fields ls = vss.
Proof.
  intros k ls. induction ls as [|l ls IH]; intros [|v vss] E; try discriminate; auto. cbn in E. injection E as E1 E2. cbn [map]. unfold fields at 1. rewrite E1. cbn [tl]. f_equal. auto.
Qed.
Lemma triangle_reads : forall kw ls vss qs, map words (of_keyword kw ls) = map (cons (s_ kw)) vss -> reads fl (concat vss) qs -> triangle fl kw ls = Ok qs.
Proof.
  intros kw ls vss qs E H. unfold triangle. rewrite (mapM_map (mapM float_) fields). rewrite (tl_words kw _ vss E).
  destruct (reads_concat vss qs H) as (qss & -> & <-). reflexivity.
Qed.
Lemma one_line : forall k ls v, map words ls = map (cons (s_ k)) [v] -> exists l, ls = [l] /\ words l = s_ k :: v.
Proof. intros k [|l [|]] v E; try discriminate. cbn in E. injection E as E. eauto. Qed.
Lemma no_line : forall k ls, map words ls = map (cons (s_ k)) [] -> ls = [].
Proof. intros k [|l ls] E; [auto|discriminate]. Qed.
Lemma kep_reads : forall l kw six more el, words l = kw :: six ++ more -> reads fl six el -> List.length six = 6 -> kep fl l = Ok el.
Proof.
  intros l kw six more el W R Ln. unfold kep, fields. rewrite W. cbn [tl].
  do 6 (destruct six as [|? six]; [discriminate|]). destruct six; [|discriminate].
  do 6 (inversion R as [|? ? ? ? ?H R']; subst; clear R; rename R' into R). inversion R; subst.
  cbn [app mapM]. unfold float_at. cbn [nth_error]. unfold NeoModel.float_. rewrite H, H0, H1, H2, H3, H4. reflexivity.
Qed.
Lemma covariance_total : forall v, triangle_length v -> exists o, oef_covariance 0%Q v = Ok o /\ optional_matrix v o.
Proof.
  intros v H. assert (D : v = [] \/ exists x w, v = x :: w) by (destruct v; eauto). destruct D as [->|(x & w & Ev)]; [exists None; split; [reflexivity|left; auto]|].
  assert (G : exists m, oef_covariance 0%Q v = Ok (Some m)).
  { unfold oef_covariance. rewrite Ev in *. destruct H as [H|[H|H]]; [discriminate| |]; rewrite H; cbn [Nat.eqb bind].
    - unfold upper_to_full. rewrite H. cbn [Nat.eqb negb bind]. eauto.
    - unfold drop_last_column. rewrite H. cbn [Nat.eqb negb bind]. unfold upper_to_full. rewrite map_length.
      change (List.length (triu 6 0 0)) with 21. cbn [Nat.eqb negb bind]. eauto. }
  destruct G as [m E]. exists (Some m). split; auto. right. exists m. split; auto. exact (oef_ok 0%Q v m E).
Qed.

Theorem parse_ok : forall f text k, written f text -> says fl (f_body f) k ->
  exists d, parse_oef fl text = Ok d /\ d_id d = Some (f_id f) /\ dget str_eqb (s_ "refsys") (d_header d) = Some (f_refsys f) /\
    d_elements d = Some (k_elements k) /\ d_epoch d = k_epoch k /\ d_mag d = k_mag k /\
    optional_matrix (k_cov k) (d_cov d) /\ optional_matrix (k_cor k) (d_cor d).
Proof.
  intros f text k W (K & E & M & C1 & C2 & R1 & R2). destruct W as [h1 r h2 ls pre post A1 A2 A3 A4 A5 A6 A7 A8 A9].
  pose proof (text_lines f h1 h2 r ls pre post A1 A2 A3 A5 A6 A7 A8 A9) as T.
  pose proof (found_id f h1 h2 r ls A1 A2 A3 A5) as I.
  pose proof (found_refsys f h1 h2 r ls A1 A2 A3 A4) as H.
  set (L := h1 ++ r :: h2 ++ s_ "END_OF_HEADER" :: f_id f :: ls) in *.
  assert (KW : forall kw, keyword (s_ kw) -> map words (of_keyword kw L) = map (cons (s_ kw)) (values kw (f_body f)))
    by (intros kw Hk; apply (keyword_words f h1 h2 r ls); auto).
  unfold parse_oef. rewrite T.
  assert (P1 : last_line (kep fl) (of_keyword "KEP" L) = Ok (Some (k_elements k))).
  { destruct K as (six & more & V & R & N). specialize (KW "KEP" ltac:(cbn; auto 10)). rewrite V in KW. destruct (one_line _ _ _ KW) as (l & -> & Wl).
    unfold last_line. cbn [fold_left bind]. rewrite (kep_reads l _ six more (k_elements k) Wl R N). reflexivity. }
  assert (P2 : last_line (epoch fl) (of_keyword "MJD" L) = Ok (k_epoch k)).
  { specialize (KW "MJD" ltac:(cbn; auto 10)). destruct (k_epoch k) as [[q ts]|].
    - destruct E as (m & more & V & F). rewrite V in KW. destruct (one_line _ _ _ KW) as (l & -> & Wl).
      unfold last_line. cbn [fold_left bind]. unfold epoch, float_at. rewrite Wl. cbn [nth_error]. unfold NeoModel.float_. rewrite F. reflexivity.
    - rewrite E in KW. rewrite (no_line _ _ KW). reflexivity. }
  assert (P3 : last_line (magnitude fl) (of_keyword "MAG" L) = Ok (k_mag k)).
  { specialize (KW "MAG" ltac:(cbn; auto 10)). destruct (k_mag k) as [[h g]|].
    - destruct M as (a & b & more & V & F & G). rewrite V in KW. destruct (one_line _ _ _ KW) as (l & -> & Wl).
      unfold last_line. cbn [fold_left bind]. unfold magnitude, float_at, fields. rewrite Wl. cbn [tl nth_error]. unfold NeoModel.float_. rewrite F. cbn [bind]. rewrite G. reflexivity.
    - rewrite M in KW. rewrite (no_line _ _ KW). reflexivity. }
  assert (P4 : triangle fl "COV" L = Ok (k_cov k)) by (apply (triangle_reads "COV" L (values "COV" (f_body f))); [apply KW; cbn; auto 10|auto]).
  assert (P5 : triangle fl "COR" L = Ok (k_cor k)) by (apply (triangle_reads "COR" L (values "COR" (f_body f))); [apply KW; cbn; auto 10|auto]).
  destruct (covariance_total _ C2) as (oc & Ec & Oc). destruct (covariance_total _ R2) as (oo & Eo & Oo).
  rewrite P1. cbn [bind]. rewrite P2. cbn [bind]. rewrite P3. cbn [bind]. rewrite P4. cbn [bind]. rewrite Ec. cbn [bind]. rewrite P5. cbn [bind]. rewrite Eo. cbn [bind].
  eexists. split; [reflexivity|]. cbn. auto 10.
Qed.

(* ---- the remarks ---- *)
Definition step (d : list (str * (Q + str))) (l : str) : list (str * (Q + str)) :=
  match words l with
  | _ :: k :: v :: _ => if startswith (s_ "!") (strip l) then dset str_eqb (lower k) (match fl v with Some q => inl q | None => inr v end) d else d
  | _ => d
  end.
Lemma step_other : forall k e l d, entry_line e l ->
  match e with
  | Remark t => exists ws, laid ws t /\ forall k' r, ws = k' :: r -> lower k' <> lower k
  | Fields kw _ => ~ begins (s_ "!") kw
  end -> dget str_eqb (lower k) (step d l) = dget str_eqb (lower k) d.
Proof.
  intros k e l d E H. unfold step. inversion E; subst.
  - destruct H as (ws & L & N). destruct L as [p P|p w ws rest P Np W Nw L].
    + change ("!"%char :: p) with (["!"%char] ++ p). rewrite words_last; [reflexivity|repeat constructor|discriminate|auto].
    + change ("!"%char :: p ++ w ++ rest) with (["!"%char] ++ p ++ w ++ rest). rewrite words_cons; [|repeat constructor|discriminate|auto|auto].
      assert (Ww : words (w ++ rest) = w :: ws) by (rewrite <- (words_lead p); [apply laid_words; constructor; auto|auto]).
      rewrite Ww. destruct ws as [|v ws]; [reflexivity|]. destruct (startswith _ _); [|reflexivity].
      rewrite dget_dset. destruct (str_eqb (lower k) (lower w)) eqn:X; [|reflexivity]. apply str_eqb_eq in X. destruct (N w (v :: ws) eq_refl). auto.
  - rewrite (laid_words _ _ H0). destruct vs as [|a [|b vs]]; auto.
    destruct (startswith (s_ "!") (strip l)) eqn:S; auto. apply (keyword_iff (s_ "!") kw (a :: b :: vs)) in S; [contradiction|repeat constructor|discriminate|auto].
Qed.
Lemma derived_ok : forall f text d b1 t b2 k v more, written f text -> parse_oef fl text = Ok d ->
  f_body f = b1 ++ Remark t :: b2 -> laid (k :: v :: more) t ->
  Forall (fun e => match e with
    | Remark t' => exists ws, laid ws t' /\ forall k' r, ws = k' :: r -> lower k' <> lower k
    | Fields kw _ => ~ begins (s_ "!") kw end) b2 ->
  dget str_eqb (lower k) (d_derived d) = Some (match fl v with Some q => inl q | None => inr v end).
Proof.
  intros f text d b1 t b2 k v more W P B L N. destruct W as [h1 r h2 ls pre post A1 A2 A3 A4 A5 A6 A7 A8 A9].
  pose proof (text_lines f h1 h2 r ls pre post A1 A2 A3 A5 A6 A7 A8 A9) as T.
  assert (D : d_derived d = derived fl (h1 ++ r :: h2 ++ s_ "END_OF_HEADER" :: f_id f :: ls)).
  { unfold parse_oef in P. rewrite T in P. clear - P. repeat (match type of P with bind ?x _ = _ => destruct x as [?|?]; [cbn [bind] in P|discriminate] end).
    injection P as <-. reflexivity. }
  rewrite D. rewrite B in A6. apply Forall2_app_inv_l in A6. destruct A6 as (l1 & l2 & F1 & F2 & ->). inversion F2 as [|e0 l0 es0 ls0 E0 F3]; subst. clear F2.
  change (dget str_eqb (lower k) (fold_left step (h1 ++ r :: h2 ++ s_ "END_OF_HEADER" :: f_id f :: l1 ++ l0 :: ls0) []) =
    Some (match fl v with Some q => inl q | None => inr v end)).
  replace (h1 ++ r :: h2 ++ s_ "END_OF_HEADER" :: f_id f :: l1 ++ l0 :: ls0)
    with ((h1 ++ r :: h2 ++ s_ "END_OF_HEADER" :: f_id f :: l1) ++ l0 :: ls0) by (repeat (rewrite <- app_assoc; cbn [app]); reflexivity).
  rewrite fold_left_app. cbn [fold_left].
  assert (S0 : forall d0, dget str_eqb (lower k) (step d0 l0) = Some (match fl v with Some q => inl q | None => inr v end)).
  { intros d0. inversion E0; subst. unfold step. inversion L as [|p w ws rest Pp Np Ww Nw L2]; subst.
    change ("!"%char :: p ++ k ++ rest) with (["!"%char] ++ p ++ k ++ rest). rewrite words_cons; [|repeat constructor|discriminate|auto|auto].
    assert (Wk : words (k ++ rest) = k :: v :: more) by (rewrite <- (words_lead p); [apply laid_words; auto|auto]).
    rewrite Wk. replace (startswith (s_ "!") (strip (["!"%char] ++ p ++ k ++ rest))) with true.
    - rewrite dget_dset. assert (X : str_eqb (lower k) (lower k) = true) by (apply str_eqb_eq; auto). rewrite X. reflexivity.
    - symmetry. apply startswith_iff. destruct (strip_word [] (s_ "!") (p ++ k ++ rest)) as [z Z0]; [constructor|repeat constructor|discriminate|]. exists z. exact Z0. }
  generalize (fold_left step (h1 ++ r :: h2 ++ s_ "END_OF_HEADER" :: f_id f :: l1) []). intros d0. specialize (S0 d0). revert S0. generalize (step d0 l0). clear - F3 N.
  induction F3 as [|e l es ls E F IH]; intros d1 S0; auto. inversion N; subst. cbn [fold_left]. apply IH; auto. rewrite (step_other k e l d1 E); auto.
Qed.

(* ---- the query ---- *)
Variable get : str -> option str.
(* a row of a usable file *)
Definition row_of (f : file) (k : content) (q : Q) (o : orbit) : Prop :=
  n_orbit_id o = f_id f /\ n_object_id o = f_id f /\ n_elements o = k_elements k /\ n_time o = from_mjd q /\
  n_scale o = s_ "tt" /\ n_frame o = s_ "ecliptic" /\ n_origin o = s_ "SUN" /\ matrix_of (k_cov k) (n_cov o) /\
  n_H o = option_map fst (k_mag k) /\ n_G o = option_map snd (k_mag k).
Lemma address_ke : forall i e, file_name i (s_ "ke") e = address i e.
Proof. intros i e. reflexivity. Qed.
Lemma one_ok : forall i e text f k q, get (address i e) = Some text -> usable fl text f k q ->
  exists o, query_one fl get (s_ "ke") e i = NOk [o] /\ row_of f k q o.
Proof.
  intros i e text f k q G (W & S & R & E & C). destruct (parse_ok f text k W S) as (d & P & D1 & D2 & D3 & D4 & D5 & D6 & _).
  destruct D6 as [[X _]|(m & D6 & M)]; [contradiction|].
  unfold query_one. rewrite address_ke, G, P. cbn [lift nbind]. change (str_eqb (s_ "ke") (s_ "ke")) with true. cbn iota.
  unfold orbit_of. rewrite D4, E, D2, R, D1, D3, D6, D5. cbn [need_key bind].
  change (negb (str_eqb (s_ "TDT") (s_ "TDT"))) with false. change (negb (str_eqb (s_ "ECLM J2000") (s_ "ECLM J2000"))) with false. cbn [lift bind].
  eexists. split; [reflexivity|]. unfold row_of. cbn. auto 12.
Qed.
Lemma query_ke : forall ids ep e, epoch_code ep = Some e -> query_neocc fl get ids (s_ "ke") ep = query_all fl get (s_ "ke") e ids.
Proof. intros ids ep e E. unfold query_neocc. rewrite E. reflexivity. Qed.
Lemma all_ok : forall e ids, Forall (fun i => exists text f k q, get (address i e) = Some text /\ usable fl text f k q) ids ->
  exists rows, query_all fl get (s_ "ke") e ids = NOk rows /\
  Forall2 (fun i o => exists text f k q, get (address i e) = Some text /\ usable fl text f k q /\ row_of f k q o) ids rows.
Proof.
  intros e ids H. induction H as [|i ids (text & f & k & q & G & U) Hs (rows & E & F)]; [exists []; auto|].
  destruct (one_ok i e text f k q G U) as (o & Eo & Ro). exists (o :: rows). split.
  - cbn [query_all]. rewrite Eo. cbn [nbind]. rewrite E. reflexivity.
  - constructor; auto. exists text, f, k, q. auto.
Qed.
Lemma all_inv : forall typ e ids rows, query_all fl get typ e ids = NOk rows ->
  exists parts, Forall2 (fun i p => query_one fl get typ e i = NOk p) ids parts /\ rows = concat parts.
Proof.
  intros typ e ids. induction ids as [|i ids IH]; intros rows H; [injection H as <-; exists []; auto|].
  cbn [query_all] in H. destruct (query_one fl get typ e i) as [p|] eqn:E; [|discriminate]. cbn [nbind] in H.
  destruct (query_all fl get typ e ids) as [b|] eqn:E2; [|discriminate]. injection H as <-. destruct (IH b eq_refl) as (ps & F & ->). exists (p :: ps). auto.
Qed.
Lemma all_fails : forall e ids i, In i ids -> (forall p, query_one fl get (s_ "ke") e i <> NOk p) -> forall rows, query_all fl get (s_ "ke") e ids <> NOk rows.
Proof.
  intros e ids i I N rows H. destruct (all_inv _ _ _ _ H) as (ps & F & _). clear H. induction F as [|j p js ps Hj F IH]; [destruct I|].
  destruct I as [->|I]; [exact (N p Hj)|auto].
Qed.
Lemma one_refused : forall i e text f k, get (address i e) = Some text -> written f text -> says fl (f_body f) k ->
  (exists q ts, k_epoch k = Some (q, ts) /\ (ts <> s_ "TDT" \/ f_refsys f <> s_ "ECLM J2000")) -> query_one fl get (s_ "ke") e i = NFail (NErr ValueError).
Proof.
  intros i e text f k G W S (q & ts & E & B). destruct (parse_ok f text k W S) as (d & P & D1 & D2 & D3 & D4 & D5 & D6 & _).
  unfold query_one. rewrite address_ke, G, P. cbn [lift nbind]. change (str_eqb (s_ "ke") (s_ "ke")) with true. cbn iota.
  unfold orbit_of. rewrite D4, E, D2. destruct (str_eqb ts (s_ "TDT")) eqn:E1; [|reflexivity]. cbn [need_key bind negb].
  destruct (str_eqb (f_refsys f) (s_ "ECLM J2000")) eqn:E2; [|reflexivity]. apply str_eqb_eq in E1, E2. tauto.
Qed.
Lemma one_bare : forall i e text f k q, get (address i e) = Some text -> written f text -> says fl (f_body f) k ->
  f_refsys f = s_ "ECLM J2000" -> k_epoch k = Some (q, s_ "TDT") -> k_cov k = [] -> query_one fl get (s_ "ke") e i = NFail (NErr KeyError).
Proof.
  intros i e text f k q G W S R E C. destruct (parse_ok f text k W S) as (d & P & D1 & D2 & D3 & D4 & D5 & D6 & _).
  destruct D6 as [[_ X]|(m & _ & n & N & _)]; [|rewrite C in N; cbn in N; lia].
  unfold query_one. rewrite address_ke, G, P. cbn [lift nbind]. change (str_eqb (s_ "ke") (s_ "ke")) with true. cbn iota.
  unfold orbit_of. rewrite D4, E, D2, R, D1, D3, X. reflexivity.
Qed.
Lemma one_epochless : forall i e text f k, get (address i e) = Some text -> written f text -> says fl (f_body f) k -> k_epoch k = None ->
  query_one fl get (s_ "ke") e i = NOk [].
Proof.
  intros i e text f k G W S E. destruct (parse_ok f text k W S) as (d & P & D1 & D2 & D3 & D4 & D5 & D6 & _).
  unfold query_one. rewrite address_ke, G, P. cbn [lift nbind]. change (str_eqb (s_ "ke") (s_ "ke")) with true. cbn iota.
  unfold orbit_of. rewrite D4, E. reflexivity.
Qed.
Lemma one_epoch : forall i e text f k p, get (address i e) = Some text -> written f text -> says fl (f_body f) k -> k_epoch k <> None ->
  query_one fl get (s_ "ke") e i = NOk p -> List.length p = 1.
Proof.
  intros i e text f k p G W S E H. destruct (parse_ok f text k W S) as (d & P & D1 & D2 & D3 & D4 & D5 & D6 & _).
  unfold query_one in H. rewrite address_ke, G, P in H. cbn [lift nbind] in H. change (str_eqb (s_ "ke") (s_ "ke")) with true in H. cbn iota in H.
  unfold orbit_of in H. rewrite D4, D2, D1, D3 in H. destruct (k_epoch k) as [[q ts]|]; [|congruence].
  destruct (negb (str_eqb ts _)); [discriminate|]. cbn [need_key bind] in H. destruct (negb (str_eqb (f_refsys f) _)); [discriminate|].
  destruct (d_cov d); [|discriminate]. cbn in H. injection H as <-. reflexivity.
Qed.
End Contents.
