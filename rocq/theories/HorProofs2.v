From Coq Require Import QArith ZArith String List Bool Lia Permutation Sorted.
From Verif Require Import Base StrOrder ListLemmas ResModel TimeModel TimeSpec TimeProofs TimeQProofs SchedModel TableModel TableSpec TableProofs SbdbModel HorModel HorSpec HorProofs.
Import ListNotations.
Open Scope string_scope.
Open Scope list_scope.
Open Scope nat_scope.

Lemma jd_leb a b : normal a -> normal b -> Qle_bool (jd a) (jd b) = row_leb a b.
Proof.
  intros [A1 A2] [B1 B2]. destruct (row_leb a b) eqn:E.
  - apply Qle_bool_iff. unfold jd, mjd, row_leb in *. rewrite orb_true_iff, andb_true_iff, Z.ltb_lt, Z.eqb_eq, Z.leb_le in E.
    apply Qplus_le_compat; [|apply Qle_refl]. unfold Qle, Qplus, inject_Z. cbn -[Z.mul Z.add]. nia.
  - destruct (Qle_bool (jd a) (jd b)) eqn:Q; [|reflexivity]. exfalso. apply Qle_bool_iff in Q. unfold jd in Q. apply Qplus_le_l in Q.
    unfold row_leb in E. rewrite orb_false_iff, andb_false_iff, Z.ltb_ge, Z.eqb_neq, Z.leb_gt in E.
    unfold mjd, Qle, Qplus, inject_Z in Q. cbn -[Z.mul Z.add] in Q. nia.
Qed.
Lemma jd_eqb a b : normal a -> normal b -> Qeq_bool (jd a) (jd b) = row_eqb a b.
Proof.
  intros A B. destruct (row_eqb a b) eqn:E.
  - apply row_eqb_eq in E. subst. apply Qeq_bool_iff. reflexivity.
  - destruct (Qeq_bool (jd a) (jd b)) eqn:Q; [|reflexivity]. apply Qeq_bool_iff in Q. assert (X : a = b).
    { apply row_leb_antisym; rewrite <- jd_leb by assumption; apply Qle_bool_iff; rewrite Q; apply Qle_refl. }
    subst. assert (row_eqb b b = true) by now apply row_eqb_eq. congruence.
Qed.
Lemma eph_leb_total a b : eph_leb a b = true \/ eph_leb b a = true.
Proof.
  destruct a as (c & i & r), b as (c' & i' & r'). unfold eph_leb. rewrite (String.eqb_sym i' i). destruct (String.eqb i i'); [|apply str_leb_total].
  destruct (Qeq_bool (h_jd r) (h_jd r')) eqn:E.
  - assert (E' : Qeq_bool (h_jd r') (h_jd r) = true) by (apply Qeq_bool_iff; symmetry; now apply Qeq_bool_iff). rewrite E'. apply str_leb_total.
  - destruct (Qeq_bool (h_jd r') (h_jd r)) eqn:E'. { apply Qeq_bool_iff in E'. symmetry in E'. apply Qeq_bool_iff in E'. congruence. }
    rewrite !Qle_bool_iff. destruct (Qlt_le_dec (h_jd r) (h_jd r')) as [L|L]; [left; now apply Qlt_le_weak|now right].
Qed.
Lemma eph_leb_trans a b c : eph_leb a b = true -> eph_leb b c = true -> eph_leb a c = true.
Proof.
  destruct a as (k & i & r), b as (k' & i' & r'), c as (k'' & i'' & r''). unfold eph_leb.
  destruct (String.eqb_spec i i') as [E|E], (String.eqb_spec i' i'') as [E'|E']; intros H H'.
  - subst. rewrite String.eqb_refl. destruct (Qeq_bool (h_jd r) (h_jd r')) eqn:Q, (Qeq_bool (h_jd r') (h_jd r'')) eqn:Q'.
    + apply Qeq_bool_iff in Q, Q'. assert (X : Qeq_bool (h_jd r) (h_jd r'') = true) by (apply Qeq_bool_iff; now rewrite Q). rewrite X. eapply str_leb_trans; eassumption.
    + apply Qeq_bool_iff in Q. destruct (Qeq_bool (h_jd r) (h_jd r'')) eqn:X. { apply Qeq_bool_iff in X. rewrite Q in X. apply Qeq_bool_iff in X. congruence. } apply Qle_bool_iff. rewrite Q. now apply Qle_bool_iff.
    + apply Qeq_bool_iff in Q'. destruct (Qeq_bool (h_jd r) (h_jd r'')) eqn:X. { apply Qeq_bool_iff in X. rewrite <- Q' in X. apply Qeq_bool_iff in X. congruence. } apply Qle_bool_iff. rewrite <- Q'. now apply Qle_bool_iff.
    + apply Qle_bool_iff in H, H'. destruct (Qeq_bool (h_jd r) (h_jd r'')) eqn:X.
      * exfalso. apply Qeq_bool_iff in X. rewrite <- X in H'. assert (Y : (h_jd r == h_jd r')%Q) by (apply Qle_antisym; assumption). apply Qeq_bool_iff in Y. congruence.
      * apply Qle_bool_iff. eapply Qle_trans; eassumption.
  - destruct (String.eqb_spec i i'') as [X|X]; [congruence|]. now rewrite E.
  - destruct (String.eqb_spec i i'') as [X|X]; [congruence|]. now rewrite <- E'.
  - destruct (String.eqb_spec i i'') as [X|X]; [|eapply str_leb_trans; eassumption]. exfalso. apply E. apply str_leb_antisym; [exact H|now rewrite X].
Qed.

Section Ephemeris.
  Variable ephemerides : string -> string -> list Q -> list hrow.
  Variable to_utc : row -> row.
  Variable name : string -> string.
  Variable cells : string -> string -> Q -> string -> num.
  Hypothesis H_ans : forall code, answers (ephemerides code) name (cells code).

  Definition seen (p : nat * string) (ob : string * row) : string * (string * hrow) :=
    (fst ob, (pad5 (fst p), mkh (jd (to_utc (snd ob))) (name (snd p)) (cells (fst ob) (snd p) (jd (to_utc (snd ob)))))).
  Lemma get_ok ids times code : ids <> [] -> get_ephemeris ephemerides to_utc ids times code = Ok (sort eph_leb (flat_map (fun p => map (seen p) (map (pair code) times)) (numbered_ids ids))).
  Proof.
    intro N. unfold get_ephemeris. destruct ids as [|i0 ids']; [congruence|]. remember (i0 :: ids') as ids eqn:Ei.
    assert (M : forall P : list (nat * string), mapM (fun p => 
       if Nat.eqb (List.length (ephemerides code (snd p) (map (fun t => jd (to_utc t)) times))) (List.length (map (fun t => jd (to_utc t)) times)) then Ok (map (fun r => (code, (pad5 (fst p), r))) (ephemerides code (snd p) (map (fun t => jd (to_utc t)) times))) else Err ValueError) P =
       Ok (map (fun p => map (seen p) (map (pair code) times)) P)).
    { induction P as [|p P IH]; [reflexivity|]. cbn [mapM map]. rewrite IH. rewrite !(H_ans code). rewrite map_length, Nat.eqb_refl. cbn [bind]. rewrite !map_map. reflexivity. }
    cbv zeta. rewrite M. cbn [bind]. now rewrite flat_map_concat_map.
  Qed.
  Lemma eph_ok ids observers : ids <> [] -> observers <> [] -> exists fr, query_horizons_ephemeris ephemerides to_utc ids observers = Ok (map eph_row (sort eph_leb fr)) /\
    Permutation fr (flat_map (fun p => map (seen p) observers) (numbered_ids ids)).
  Proof.
    intros N O. unfold query_horizons_ephemeris. destruct (iterate_codes_split fst observers) as [(_ & K & G & P) _]. set (gs := iterate_codes str_leb fst observers) in *.
    assert (M : forall l, mapM (fun g => get_ephemeris ephemerides to_utc ids (map snd (snd g)) (fst g)) l = Ok (map (fun g : string * list (string * row) => sort eph_leb (flat_map (fun p => map (seen p) (map (pair (fst g)) (map snd (snd g)))) (numbered_ids ids))) l)).
    { induction l as [|g l IH]; [reflexivity|]. cbn [mapM map]. rewrite IH, get_ok by exact N. reflexivity. }
    rewrite M. cbn [bind]. destruct gs as [|g0 gs'] eqn:Eg.
    - exfalso. destruct observers as [|o os]; [congruence|]. apply (proj2 (K (fst o))). exists o. split; [now left|reflexivity].
    - cbn [map]. rewrite <- Eg in *. eexists. split; [reflexivity|]. rewrite <- map_cons with (f := fun g : string * list (string * row) => sort eph_leb (flat_map (fun p => map (seen p) (map (pair (fst g)) (map snd (snd g)))) (numbered_ids ids))). rewrite <- Eg.
      assert (Id : forall g, In g gs -> map (pair (fst g)) (map snd (snd g)) = snd g).
      { intros [k g] I. destruct (G k g I) as (pr & Hp & ->). cbn [fst snd]. clear - Hp. induction observers as [|o os IH]; [reflexivity|]. cbn [filter]. destruct (pr o) eqn:E; [|exact IH]. cbn [map]. rewrite IH. f_equal. apply Hp in E. destruct o; cbn in *; now subst. }
      transitivity (flat_map (fun p => map (seen p) (concat (map snd gs))) (numbered_ids ids)).
      2:{ apply perm_flat_map. intros p _. now apply Permutation_map. }
      clear - Id. clearbody gs || idtac. induction gs as [|g gs IH]; cbn [map concat]. { induction (numbered_ids ids); cbn; auto. }
      rewrite IH by (intros; apply Id; now right). rewrite Id by (now left). rewrite <- sort_perm.
      rewrite (flat_map_ext (fun p => map (seen p) (snd g ++ concat (map snd gs))) (fun p => map (seen p) (snd g) ++ map (seen p) (concat (map snd gs)))) by (intro; apply map_app). symmetry. apply perm_flat_app.
  Qed.
  Lemma seen_row p ob : normal (to_utc (snd ob)) -> seen_from name cells (fst p) (snd p) (fst ob) (to_utc (snd ob)) (eph_row (seen p ob)).
  Proof.
    intro N. unfold seen_from, seen, eph_row. cbn [he_id he_object he_time he_scale he_origin he_lon he_lat he_alpha he_light h_target h_cell h_jd]. rewrite from_jd_jd by exact N. repeat (split; [reflexivity|]).
    split; [intros m ->|intros ->; reflexivity]. exists (m / inject_Z 1440)%Q. split; [reflexivity|]. now field.
  Qed.
  Lemma seen_order p ob p' ob' : normal (to_utc (snd ob)) -> normal (to_utc (snd ob')) -> eph_leb (seen p ob) (seen p' ob') = true -> eph_order (eph_row (seen p ob)) (eph_row (seen p' ob')).
  Proof.
    intros N N'. unfold eph_leb, eph_order, seen, eph_row. cbn [he_id he_time he_origin h_jd h_target h_cell]. rewrite !from_jd_jd by assumption. rewrite jd_eqb, jd_leb by assumption.
    destruct (String.eqb_spec (pad5 (fst p)) (pad5 (fst p'))) as [E|E]; intro H; [right|left; auto]. split; [exact E|].
    destruct (row_eqb (to_utc (snd ob)) (to_utc (snd ob'))) eqn:R; [right; apply row_eqb_eq in R; auto|left]. split; [|exact H]. intro X. apply row_eqb_eq in X. congruence.
  Qed.
End Ephemeris.
