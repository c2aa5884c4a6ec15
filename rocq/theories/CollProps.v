(* Properties of collapsing a variant ephemeris by object. *)
From Coq Require Import Reals Lra Lia ZArith String List Bool Sorted Permutation.
From Verif Require Import Base ListLemmas StrOrder SphModel SphSpec SphProofs KepModel KepProofs SigmaModel CollModel CollSpec CollProofs CollStat CollBase.
Import ListNotations.
Open Scope string_scope.
Open Scope list_scope.
Open Scope R_scope.

Definition modelled (mode : string) : Prop := mode = "none" \/ mode = "collapse".
(* a variant with a value in every column, no weights and no magnitude *)
Definition plain (orbit : string) (object : option string) (day : Z) (x lon : R) : erow :=
  mkerow orbit object day 0 "500" (fun j => if Nat.eqb j 1 then lon else x) None None None None None.
Lemma in_out : forall c mode chunk rows out r, collapse_by_object_id c mode chunk rows = Ok out -> In r out ->
  exists b, (0 < Z.to_nat chunk)%nat /\ rows <> [] /\ In b (collapse_base (Z.to_nat chunk) rows) /\ same_but_light r b /\ (mode <> "collapse" -> r = b).
Proof.
  intros c mode chunk rows out r H R. assert (N : rows <> []). { intros ->. cbn in H. injection H as <-. destruct R. }
  destruct (by_object c mode chunk rows out H N) as (P & F & E). assert (PN : (0 < Z.to_nat chunk)%nat) by lia.
  destruct (string_dec mode "collapse") as [M|M].
  - destruct (forall2_in _ _ _ F R) as (b & B & S). exists b. repeat split; try assumption; congruence || apply S.
  - rewrite (E M) in R. exists r. repeat split; auto.
Qed.

(* C211: one row for each object, epoch and observatory, in this order *)
Theorem C211_rows : forall c mode chunk rows out, modelled mode -> collapse_by_object_id c mode chunk rows = Ok out ->
  (forall k, In k (map about_out out) <-> In k (map about_row rows)) /\ StronglySorted before (map about_out out) /\ NoDup (map about_out out).
Proof.
  intros c mode chunk rows out M H. destruct rows as [|v rows]; [cbn in H; injection H as <-; repeat split; try constructor; intros []|].
  destruct (by_object c mode chunk _ out H ltac:(discriminate)) as (P & F & _). rewrite (forall2_about _ _ F). assert (PN : (0 < Z.to_nat chunk)%nat) by lia. split; [|split; [apply base_sorted|apply sorted_nodup, base_sorted]; exact PN].
  intro k. rewrite !in_map_iff. split.
  - intros (r & <- & R). destruct (base_row _ _ _ PN R) as (N & _ & _). destruct (variants_of (about_out r) (v :: rows)) as [|a g] eqn:Q; [congruence|]. assert (I : In a (variants_of (about_out r) (v :: rows))) by (rewrite Q; left; reflexivity). apply variants_in in I as [I1 I2]. eauto.
  - intros (a & <- & A). destruct (base_has _ _ a PN A) as (r & R & E). eauto.
Qed.
Print Assumptions C211_rows.
(* C211: each row has the statistics of exactly the variants it is about, and the orbit id of the first of them *)
Theorem C211_statistics : forall c mode chunk rows out r, modelled mode -> collapse_by_object_id c mode chunk rows = Ok out -> In r out ->
  sound_cov (variants_of (about_out r) rows) ->
  statistics (variants_of (about_out r) rows) r /\ Some (g_orbit r) = option_map e_orbit (hd_error (variants_of (about_out r) rows)).
Proof.
  intros c mode chunk rows out r _ H R S. destruct (in_out c mode chunk rows out r H R) as (b & P & N & B & Q & _). pose proof Q as Q0. destruct Q as (Q1 & Q2 & _). rewrite Q2 in *. split.
  - eapply stat_same; [exact Q0|]. apply (base_stat (Z.to_nat chunk)); assumption.
  - destruct (base_row _ _ _ P B) as (_ & _ & E). destruct (variants_of (about_out b) rows) as [|a g]; [discriminate|]. cbn. rewrite Q1. f_equal. cbn [collapse_rows] in E. injection E as <-. reflexivity.
Qed.
Print Assumptions C211_statistics.
Theorem C211_errors : forall c mode chunk rows,
  collapse_by_object_id c mode chunk [] = Ok [] /\
  (rows <> [] -> ~ In mode ["recompute"; "collapse"; "none"] -> collapse_by_object_id c mode chunk rows = Err ValueError) /\
  (rows <> [] -> (chunk <= 0)%Z -> collapse_by_object_id c mode chunk rows = Err ValueError) /\
  (modelled mode -> (0 < chunk)%Z -> exists out, collapse_by_object_id c mode chunk rows = Ok out).
Proof.
  intros c mode chunk rows. split; [reflexivity|]. destruct rows as [|v rows]; [repeat split; try congruence; cbn; eauto|].
  assert (X : existsb (String.eqb mode) ["recompute"; "collapse"; "none"] = true <-> In mode ["recompute"; "collapse"; "none"]).
  { rewrite existsb_exists. split; [intros (x & I & E); apply String.eqb_eq in E; subst; exact I|intro I; exists mode; split; [exact I|apply String.eqb_refl]]. }
  unfold collapse_by_object_id. repeat split.
  - intros _ N. destruct (existsb (String.eqb mode) _); [exfalso; apply N, X; reflexivity|reflexivity].
  - intros _ N. destruct (negb _); [reflexivity|]. destruct (Z.leb_spec chunk 0); [reflexivity|lia].
  - intros M N. assert (E : existsb (String.eqb mode) ["recompute"; "collapse"; "none"] = true) by (apply X; destruct M as [->| ->]; cbn; auto). rewrite E. cbn [negb]. destruct (Z.leb_spec chunk 0); [lia|]. destruct (String.eqb mode "collapse"); eauto.
Qed.
Print Assumptions C211_errors.
(* two objects at two epochs, interleaved: three groups *)
Example C211_case : exists out, collapse_by_object_id 173 "none" 2 [plain "o" (Some "b") 2 1 10; plain "o" (Some "a") 5 2 20; plain "o" (Some "b") 1 3 30; plain "o" (Some "b") 2 4 40] = Ok out /\
  map about_out out = [(Some "a", 5%Z, 0%Z, "500"); (Some "b", 1%Z, 0%Z, "500"); (Some "b", 2%Z, 0%Z, "500")] /\
  forall r, In r out -> sound_cov (variants_of (about_out r) [plain "o" (Some "b") 2 1 10; plain "o" (Some "a") 5 2 20; plain "o" (Some "b") 1 3 30; plain "o" (Some "b") 2 4 40]).
Proof.
  eexists. split; [reflexivity|]. split; [reflexivity|]. intros r R xs X. exfalso. assert (G : forall v, In v (variants_of (about_out r) [plain "o" (Some "b") 2 1 10; plain "o" (Some "a") 5 2 20; plain "o" (Some "b") 1 3 30; plain "o" (Some "b") 2 4 40]) -> e_wc v = None).
  { intros v V. apply variants_in in V as [V _]. cbn in V. intuition (subst; reflexivity). }
  assert (N : variants_of (about_out r) [plain "o" (Some "b") 2 1 10; plain "o" (Some "a") 5 2 20; plain "o" (Some "b") 1 3 30; plain "o" (Some "b") 2 4 40] <> []).
  { cbn in R. destruct R as [<-|[<-|[<-|[]]]]; cbn; discriminate. }
  destruct (variants_of _ _) as [|a g]; [congruence|]. cbn in X. rewrite (G a (or_introl eq_refl)) in X. destruct xs; discriminate.
Qed.

(* C212: variants of different orbits *)
Theorem C212_orbits_partial : forall c mode chunk rows out r v, modelled mode -> collapse_by_object_id c mode chunk rows = Ok out -> In r out ->
  (forall a b, In a rows -> In b rows -> e_object a = e_object b -> e_orbit a = e_orbit b) -> In v (variants_of (about_out r) rows) -> e_orbit v = g_orbit r.
Proof.
  intros c mode chunk rows out r v _ H R D V. destruct (in_out c mode chunk rows out r H R) as (b & P & N & B & (Q1 & Q2 & _) & _). rewrite Q2 in V. destruct (base_row _ _ _ P B) as (_ & _ & E).
  pose proof V as V0. apply variants_in in V0 as [V1 V2]. destruct (variants_of (about_out b) rows) as [|a g] eqn:G; [destruct V|]. cbn [collapse_rows] in E. assert (A : In a (variants_of (about_out b) rows)) by (rewrite G; left; reflexivity). apply variants_in in A as [A1 A2].
  rewrite Q1. injection E as <-. cbn [g_orbit]. apply D; try assumption. unfold about_row in *. congruence.
Qed.
Print Assumptions C212_orbits_partial.
(* two orbits without object ids: one row, named after the first orbit, half way between them *)
Theorem C212_orbits_refuted : exists rows r, (forall v, In v rows -> e_orbit v = "a" -> e_vals v 0%nat = 0) /\ (forall v, In v rows -> e_orbit v = "b" -> e_vals v 0%nat = 10) /\
  map e_orbit rows = ["a"; "a"; "b"; "b"] /\
  (forall c, collapse_by_object_id c "none" 1 rows = Ok [r]) /\ g_orbit r = "a" /\ g_mean r 0%nat = 5.
Proof.
  set (rows := [plain "a" None 1 0 10; plain "a" None 1 0 10; plain "b" None 1 10 10; plain "b" None 1 10 10]).
  assert (E : exists r, forall c, collapse_by_object_id c "none" 1 rows = Ok [r]) by (eexists; intro c; reflexivity). destruct E as (r & E). exists rows, r.
  assert (A : about_out r = (None, 1%Z, 0%Z, "500") /\ g_orbit r = "a"). { specialize (E 1). cbn in E. injection E as <-. split; reflexivity. } destruct A as [A O].
  repeat split; auto.
  - intros v V Ev. cbn in V. intuition (subst; try reflexivity; discriminate).
  - intros v V Ev. cbn in V. intuition (subst; try reflexivity; discriminate).
  - assert (G : variants_of (about_out r) rows = rows) by (rewrite A; reflexivity).
    destruct (C211_statistics 1 "none" 1 rows [r] r (or_introl eq_refl) (E 1) (or_introl eq_refl)) as [S _]; [rewrite G; intros [|x xs] X; discriminate|]. rewrite G in S. destruct S as (w & wc & off & F & _ & _ & _ & M & _). rewrite (M 0%nat ltac:(discriminate)).
    destruct F as [([|x xs] & X & _)|[_ ->]]; try discriminate. cbn. field.
Qed.
Print Assumptions C212_orbits_refuted.
Example C212_case : forall a b, In a [plain "o" (Some "b") 2 1 10; plain "p" (Some "a") 5 2 20; plain "o" (Some "b") 1 3 30] -> In b [plain "o" (Some "b") 2 1 10; plain "p" (Some "a") 5 2 20; plain "o" (Some "b") 1 3 30] -> e_object a = e_object b -> e_orbit a = e_orbit b.
Proof. intros a b A B E. cbn in A, B. intuition (subst; try reflexivity; discriminate). Qed.

(* C213: what the other groups and the slicing do *)
Theorem C213_chunks : forall c mode n m rows, modelled mode -> (0 < n)%Z -> (0 < m)%Z -> collapse_by_object_id c mode n rows = collapse_by_object_id c mode m rows.
Proof.
  intros c mode n m rows M N P. destruct rows as [|v rows]; [reflexivity|]. unfold collapse_by_object_id. destruct (negb _); [reflexivity|]. destruct (Z.leb_spec n 0); [lia|]. destruct (Z.leb_spec m 0); [lia|]. rewrite !base_map by lia. reflexivity.
Qed.
Print Assumptions C213_chunks.
Theorem C213_independent_partial : forall c n m rows rows' out out' r r', collapse_by_object_id c "none" n rows = Ok out -> collapse_by_object_id c "none" m rows' = Ok out' ->
  In r out -> In r' out' -> about_out r = about_out r' -> variants_of (about_out r) rows = variants_of (about_out r) rows' -> sound_cov (variants_of (about_out r) rows) -> r = r'.
Proof.
  intros c n m rows rows' out out' r r' H H' R R' A V S. destruct (in_out _ _ _ _ _ _ H R) as (b & P & _ & B & _ & E). destruct (in_out _ _ _ _ _ _ H' R') as (b' & P' & _ & B' & _ & E'). rewrite <- (E ltac:(discriminate)) in B. rewrite <- (E' ltac:(discriminate)) in B'.
  destruct (base_row _ _ _ P B) as (N & _ & C). destruct (base_row _ _ _ P' B') as (N' & _ & C'). rewrite <- A, <- V in *. set (g := variants_of (about_out r) rows) in *.
  assert (W : weights_for rows g = weights_for rows' g) by (rewrite !weights_stat; auto). clearbody g. destruct g as [|a g]; [congruence|]. cbn [collapse_rows] in C, C'. rewrite W in C. congruence.
Qed.
Print Assumptions C213_independent_partial.
Definition weighed (object : string) (w wc x : R) : erow := mkerow "o" (Some object) 1 0 "500" (fun _ => x) (Some w) (Some wc) None None None.
(* covariance weights 1 and -1: the variance of the group is 5/16 by itself and 3/16 next to a group of another size *)
Theorem C213_independent_refuted : exists rows extra r r' q, (forall c, collapse_by_object_id c "none" 10 rows = Ok [r]) /\ (forall c, collapse_by_object_id c "none" 10 (rows ++ [extra]) = Ok [r'; q]) /\
  about_out r = about_out r' /\ variants_of (about_out r) rows = variants_of (about_out r) (rows ++ [extra]) /\ g_cov r 0%nat 0%nat = 5 / 16 /\ g_cov r' 0%nat 0%nat = 3 / 16.
Proof.
  set (g := [weighed "a" (1/4) 1 0; weighed "a" (3/4) (-1) 1]). set (e := plain "o" (Some "b") 1 0 0).
  assert (W1 : fast_weights g = ([1/4; 3/4], [1/2; 1/2])).
  { unfold fast_weights. cbn -[normalised]. rewrite (normalised_one [1/4; 3/4]) by (cbn; lra). f_equal. unfold normalised. cbn. destruct (Req_EM_T (1 + (-1 + 0)) 0); [|lra]. reflexivity. }
  assert (W2 : slow_weights g = ([1/4; 3/4], [1/4; 3/4])).
  { unfold slow_weights. cbn -[normalised normalised_or]. rewrite (normalised_one [1/4; 3/4]) by (cbn; lra). f_equal. unfold normalised_or. cbn. destruct (Req_EM_T (1 + (-1 + 0)) 0); [reflexivity|lra]. }
  exists g, e. destruct (collapse_rows fast_weights g) as [r|] eqn:R1; [|discriminate]. destruct (collapse_rows slow_weights g) as [r'|] eqn:R2; [|discriminate]. destruct (collapse_rows slow_weights [e]) as [q|] eqn:R3; [|discriminate]. exists r, r', q.
  split; [|split]. 
  - intro c. transitivity (Ok (somes [collapse_rows fast_weights g]) : result (list crow)); [reflexivity|]. rewrite R1. reflexivity.
  - intro c. transitivity (Ok (somes [collapse_rows slow_weights g; collapse_rows slow_weights [e]]) : result (list crow)); [reflexivity|]. rewrite R2, R3. reflexivity.
  - unfold g in R1 at 1, R2 at 1. cbn [collapse_rows] in R1, R2. fold g in R1, R2. rewrite W1 in R1. rewrite W2 in R2. injection R1 as <-. injection R2 as <-. repeat split; cbn; lra.
Qed.
Print Assumptions C213_independent_refuted.
Example C213_case : exists r q, (forall c, collapse_by_object_id c "none" 10 [plain "o" (Some "a") 1 0 0; plain "o" (Some "a") 1 2 5] = Ok [r]) /\
  (forall c, collapse_by_object_id c "none" 10 [plain "o" (Some "a") 1 0 0; plain "o" (Some "b") 1 7 7; plain "o" (Some "a") 1 2 5] = Ok [r; q]) /\ sound_cov [plain "o" (Some "a") 1 0 0; plain "o" (Some "a") 1 2 5].
Proof.
  set (g := [plain "o" (Some "a") 1 0 0; plain "o" (Some "a") 1 2 5]). assert (S : sound_cov g) by (intros [|x xs] X; discriminate).
  destruct (collapse_rows slow_weights g) as [r|] eqn:R1; [|discriminate]. destruct (collapse_rows slow_weights [plain "o" (Some "b") 1 7 7]) as [q|] eqn:R2; [|discriminate]. exists r, q. repeat split; [..|exact S].
  - intro c. transitivity (Ok (somes [collapse_rows fast_weights g]) : result (list crow)); [reflexivity|]. assert (E : collapse_rows fast_weights g = collapse_rows slow_weights g) by (apply collapse_ext, sound_fast; [discriminate|exact S]). rewrite E, R1. reflexivity.
  - intro c. transitivity (Ok (somes [collapse_rows slow_weights g; collapse_rows slow_weights [plain "o" (Some "b") 1 7 7]]) : result (list crow)); [reflexivity|]. rewrite R1, R2. reflexivity.
Qed.
