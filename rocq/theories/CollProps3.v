(* Properties of the orbit-major collapse, of collapsed light times and of collapsed orbits. *)
From Coq Require Import Reals Lra Lia ZArith String List Bool Sorted Permutation.
From Verif Require Import Base ListLemmas StrOrder SphModel SphSpec SphProofs KepModel KepProofs SigmaModel CollModel CollSpec CollProofs CollStat CollBase CollProps CollProps2.
Import ListNotations.
Open Scope string_scope.
Open Scope list_scope.
Open Scope R_scope.

Lemma flat_length : forall {A B} (f : A -> list B) n l, (forall x, In x l -> List.length (f x) = n) -> List.length (flat_map f l) = (List.length l * n)%nat.
Proof. intros A B f n l. induction l as [|x l IH]; intro H; [reflexivity|]. cbn [flat_map]. rewrite app_length, (H x (or_introl eq_refl)), IH; [cbn; lia|intros; apply H; right; assumption]. Qed.
Lemma nth_flat : forall {A B} (f : A -> list B) n l d i j a, (forall x, In x l -> List.length (f x) = n) -> nth_error l i = Some a -> (j < n)%nat -> nth (i * n + j) (flat_map f l) d = nth j (f a) d.
Proof.
  intros A B f n l d i j a. revert i. induction l as [|x l IH]; intros i H I J; [destruct i; discriminate|]. cbn [flat_map]. destruct i as [|i]; cbn [nth_error] in I.
  - injection I as ->. cbn. apply app_nth1. rewrite H; [exact J|left; reflexivity].
  - rewrite app_nth2; rewrite (H x (or_introl eq_refl)); [|cbn; lia]. replace (S i * n + j - n)%nat with (i * n + j)%nat by (cbn; lia). apply IH; [intros; apply H; right; assumption|exact I|exact J].
Qed.
Lemma nth_error_seq : forall n i, (i < n)%nat -> nth_error (seq 0 n) i = Some i.
Proof. intros n i H. rewrite nth_error_nth' with (d := 0%nat) by (rewrite seq_length; exact H). rewrite seq_nth by exact H. reflexivity. Qed.
Lemma filter_flat : forall {A B} (p : B -> bool) (f : A -> list B) l, filter p (flat_map f l) = flat_map (fun x => filter p (f x)) l.
Proof. intros A B p f l. induction l as [|x l IH]; [reflexivity|]. cbn. rewrite filter_app, IH. reflexivity. Qed.
Lemma flat_nil : forall {A B} (f : A -> list B) l, (forall x, In x l -> f x = []) -> flat_map f l = [].
Proof. intros A B f l. induction l as [|x l IH]; intro H; [reflexivity|]. cbn. rewrite (H x (or_introl eq_refl)), IH; [reflexivity|intros; apply H; right; assumption]. Qed.
Lemma flat_single : forall {A B} (f : A -> list B) l a, NoDup l -> In a l -> (forall x, In x l -> x <> a -> f x = []) -> flat_map f l = f a.
Proof.
  intros A B f l a. induction l as [|x l IH]; intros N I H; [destruct I|]. inversion N as [|? ? NX N2]; subst. cbn. destruct I as [<-|I].
  - rewrite flat_nil; [apply app_nil_r|]. intros y Y. apply H; [right; exact Y|]. intros ->. contradiction.
  - rewrite (H x (or_introl eq_refl)); [|intros ->; contradiction]. cbn. apply IH; [exact N2|exact I|intros; apply H; [right; assumption|assumption]].
Qed.
Lemma nodup_flat : forall {A B} (f : A -> list B) l, NoDup l -> (forall x, In x l -> NoDup (f x)) -> (forall x y z, In x l -> In y l -> In z (f x) -> In z (f y) -> x = y) -> NoDup (flat_map f l).
Proof.
  intros A B f l N. induction N as [|x l NX N IH]; intros H1 H2; [constructor|]. cbn.
  assert (AP : forall (u v : list B), NoDup u -> NoDup v -> (forall z, In z u -> ~ In z v) -> NoDup (u ++ v)).
  { clear. induction u as [|a u IH]; intros v U V D; [exact V|]. inversion U; subst. cbn. constructor; [|apply IH; auto; intros z Z; apply D; right; exact Z]. intro I. apply in_app_or in I as [I|I]; [contradiction|]. exact (D a (or_introl eq_refl) I). }
  apply AP; [apply H1; left; reflexivity|apply IH; [intros; apply H1; right; assumption|intros y z q Y Z; apply H2; right; assumption]|].
  intros z Z I. apply in_flat_map in I as (y & Y & ZY). assert (x = y) by (apply (H2 x y z); [left; reflexivity|right; exact Y|exact Z|exact ZY]). subst. contradiction.
Qed.

Section Layout.
Variables (rows : list erow) (O K N : nat) (row : nat -> nat -> nat -> erow).
Hypothesis OM : orbit_major rows O K N row.
Hypotheses (PO : (0 < O)%nat) (PK : (0 < K)%nat) (PN : (0 < N)%nat).
Lemma lay_length : List.length rows = (O * (K * N))%nat.
Proof.
  destruct OM as (E & _). rewrite E. rewrite (flat_length _ (K * N)); [rewrite seq_length; reflexivity|]. intros o _. rewrite (flat_length _ N); [rewrite seq_length; reflexivity|]. intros k _. rewrite map_length. apply seq_length.
Qed.
Lemma lay_nth : forall d o k n, (o < O)%nat -> (k < K)%nat -> (n < N)%nat -> nth ((o * K + k) * N + n) rows d = row o k n.
Proof.
  intros d o k n Ho Hk Hn. destruct OM as (E & _). rewrite E. replace ((o * K + k) * N + n)%nat with (o * (K * N) + (k * N + n))%nat by lia.
  rewrite (nth_flat _ (K * N) _ d o (k * N + n) o).
  - rewrite (nth_flat _ N _ d k n k).
    + rewrite (nth_indep _ d (row o k 0%nat)) by (rewrite map_length, seq_length; exact Hn). rewrite map_nth with (d := 0%nat). rewrite seq_nth by exact Hn. reflexivity.
    + intros x _. rewrite map_length. apply seq_length.
    + apply nth_error_seq. exact Hk.
    + exact Hn.
  - intros x _. rewrite (flat_length _ N); [rewrite seq_length; reflexivity|]. intros q _. rewrite map_length. apply seq_length.
  - apply nth_error_seq. exact Ho.
  - nia.
Qed.
Lemma lay_cell : forall d o n, (o < O)%nat -> (n < N)%nat -> cell d rows K N o n = map (fun k => row o k n) (seq 0 K).
Proof. intros d o n Ho Hn. unfold cell. apply map_ext_in. intros k Hk. apply in_seq in Hk. apply lay_nth; lia. Qed.
Lemma lay_about : forall o k n, (o < O)%nat -> (k < K)%nat -> (n < N)%nat -> about_row (row o k n) = about_row (row o 0%nat n).
Proof.
  intros o k n Ho Hk Hn. destruct OM as (_ & F & _). destruct (F o k n Ho Hk Hn) as (_ & A2 & A3 & A4 & A5 & _). destruct (F o 0%nat n Ho PK Hn) as (_ & B2 & B3 & B4 & B5 & _). unfold about_row. congruence.
Qed.
Lemma lay_variants : forall o n, (o < O)%nat -> (n < N)%nat -> variants_of (about_row (row o 0%nat n)) rows = map (fun k => row o k n) (seq 0 K).
Proof.
  intros o n Ho Hn. destruct OM as (E & _ & D). unfold variants_of. rewrite E at 1. rewrite filter_flat. rewrite (flat_single _ _ o).
  - rewrite filter_flat.
    assert (S : forall k, In k (seq 0 K) -> filter (fun r => if about_dec (about_row r) (about_row (row o 0%nat n)) then true else false) (map (fun n0 => row o k n0) (seq 0 N)) = [row o k n]).
    { intros k Hk. apply in_seq in Hk. assert (NS := seq_NoDup N 0). assert (IN : In n (seq 0 N)) by (apply in_seq; lia). assert (FM : forall l, filter (fun r => if about_dec (about_row r) (about_row (row o 0%nat n)) then true else false) (map (fun n0 => row o k n0) l) = flat_map (fun n0 => if about_dec (about_row (row o k n0)) (about_row (row o 0%nat n)) then [row o k n0] else []) l).
      { induction l as [|x l IH]; [reflexivity|]. cbn [map filter flat_map]. rewrite IH. destruct (about_dec _ _); reflexivity. }
      rewrite FM, (flat_single _ _ n NS IN).
      - destruct (about_dec _ _) as [_|C]; [reflexivity|]. exfalso. apply C. apply lay_about; lia.
      - intros x X NX. apply in_seq in X. destruct (about_dec _ _) as [C|_]; [|reflexivity]. exfalso. apply NX. rewrite lay_about in C by lia. destruct (D o o x n) as [_ Q]; try lia; assumption. }
    revert S. generalize (seq 0 K). intros l S. induction l as [|k l IH]; [reflexivity|]. cbn [flat_map map]. rewrite (S k (or_introl eq_refl)), IH; [reflexivity|intros; apply S; right; assumption].
  - apply seq_NoDup.
  - apply in_seq. lia.
  - intros o' O' NE. apply in_seq in O'. rewrite filter_flat. apply flat_nil. intros k Hk. apply in_seq in Hk.
    assert (FN : forall l, (forall x, In x l -> (x < N)%nat) -> filter (fun r => if about_dec (about_row r) (about_row (row o 0%nat n)) then true else false) (map (fun n0 => row o' k n0) l) = []).
    { induction l as [|x l IH]; intro H; [reflexivity|]. cbn [map filter]. rewrite IH by (intros; apply H; right; assumption). destruct (about_dec _ _) as [C|_]; [|reflexivity]. exfalso. apply NE. rewrite lay_about in C by (try lia; apply H; left; reflexivity). destruct (D o' o x n) as [Q _]; try lia; try assumption. apply H. left. reflexivity. }
    apply FN. intros x X. apply in_seq in X. lia.
Qed.
Lemma lay_in : forall v, In v rows -> exists o k n, (o < O)%nat /\ (k < K)%nat /\ (n < N)%nat /\ v = row o k n.
Proof.
  intros v V. destruct OM as (E & _). rewrite E in V. apply in_flat_map in V as (o & Ho & V). apply in_flat_map in V as (k & Hk & V). apply in_map_iff in V as (n & <- & Hn). apply in_seq in Ho, Hk, Hn. exists o, k, n. repeat split; lia.
Qed.
Lemma lay_has : forall o k n, (o < O)%nat -> (k < K)%nat -> (n < N)%nat -> In (row o k n) rows.
Proof. intros o k n Ho Hk Hn. destruct OM as (E & _). rewrite E. apply in_flat_map. exists o. split; [apply in_seq; lia|]. apply in_flat_map. exists k. split; [apply in_seq; lia|]. apply in_map. apply in_seq. lia. Qed.
Lemma lay_group : forall g, In g (groups rows) -> exists o n, (o < O)%nat /\ (n < N)%nat /\ g = map (fun k => row o k n) (seq 0 K).
Proof.
  intros g G. pose proof (runs_nonempty _ g G) as NE. destruct g as [|a g]; [congruence|]. pose proof (group_is rows _ a G (or_introl eq_refl)) as E. assert (A : In a rows). { assert (I : In a (variants_of (about_row a) rows)) by (rewrite <- E; left; reflexivity). apply variants_in in I. tauto. }
  destruct (lay_in a A) as (o & k & n & Ho & Hk & Hn & EA). exists o, n. split; [exact Ho|]. split; [exact Hn|]. rewrite E, EA, lay_about by assumption. apply lay_variants; assumption.
Qed.
Lemma lay_uniform : uniform (groups rows) = true.
Proof.
  destruct (groups rows) as [|g gs] eqn:Q.
  - exfalso. pose proof (group_of_row rows _ (lay_has 0 0 0 PO PK PN)) as I. rewrite Q in I. destruct I.
  - unfold uniform. apply forallb_forall. intros h H. rewrite <- Q in H. destruct (lay_group h H) as (o & n & _ & _ & ->). assert (G : In g (groups rows)) by (rewrite Q; left; reflexivity). destruct (lay_group g G) as (o' & n' & _ & _ & ->). rewrite !map_length. apply Nat.eqb_refl.
Qed.
Lemma lay_ok : forall d, layout_ok d rows K N O = true.
Proof.
  intro d. unfold layout_ok. apply forallb_forall. intros o Ho. apply in_seq in Ho. rewrite lay_cell by lia. apply forallb_forall. intros r R. apply in_map_iff in R as (k & <- & Hk). apply in_seq in Hk.
  assert (HD : hd d (map (fun k0 => row o k0 0%nat) (seq 0 K)) = row o 0%nat 0%nat) by (destruct K; [lia|reflexivity]). rewrite HD. destruct OM as (_ & F & _). destruct (F o k 0%nat ltac:(lia) ltac:(lia) PN) as (A1 & A2 & _). rewrite A1, A2, String.eqb_refl. cbn. apply oeqb_eq. reflexivity.
Qed.
Definition lay_out (d : erow) (o n : nat) : crow :=
  let first := nth (o * (N * K)) rows d in let grid := nth n rows d in
  let mc := moments (fast_weights (cell d rows K N o 0)) (map e_vals (cell d rows K N o n)) in
  mkcrow (e_orbit first) (e_object first) (e_day grid) (e_nanos grid) (e_code grid) (fst mc) (snd mc) None None None.
Lemma lay_row : forall d o n, (o < O)%nat -> (n < N)%nat -> exists b, collapse_rows fast_weights (map (fun k => row o k n) (seq 0 K)) = Some b /\ lay_out d o n = without_magnitude b.
Proof.
  intros d o n Ho Hn. assert (E0 : map (fun k => row o k n) (seq 0 K) = row o 0%nat n :: map (fun k => row o k n) (seq 1 (K - 1))) by (destruct K; [lia|cbn; rewrite Nat.sub_0_r; reflexivity]).
  assert (W : fast_weights (cell d rows K N o 0) = fast_weights (map (fun k => row o k n) (seq 0 K))).
  { rewrite lay_cell by lia. destruct OM as (_ & F & _). assert (M1 : map e_w (map (fun k => row o k 0%nat) (seq 0 K)) = map e_w (map (fun k => row o k n) (seq 0 K))) by (rewrite !map_map; apply map_ext_in; intros k Hk; apply in_seq in Hk; symmetry; apply F; lia).
    assert (M2 : map e_wc (map (fun k => row o k 0%nat) (seq 0 K)) = map e_wc (map (fun k => row o k n) (seq 0 K))) by (rewrite !map_map; apply map_ext_in; intros k Hk; apply in_seq in Hk; symmetry; apply F; lia).
    assert (M3 : equal_weights (map (fun k => row o k 0%nat) (seq 0 K)) = equal_weights (map (fun k => row o k n) (seq 0 K))) by (apply equal_same; rewrite !map_length; reflexivity). unfold fast_weights. rewrite M1, M2, M3. reflexivity. }
  unfold lay_out. rewrite W, (lay_cell d o n) by lia. replace (nth (o * (N * K)) rows d) with (row o 0%nat 0%nat) by (rewrite <- (lay_nth d o 0 0) by lia; f_equal; lia). replace (nth n rows d) with (row 0%nat 0%nat n) by (rewrite <- (lay_nth d 0 0 n) by lia; f_equal; lia).
  set (g := map (fun k => row o k n) (seq 0 K)) in *. destruct OM as (_ & F & _). destruct (F o 0%nat n Ho PK Hn) as (A1 & A2 & A3 & A4 & A5 & _).
  exists (mkcrow (e_orbit (row o 0%nat n)) (e_object (row o 0%nat n)) (e_day (row o 0%nat n)) (e_nanos (row o 0%nat n)) (e_code (row o 0%nat n)) (fst (moments (fast_weights g) (map e_vals g))) (snd (moments (fast_weights g) (map e_vals g))) (present_mean (fst (fast_weights g)) (map e_mag g)) None None).
  split.
  - clearbody g. subst g. reflexivity.
  - unfold without_magnitude. cbn [g_orbit g_object g_day g_nanos g_code g_mean g_cov g_ab g_lt]. cbv zeta. rewrite A1, A2, A3, A4, A5. reflexivity.
Qed.
Lemma lay_main : exists d, collapse_orbit_major (Z.of_nat N) (Z.of_nat K) rows = Ok (flat_map (fun o => map (lay_out d o) (seq 0 N)) (seq 0 O)).
Proof.
  pose proof lay_length as L. destruct rows as [|d rs] eqn:RS; [cbn in L; nia|]. exists d. rewrite <- RS in *. unfold collapse_orbit_major. rewrite RS. rewrite <- RS. destruct (Z.leb_spec (Z.of_nat N) 0); [lia|]. destruct (Z.leb_spec (Z.of_nat K) 0); [lia|].
  assert (M : (Z.of_nat (List.length rows) mod (Z.of_nat N * Z.of_nat K) = 0)%Z) by (rewrite L, !Nat2Z.inj_mul; replace (Z.of_nat O * (Z.of_nat K * Z.of_nat N))%Z with (Z.of_nat O * (Z.of_nat N * Z.of_nat K))%Z by ring; apply Z_mod_mult). rewrite M. cbn [Z.eqb negb]. rewrite !Nat2Z.id.
  assert (OO : (List.length rows / (N * K))%nat = O) by (rewrite L; replace (O * (K * N))%nat with (O * (N * K))%nat by lia; apply Nat.div_mul; nia). rewrite OO, lay_ok. reflexivity.
Qed.
End Layout.

(* C215: for rows in the documented layout the result is that of the collapse by object, up to the order and without the magnitudes *)
Theorem C215_layout_partial : forall rows O K N row c chunk, orbit_major rows O K N row -> (0 < O)%nat -> (0 < K)%nat -> (0 < N)%nat -> (0 < chunk)%Z ->
  exists out base, collapse_orbit_major (Z.of_nat N) (Z.of_nat K) rows = Ok out /\ collapse_by_object_id c "none" chunk rows = Ok base /\ Permutation out (map without_magnitude base).
Proof.
  intros rows O K N row c chunk OM PO PK PN PC. destruct (lay_main rows O K N row OM PO PK PN) as (d & E). eexists. exists (collapse_base (Z.to_nat chunk) rows). split; [exact E|].
  assert (RN : rows <> []) by (intro RN; pose proof (lay_has rows O K N row OM PO PK PN 0%nat 0%nat 0%nat PO PK PN) as LH; rewrite RN in LH; destruct LH). assert (PZ : (0 < Z.to_nat chunk)%nat) by lia. split.
  { unfold collapse_by_object_id. destruct rows; [congruence|]. cbn [existsb String.eqb]. destruct (Z.leb_spec chunk 0); [lia|]. reflexivity. }
  assert (WF : weights_for rows = fast_weights) by (unfold weights_for; rewrite (lay_uniform rows O K N row OM PO PK PN); reflexivity).
  assert (AB : forall o n, (o < O)%nat -> (n < N)%nat -> about_out (lay_out rows K N d o n) = about_row (row o 0%nat n)).
  { intros o n Ho Hn. destruct (lay_row rows O K N row OM PO PK PN d o n Ho Hn) as (b & B & ->). assert (HD : hd_error (map (fun k => row o k n) (seq 0 K)) = Some (row o 0%nat n)) by (destruct K; [lia|reflexivity]). destruct (collapse_about _ _ _ _ B HD) as [A _]. rewrite <- A. reflexivity. }
  pose proof OM as OM2. destruct OM as (_ & _ & D).
  apply NoDup_Permutation.
  - apply nodup_flat; [apply seq_NoDup| |].
    + intros o Ho. apply in_seq in Ho. assert (NN : NoDup (map (lay_out rows K N d o) (seq 0 N))); [|exact NN].
      apply (NoDup_map_inv about_out). rewrite map_map. assert (FX : forall l, NoDup l -> (forall x, In x l -> (x < N)%nat) -> NoDup (map (fun n => about_out (lay_out rows K N d o n)) l)).
      { intros l NL. induction NL as [|x l NX NL IH]; intro HL; [constructor|]. cbn. constructor; [|apply IH; intros; apply HL; right; assumption]. intro I. apply in_map_iff in I as (y & Y1 & Y2). assert (YN : (y < N)%nat) by (apply HL; right; exact Y2). assert (XN : (x < N)%nat) by (apply HL; left; reflexivity). rewrite !AB in Y1 by lia. destruct (D o o y x) as [_ Q]; try lia; [exact Y1|]. subst. contradiction. }
      apply FX; [apply seq_NoDup|]. intros x Hx. apply in_seq in Hx. lia.
    + intros o o' z Ho Ho' Z1 Z2. apply in_seq in Ho, Ho'. apply in_map_iff in Z1 as (n & E1 & N1). apply in_map_iff in Z2 as (n' & E2 & N2). apply in_seq in N1, N2. assert (Q : about_out (lay_out rows K N d o n) = about_out (lay_out rows K N d o' n')) by congruence. rewrite !AB in Q by lia. destruct (D o o' n n') as [Q2 _]; try lia; assumption.
  - apply (NoDup_map_inv about_out). rewrite map_map. change (fun x => about_out (without_magnitude x)) with about_out. apply sorted_nodup, base_sorted. exact PZ.
  - intro r. rewrite in_flat_map, in_map_iff. split.
    + intros (o & Ho & R). apply in_map_iff in R as (n & <- & Hn). apply in_seq in Ho, Hn. destruct (lay_row rows O K N row OM2 PO PK PN d o n) as (b & B & ->); try lia. exists b. split; [reflexivity|]. rewrite base_map by exact PZ. apply in_somes. rewrite WF, <- B. apply in_map.
      rewrite <- (lay_variants rows O K N row OM2 PO PK PN o n) by lia. apply group_of_row. apply (lay_has rows O K N row OM2 PO PK PN); lia.
    + intros (b & <- & B). rewrite base_map in B by exact PZ. apply in_somes in B. apply in_map_iff in B as (g & B & G). destruct (lay_group rows O K N row OM2 PO PK PN g G) as (o & n & Ho & Hn & ->). rewrite WF in B. exists o. split; [apply in_seq; lia|]. destruct (lay_row rows O K N row OM2 PO PK PN d o n Ho Hn) as (b' & B' & E'). assert (b = b') as -> by congruence. rewrite <- E'. apply in_map. apply in_seq. lia.
Qed.
Print Assumptions C215_layout_partial.

Definition timed (day : Z) (x : R) (mag : option R) : erow := mkerow "o" (Some "a") day 0 "500" (fun _ => x) None None mag None None.
(* one orbit, two variants, two times, but the rows are ordered by time: both rows of the result are for the first time and half way between the two *)
Theorem C215_layout_refuted : exists rows r r', (forall v, In v rows -> e_day v = 1%Z -> e_vals v 0%nat = 0) /\ (forall v, In v rows -> e_day v = 2%Z -> e_vals v 0%nat = 10) /\ map e_day rows = [1; 1; 2; 2]%Z /\
  collapse_orbit_major 2 2 rows = Ok [r; r'] /\ g_day r = 1%Z /\ g_day r' = 1%Z /\ g_mean r 0%nat = 5 /\ g_mean r' 0%nat = 5.
Proof.
  set (rows := [timed 1 0 None; timed 1 0 None; timed 2 10 None; timed 2 10 None]). exists rows.
  assert (W : forall g, map e_w g = [None; None] -> fst (fast_weights g) = [1/2; 1/2]).
  { intros g G. unfold fast_weights. cbn [fst]. rewrite G. cbn [all_some]. destruct g as [|a [|b [|q g]]]; try discriminate. apply normalised_one. cbn. lra. }
  eexists. eexists. split; [|split; [|split; [|split; [reflexivity|]]]].
  - intros v V E. cbn in V. intuition (subst; try reflexivity; discriminate).
  - intros v V E. cbn in V. intuition (subst; try reflexivity; discriminate).
  - reflexivity.
  - split; [reflexivity|]. split; [reflexivity|]. split; change (Z.to_nat 2) with 2%nat; cbn [g_mean]; unfold moments; cbn [fst Nat.eqb]; unfold weighted_mean; rewrite W by reflexivity; cbn; lra.
Qed.
Print Assumptions C215_layout_refuted.
(* magnitudes that the collapse by object keeps *)
Theorem C215_magnitude_refuted : exists rows row r b, orbit_major rows 1 1 1 row /\ collapse_orbit_major 1 1 rows = Ok [r] /\ (forall c, collapse_by_object_id c "none" 1 rows = Ok [b]) /\ g_mag r = None /\ g_mag b = Some 20.
Proof.
  exists [timed 1 0 (Some 20)], (fun _ _ _ => timed 1 0 (Some 20)). eexists. eexists. split; [|split; [reflexivity|split; [intro c; reflexivity|split; [reflexivity|]]]].
  - split; [reflexivity|]. split; [intros; repeat split|]. intros. lia.
  - cbn [g_mag]. assert (W : fst (fast_weights [timed 1 0 (Some 20)]) = [1]) by (unfold fast_weights; cbn -[normalised]; rewrite normalised_one; [f_equal; lra|cbn; lra]). rewrite W. apply (proj1 (present_spec [1] [Some 20])). split; cbn; lra.
Qed.
Print Assumptions C215_magnitude_refuted.
Theorem C215_errors : forall n k rows, rows <> [] -> ((n <= 0)%Z \/ (k <= 0)%Z \/ (Z.of_nat (List.length rows) mod (n * k) <> 0)%Z <-> collapse_orbit_major n k rows = Err ValueError).
Proof.
  intros n k [|d rows] N; [congruence|]. unfold collapse_orbit_major. destruct (Z.leb_spec n 0); [split; auto|]. destruct (Z.leb_spec k 0); [split; auto|]. destruct (Z.eqb_spec (Z.of_nat (List.length (d :: rows)) mod (n * k)) 0) as [E|E]; cbn [negb].
  - split; [intros [?|[?|?]]; lia || contradiction|]. destruct (layout_ok _ _ _ _ _); discriminate.
  - split; auto.
Qed.
Print Assumptions C215_errors.
Example C215_case : let row := fun o k n : nat => mkerow (nth o ["p"; "q"] "") (Some (nth o ["b"; "a"] "")) (Z.of_nat n) 0 "500" (fun _ => INR (o + k + n)) (Some (nth k [1/4; 3/4] 0)) None None None None in
  orbit_major (flat_map (fun o => flat_map (fun k => map (fun n => row o k n) (seq 0 3)) (seq 0 2)) (seq 0 2)) 2 2 3 row.
Proof.
  intro row. split; [reflexivity|]. split; [intros; repeat split|]. intros o o' n n' Ho Ho' _ _ E. unfold about_row, row in E. cbn [e_object e_day e_nanos e_code] in E. injection E as E1 E2.
  split; [|lia]. destruct o as [|[|o]]; [| |lia]; (destruct o' as [|[|o']]; [| |lia]); try reflexivity; discriminate.
Qed.

(* C217: light times and aberrated states in the mode "collapse" *)
Lemma combine_groups : forall w gs (A : list erow -> option (nat -> R)) (B : list erow -> option R) r ab lt, (forall g, In g gs -> g <> []) ->
  In (r, ab, lt) (combine (combine (somes (map (collapse_rows w) gs)) (map A gs)) (map B gs)) -> exists g, In g gs /\ collapse_rows w g = Some r /\ ab = A g /\ lt = B g.
Proof.
  intros w gs A B r ab lt. induction gs as [|g gs IH]; intros N I; [destruct I|]. destruct g as [|a g]; [exfalso; apply (N []); [left; reflexivity|reflexivity]|].
  assert (Q : exists q, collapse_rows w (a :: g) = Some q) by (eexists; reflexivity). destruct Q as (q & Q). cbn [map] in I. rewrite Q in I. change (somes (Some q :: map (collapse_rows w) gs)) with (q :: somes (map (collapse_rows w) gs)) in I. cbn [combine] in I. destruct I as [I|I].
  - injection I as <- <- <-. exists (a :: g). split; [left; reflexivity|auto].
  - destruct IH as (h & H & R); [intros; apply N; right; assumption|exact I|]. exists h. split; [right; exact H|exact R].
Qed.
Definition complete (v : erow) : Prop := (exists s, e_ab v = Some s) /\ exists t, e_lt v = Some t.
Definition state_of (v : erow) : nat -> R := match e_ab v with Some s => s | None => fun _ => 0 end.
Lemma average_all : forall w (g : list erow), List.length w = List.length g -> total w = 1 -> (forall v, In v g -> exists t, e_lt v = Some t) ->
  present_mean w (map e_lt g) = Some (total (map (fun p => fst p * value_of (e_lt (snd p))) (combine w g))).
Proof.
  intros w g L T C. apply (proj1 (present_spec w (map e_lt g))). unfold average_present. cbv zeta.
  assert (E : forall w (g : list erow), List.length w = List.length g -> (forall v, In v g -> exists t, e_lt v = Some t) -> filter present (combine w (map e_lt g)) = combine w (map e_lt g) /\ map fst (combine w (map e_lt g)) = w).
  { clear. induction w as [|x w IH]; intros [|v g] L C; try discriminate; [split; reflexivity|]. destruct (IH g) as [I1 I2]; [cbn in L; lia|intros; apply C; right; assumption|]. destruct (C v (or_introl eq_refl)) as (t & Tt). cbn [map combine filter]. rewrite Tt. cbn. rewrite I1, I2. split; reflexivity. }
  destruct (E w g L C) as [E1 E2]. rewrite E1, E2, T. split; [lra|]. unfold Rdiv. rewrite Rinv_1, Rmult_1_r. f_equal. rewrite combine_map_right, map_map. reflexivity.
Qed.
Theorem C217_light_partial : forall c chunk rows out r w, collapse_by_object_id c "collapse" chunk rows = Ok out -> In r out -> (forall v, In v rows -> complete v) ->
  (forall a b, In a rows -> In b rows -> List.length (variants_of (about_row a) rows) = List.length (variants_of (about_row b) rows)) ->
  fractions (map e_w (variants_of (about_out r) rows)) (alike (variants_of (about_out r) rows)) w ->
  (exists s, g_ab r = Some s /\ forall j, s j = total (map (fun p => fst p * state_of (snd p) j) (combine w (variants_of (about_out r) rows)))) /\
  g_lt r = Some (total (map (fun p => fst p * value_of (e_lt (snd p))) (combine w (variants_of (about_out r) rows)))).
Proof.
  intros c chunk rows out r w H RI C U F. assert (N : rows <> []). { intros ->. cbn in H. injection H as <-. destruct RI. }
  destruct (by_object c _ chunk rows out H N) as (P & _ & _). assert (PN : (0 < Z.to_nat chunk)%nat) by lia.
  assert (EO : out = with_aberrations c (groups rows) (collapse_base (Z.to_nat chunk) rows)). { unfold collapse_by_object_id in H. destruct rows; [congruence|]. cbn [existsb String.eqb] in H. destruct (Z.leb_spec chunk 0); [lia|]. cbn in H. injection H as <-. reflexivity. }
  assert (GR : forall g a, In g (groups rows) -> In a g -> In a rows). { intros g a G A. assert (Q := group_is rows g a G A). assert (I : In a (variants_of (about_row a) rows)) by (rewrite <- Q; exact A). apply variants_in in I. tauto. }
  assert (UU : uniform (groups rows) = true).
  { destruct (groups rows) as [|g gs] eqn:Q; [exfalso; destruct rows as [|v rows]; [congruence|]; pose proof (group_of_row (v :: rows) v (or_introl eq_refl)) as I; rewrite Q in I; destruct I|]. rewrite <- Q in GR. unfold uniform. apply forallb_forall. intros h Hh. assert (G : In g (groups rows)) by (rewrite Q; left; reflexivity). rewrite <- Q in Hh. pose proof (runs_nonempty _ g G) as NG. pose proof (runs_nonempty _ h Hh) as NH. destruct g as [|a g]; [congruence|]. destruct h as [|b h]; [congruence|].
    rewrite (group_is rows _ a G (or_introl eq_refl)), (group_is rows _ b Hh (or_introl eq_refl)). apply Nat.eqb_eq. apply U; [apply (GR _ _ Hh)|apply (GR _ _ G)]; left; reflexivity. }
  assert (WF : weights_for rows = fast_weights) by (unfold weights_for; rewrite UU; reflexivity).
  unfold with_aberrations in EO. rewrite UU in EO.
  assert (HA : existsb (fun v => match e_ab v with Some _ => true | None => false end) (concat (groups rows)) = true /\ existsb (fun v => match e_lt v with Some _ => true | None => false end) (concat (groups rows)) = true).
  { assert (CC : exists v, In v (concat (groups rows)) /\ complete v). { unfold groups. rewrite runs_concat. destruct rows as [|v rs]; [congruence|]. exists v. split; [apply sort_In; left; reflexivity|apply C; left; reflexivity]. } destruct CC as (v & V & (s & S) & (t & T)). split; apply existsb_exists; exists v; [rewrite S|rewrite T]; auto. }
  destruct HA as [HA HL]. rewrite HA, HL in EO. cbn [andb] in EO.
  assert (MS : forall g, In g (groups rows) -> exists s, mean_state (fst (fast_weights g)) g = Some s /\ forall j, s j = total (map (fun p => fst p * state_of (snd p) j) (combine (fst (fast_weights g)) g))).
  { intros g G. unfold mean_state. assert (A : forallb (fun v => match e_ab v with Some _ => true | None => false end) g = true). { apply forallb_forall. intros v V. destruct (C v (GR g v G V)) as [(s & S) _]. rewrite S. reflexivity. } rewrite A. eexists. split; [reflexivity|]. intro j. unfold weighted_mean. rewrite rsum_total, combine_map_right, map_map. reflexivity. }
  assert (LT : forall g, In g (groups rows) -> present_mean (fst (fast_weights g)) (map e_lt g) = Some (total (map (fun p => fst p * value_of (e_lt (snd p))) (combine (fst (fast_weights g)) g)))).
  { intros g G. pose proof (runs_nonempty _ g G) as NG. pose proof (weights_fractions rows g NG) as FG. rewrite WF in FG. destruct (fractions_sum g _ NG FG) as [T L]. apply average_all; [exact L|exact T|]. intros v V. apply C. exact (GR g v G V). }
  assert (B1 : forallb (fun x : option (nat -> R) => match x with Some _ => true | None => false end) (map (fun g => mean_state (fst (fast_weights g)) g) (groups rows)) = true).
  { apply forallb_forall. intros x X. apply in_map_iff in X as (g & <- & G). destruct (MS g G) as (s & -> & _). reflexivity. }
  assert (B2 : existsb (fun x : option R => match x with Some _ => true | None => false end) (map (fun g => present_mean (fst (fast_weights g)) (map e_lt g)) (groups rows)) = true).
  { destruct (groups rows) as [|g gs] eqn:Q; [discriminate|]. apply existsb_exists. exists (present_mean (fst (fast_weights g)) (map e_lt g)). split; [left; reflexivity|]. rewrite LT; [reflexivity|left; reflexivity]. }
  rewrite B1, B2 in EO. cbn [andb] in EO. rewrite EO in RI. apply in_map_iff in RI as (((b & ab) & lt) & ER & I). rewrite base_map, WF in I by exact PN. apply combine_groups in I; [|apply runs_nonempty]. destruct I as (g & G & B & -> & ->).
  pose proof (runs_nonempty _ g G) as NG. destruct g as [|a g]; [congruence|]. destruct (collapse_about _ _ a b B eq_refl) as [A _]. assert (AR : about_out r = about_row a) by (rewrite <- ER, <- A; reflexivity).
  rewrite AR in *. rewrite <- (group_is rows _ a G (or_introl eq_refl)) in *. pose proof (weights_fractions rows _ NG) as FG. rewrite WF in FG. rewrite (fractions_unique _ _ _ _ F FG). destruct (MS _ G) as (s & S1 & S2). rewrite S1, (LT _ G) in ER. subst r. cbn [g_ab g_lt]. split; [exists s; auto|reflexivity].
Qed.
Print Assumptions C217_light_partial.
Lemma mean_all : forall w g b, collapse_rows w g = Some b -> g_mean b = fst (moments (w g) (map e_vals g)) /\ option_map e_object (hd_error g) = Some (g_object b).
Proof. intros w [|a g] b E; [discriminate|]. cbn [collapse_rows] in E. assert (E2 : b = mkcrow (e_orbit a) (e_object a) (e_day a) (e_nanos a) (e_code a) (fst (moments (w (a :: g)) (map e_vals (a :: g)))) (snd (moments (w (a :: g)) (map e_vals (a :: g)))) (present_mean (fst (w (a :: g))) (map e_mag (a :: g))) None None) by congruence. rewrite E2. split; reflexivity. Qed.
Definition lit (object : string) (x rho : R) (lt : option R) : erow := mkerow "o" (Some object) 1 0 "500" (fun _ => rho) None None None (Some (fun j => if Nat.eqb j 0 then x else 0)) lt.
(* every variant has a light time, but one object has two variants and the other one: no light times *)
Theorem C217_light_refuted : exists rows out, (forall v, In v rows -> complete v) /\ (forall c, collapse_by_object_id c "collapse" 10 rows = Ok out) /\ out <> [] /\ forall r, In r out -> g_lt r = None /\ g_ab r = None.
Proof.
  exists [lit "a" 1 1 (Some 2); lit "a" 1 1 (Some 2); lit "b" 1 1 (Some 2)], (collapse_base 10 [lit "a" 1 1 (Some 2); lit "a" 1 1 (Some 2); lit "b" 1 1 (Some 2)]). split; [|split; [intro c; reflexivity|]].
  - intros v V. cbn in V. intuition (subst; split; eexists; reflexivity).
  - split; [discriminate|]. intros r R. cbn in R. intuition (subst; reflexivity).
Qed.
Print Assumptions C217_light_refuted.
(* an object 1/100 au from the observer without light times, next to one with: its light time is its distance from the barycentre over the speed of light *)
Theorem C217_fallback_refuted : forall c, 0 < c -> exists rows a b, collapse_by_object_id c "collapse" 10 rows = Ok [a; b] /\ g_object b = Some "b" /\ g_mean b 0%nat = 1/100 /\
  (forall v, In v rows -> e_object v = Some "b" -> e_lt v = None) /\ g_lt b = Some (1 / c).
Proof.
  intros c PC. exists [lit "a" 1 (1/100) (Some (1/100 / c)); lit "b" 1 (1/100) None].
  assert (W : forall v, e_w v = None -> fst (fast_weights [v]) = [1]). { intros v V. unfold fast_weights. cbn [map all_some fst]. rewrite V. cbn -[normalised]. rewrite normalised_one; [f_equal; lra|cbn; lra]. }
  set (va := lit "a" 1 (1/100) (Some (1/100 / c))). set (vb := lit "b" 1 (1/100) None).
  destruct (collapse_rows fast_weights [va]) as [a|] eqn:A; [|discriminate]. destruct (collapse_rows fast_weights [vb]) as [b|] eqn:B; [|discriminate].
  assert (P1 : present_mean [1] [Some (1/100 / c)] = Some (1/100/c)). { apply (proj1 (present_spec [1] [Some (1/100/c)])). split; cbn; [lra|]. field. lra. }
  assert (P2 : present_mean [1] [None] = None). { apply (proj2 (present_spec [1] [None])). cbn. lra. }
  set (s := weighted_mean [fun j => if Nat.eqb j 0 then 1 else 0] [1]).
  exists (mkcrow (g_orbit a) (g_object a) (g_day a) (g_nanos a) (g_code a) (g_mean a) (g_cov a) (g_mag a) (Some s) (Some (1/100/c))), (mkcrow (g_orbit b) (g_object b) (g_day b) (g_nanos b) (g_code b) (g_mean b) (g_cov b) (g_mag b) (Some s) (Some (length3 s / c))).
  assert (BB : g_object b = Some "b" /\ g_mean b 0%nat = 1/100).
  { destruct (mean_all _ _ _ B) as [B1 B2]. cbn in B2. split; [congruence|]. rewrite B1. unfold moments. cbn [fst Nat.eqb]. unfold weighted_mean. rewrite (W vb eq_refl). cbn. lra. }
  split; [|split; [exact (proj1 BB)|split; [exact (proj2 BB)|split]]].
  - transitivity (Ok (with_aberrations c [[va]; [vb]] (somes [collapse_rows fast_weights [va]; collapse_rows fast_weights [vb]])) : result (list crow)); [reflexivity|]. rewrite A, B. unfold with_aberrations. cbn [concat app existsb va vb e_ab e_lt lit orb andb uniform forallb List.length Nat.eqb map mean_state]. rewrite (W va eq_refl), (W vb eq_refl). cbn [e_lt lit va vb map]. rewrite P1, P2. reflexivity.
  - intros v V E. cbn in V. intuition (subst; try reflexivity; discriminate).
  - cbn [g_lt]. f_equal. assert (LS : length3 s = 1). { unfold length3, s, weighted_mean. cbn. replace ((1 * 1 + 0) * (1 * 1 + 0) + (1 * 0 + 0) * (1 * 0 + 0) + (1 * 0 + 0) * (1 * 0 + 0)) with 1 by ring. apply sqrt_1. } rewrite LS. reflexivity.
Qed.
Print Assumptions C217_fallback_refuted.
Example C217_case : let rows := [lit "a" 1 1 (Some 2); lit "a" 1 1 (Some 3); lit "b" 1 1 (Some 2); lit "b" 1 1 (Some 2)] in
  (forall v, In v rows -> complete v) /\ forall a b, In a rows -> In b rows -> List.length (variants_of (about_row a) rows) = List.length (variants_of (about_row b) rows).
Proof.
  intro rows. split.
  - intros v V. cbn in V. intuition (subst; split; eexists; reflexivity).
  - intros a b A B. cbn in A, B. destruct A as [<-|[<-|[<-|[<-|[]]]]]; destruct B as [<-|[<-|[<-|[<-|[]]]]]; reflexivity.
Qed.
