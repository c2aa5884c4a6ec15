From Coq Require Import String QArith Qminmax Lqa Sorted Permutation.
From Verif Require Import Base ListLemmas FitModel FitSpec FitProofs OdModel OdSpec OdProofs.
Open Scope list_scope.

(* ---------- generic ---------- *)
Lemma combine_fun {A} (ids : list string) (l : list A) i x y : NoDup ids -> In (i, x) (combine ids l) -> In (i, y) (combine ids l) -> x = y.
Proof.
  intros N. revert l. induction N as [|j ids Hj N IH]; intros [|z l]; cbn; try tauto.
  intros [E1|H1] [E2|H2]; try congruence; eauto; exfalso; apply Hj.
  - injection E1 as -> ->. eapply in_combine_l; eauto.
  - injection E2 as -> ->. eapply in_combine_l; eauto.
Qed.
Lemma NoDup_combine {A} (ids : list string) (l : list A) : NoDup ids -> NoDup (combine ids l).
Proof.
  intros N. revert l. induction N as [|j ids Hj N IH]; intros [|z l]; cbn; constructor; auto.
  intros C. apply Hj. eapply in_combine_l; eauto.
Qed.
Lemma nth_combine {A B} (l : list A) (m : list B) k x y : nth_error (combine l m) k = Some (x, y) <-> nth_error l k = Some x /\ nth_error m k = Some y.
Proof.
  revert m k. induction l as [|a l IH]; intros [|b m] [|k]; cbn; try apply IH;
    (split; [intros H|intros [H1 H2]]; try discriminate; try (injection H as -> ->; auto); try (injection H1 as ->; injection H2 as ->; auto)).
Qed.
Lemma pick_In {A} (l : list A) is x : In x (pick l is) <-> exists k, In k is /\ nth_error l k = Some x.
Proof.
  unfold pick. rewrite in_flat_map. split.
  - intros (k & Hk & H). exists k. split; auto. destruct (nth_error l k); [destruct H as [->|[]]; auto|destruct H].
  - intros (k & Hk & E). exists k. split; auto. rewrite E. now left.
Qed.
Lemma pick_combine_snd {A B} (l : list A) (m : list B) is : List.length l = List.length m -> map snd (pick (combine l m) is) = pick m is.
Proof.
  intros H. induction is as [|k is IH]; auto. unfold pick in *. cbn [flat_map]. rewrite map_app, IH. f_equal.
  destruct (nth_error m k) as [y|] eqn:E.
  - destruct (nth_error l k) as [x|] eqn:E1; [|apply nth_error_None in E1; assert (F : nth_error m k <> None) by congruence; apply nth_error_Some in F; lia].
    now rewrite (proj2 (nth_combine l m k x y)).
  - destruct (nth_error (combine l m) k) as [[x y]|] eqn:E1; auto. apply nth_combine in E1 as [_ E1]. congruence.
Qed.
Lemma masked_len {A B} mask (l : list A) (m : list B) : List.length l = List.length m -> List.length (masked mask l) = List.length (masked mask m).
Proof.
  unfold masked. revert l m. induction mask as [|b mask IH]; intros [|x l] [|y m] H; cbn in *; try discriminate; auto.
  destruct b; cbn; [f_equal|]; apply IH; lia.
Qed.
Lemma masked_In {A} mask (l : list A) x : In x (masked mask l) -> In x l.
Proof. unfold masked. intros H. apply in_map_iff in H as ([b y] & <- & H). apply filter_In in H as [H _]. eapply in_combine_r; eauto. Qed.
Lemma masked_NoDup {A} mask (l : list A) : NoDup l -> NoDup (masked mask l).
Proof.
  unfold masked. intros N. revert mask. induction N as [|x l Hx N IH]; intros [|b mask]; cbn; try constructor.
  destruct b; cbn; auto. constructor; auto. intros C. apply Hx. eapply (masked_In mask). exact C.
Qed.
Lemma masked_keep ids triple i : In i (masked (map negb (map (fun i => mem i triple) ids)) ids) -> ~ In i triple.
Proof.
  unfold masked. rewrite map_map. intros H C. apply in_map_iff in H as ([b y] & <- & H). apply filter_In in H as [H G]. cbn in *. subst b.
  assert (X : forall ids, In (true, y) (combine (map (fun x => negb (mem x triple)) ids) ids) -> mem y triple = false).
  { clear. induction ids as [|a ids IH]; cbn; [tauto|]. intros [E|H]; auto. injection E as E ->. now destruct (mem y triple). }
  apply X in H. apply mem_In in C. congruence.
Qed.
Lemma sum_perm l m : Permutation l m -> (sum l == sum m)%Q.
Proof. induction 1; unfold sum in *; cbn [fold_right]; lra. Qed.
Lemma sum_app l m : (sum (l ++ m) == sum l + sum m)%Q.
Proof. unfold sum. induction l; cbn [fold_right app]; lra. Qed.
Lemma filter_split {A} (f : A -> bool) l : Permutation l (filter f l ++ filter (fun x => negb (f x)) l).
Proof. induction l as [|x l IH]; cbn; auto. destruct (f x); cbn; [now constructor|now apply Permutation_cons_app]. Qed.

Definition inb (out : list string) (i : string) : bool := if in_dec string_dec i out then true else false.
Lemma chi2_removed ids triple (chi2 : list Q) rem :
  NoDup ids -> List.length chi2 = List.length ids -> NoDup rem ->
  let rest := map negb (map (fun i => mem i triple) ids) in
  let out := pick (masked rest ids) rem in
  (sum chi2 - sum (pick (masked rest chi2) rem) == add_up (used ids out chi2))%Q.
Proof.
  intros N L Nr rest out.
  set (l := combine ids chi2).
  assert (E1 : chi2 = map snd l).
  { unfold l. clear - L. revert chi2 L. induction ids; intros [|x c] L; cbn in *; try discriminate; auto. f_equal. apply IHids. lia. }
  assert (P : Permutation (filter (fun p => inb out (fst p)) l) (pick (combine (masked rest ids) (masked rest chi2)) rem)).
  { assert (Lm : List.length (masked rest ids) = List.length (masked rest chi2)) by (apply masked_len; auto).
    apply NoDup_Permutation.
    - apply NoDup_filter, NoDup_combine; auto.
    - apply pick_NoDup; auto. apply NoDup_combine, masked_NoDup; auto.
    - intros [i x]. rewrite filter_In, pick_In. unfold inb. cbn [fst]. split.
      + intros [H G]. destruct (in_dec string_dec i out) as [Hi|]; [|discriminate]. apply pick_In in Hi as (k & Hk & Ek).
        destruct (nth_error (masked rest chi2) k) as [y|] eqn:Ey.
        2:{ apply nth_error_None in Ey. assert (nth_error (masked rest ids) k <> None) as F by congruence. apply nth_error_Some in F. lia. }
        exists k. split; auto. apply nth_combine. split; auto. rewrite Ey. f_equal.
        assert (In (i, y) l).
        { apply (masked_In rest). unfold l. rewrite <- combine_masked. apply (nth_error_In _ k). now apply nth_combine. }
        eapply combine_fun; eauto.
      + intros (k & Hk & Ek). split.
        * apply (masked_In rest). unfold l. rewrite <- combine_masked. eapply nth_error_In; eauto.
        * apply nth_combine in Ek as [Ek _]. destruct (in_dec string_dec i out) as [|C]; auto. exfalso. apply C. apply pick_In. eauto. }
  assert (Lm : List.length (masked rest ids) = List.length (masked rest chi2)) by (apply masked_len; auto).
  rewrite <- (pick_combine_snd (masked rest ids) (masked rest chi2) rem Lm).
  rewrite <- (sum_perm _ _ (Permutation_map snd P)).
  rewrite E1 at 1. rewrite (sum_perm _ _ (Permutation_map snd (filter_split (fun p => inb out (fst p)) l))).
  rewrite map_app, sum_app. change (add_up (used ids out chi2)) with (sum (map snd (filter (fun p => if in_dec string_dec (fst p) out then false else true) l))).
  assert (filter (fun p => if in_dec string_dec (fst p) out then false else true) l = filter (fun x => negb (inb out (fst x))) l) as ->.
  { apply filter_ext. intros a. unfold inb. destruct (in_dec _ _ _); auto. }
  lra.
Qed.

(* ---------- iod ---------- *)
Section IodP.
  Context {Orb : Type}.
  Variable ids : list string.
  Variable times : list Q.
  Variable chi2_of : Orb -> list Q.
  Variable argsort : list Q -> list nat.
  Variable gauss : list string -> list Orb.
  Variable threshold min_arc : Q.
  Variable max_outliers : nat.
  Hypothesis Hids : NoDup ids.
  Hypothesis Hlen : forall o, List.length (chi2_of o) = List.length ids.
  Hypothesis Hsort : forall c, sorts (argsort c) c.
  Notation N := (in_num ids).
  Notation isol := (@isol Orb).
  Notation istate := (@istate Orb).

  Record okx (triples : list (list string)) (x : isol) : Prop := {
    o_triple : In (i_ids x) triples;
    o_orb : In (i_orb x) (gauss (i_ids x));
    o_nodup : NoDup (i_out x);
    o_incl : incl (i_out x) ids;
    o_disj : forall i, In i (i_out x) -> ~ In i (i_ids x);
    o_few : (List.length (i_out x) <= max_outliers)%nat;
    o_chi2 : (i_chi2 x == add_up (used ids (i_out x) (chi2_of (i_orb x))))%Q;
    o_rchi2 : exists q m, i_rchi2 x = Fin q /\ (q <= threshold)%Q /\ (2 * m - 6 <> 0)%Z /\ (q == i_chi2 x / inject_Z (2 * m - 6))%Q /\
      (N - Z.of_nat max_outliers <= m)%Z /\ (m <= Z.of_nat (List.length (used ids (i_out x) ids)))%Z /\
      (i_out x <> [] -> m = Z.of_nat (List.length (used ids (i_out x) ids)) /\ exists a, is_span (used ids (i_out x) times) a /\ (min_arc <= a)%Q) }.
  Record sinv (triples : list (list string)) (s : istate) : Prop := {
    v_num : (N - Z.of_nat max_outliers <= i_num s <= N)%Z;
    v_sol : forall x, i_sol s = Some x -> okx triples x }.

  Lemma used_nil : List.length (used ids [] ids) = List.length ids.
  Proof. now rewrite used_all. Qed.
  Lemma rdiv_le t d : rle (rdiv t d) threshold = true -> exists q, rdiv t d = Fin q /\ (q <= threshold)%Q /\ d <> 0%Z /\ (q == t / inject_Z d)%Q.
  Proof.
    clear. unfold rdiv. destruct (Z.eqb_spec d 0); [destruct (qltb 0 t); discriminate|]. cbn. intros H. apply Qle_bool_iff in H.
    eexists. split; [reflexivity|]. split; auto. split; auto. reflexivity.
  Qed.
  Lemma try_outliers_ok triples triple orb : In triple triples -> In orb (gauss triple) -> forall os s s',
    (forall o, In o os -> (o < max_outliers)%nat) -> sinv triples s ->
    try_outliers ids times chi2_of argsort threshold min_arc triple orb os s = Ok s' -> sinv triples s'.
  Proof.
    intros Ht Ho. induction os as [|o os IH]; intros s s' Hos I; cbn [try_outliers]; [intros [= <-]; auto|].
    set (rest := map negb (map (fun i => mem i triple) ids)). set (c := masked rest (chi2_of orb)).
    set (rem := top (argsort c) (o + 1)). set (out := pick (masked rest ids) rem).
    set (total := (sum (chi2_of orb) - sum (pick c rem))%Q). set (num := (N - Z.of_nat (List.length rem))%Z). cbv zeta.
    destruct (arc times (keep_mask ids out)) as [a|] eqn:Ea; [|discriminate]. cbn [bind].
    assert (Hsr : Permutation (seq 0 (List.length c)) (argsort c)) by apply Hsort.
    assert (Nr : NoDup rem) by (apply NoDup_skipn; eapply Permutation_NoDup; [exact Hsr|apply seq_NoDup]).
    assert (Lr : forall i, In i rem -> (i < List.length (masked rest ids))%nat).
    { intros i Hi. apply In_skipn in Hi. apply (Permutation_in _ (Permutation_sym Hsr)), in_seq in Hi.
      rewrite (masked_len rest ids (chi2_of orb)) by auto. unfold c in *. lia. }
    assert (Lo : List.length out = List.length rem) by (apply pick_length; auto).
    assert (No : NoDup out) by (apply pick_NoDup; auto; apply masked_NoDup; auto).
    assert (Io : incl out ids) by (intros i Hi; apply pick_In in Hi as (k & _ & E); eapply (masked_In rest), nth_error_In; eauto).
    assert (Lk : (List.length rem <= o + 1)%nat) by (unfold rem; rewrite top_length; lia).
    assert (Hno : (o < max_outliers)%nat) by (apply Hos; now left).
    assert (Lle : (List.length out <= List.length ids)%nat) by (apply NoDup_incl_length; auto).
    destruct (rle _ _ && _) eqn:Eacc.
    - apply andb_true_iff in Eacc as [E1 E2]. apply Qle_bool_iff in E2. intros [= <-].
      apply rdiv_le in E1 as (q & Eq & Lq & Dn & Eqq).
      assert (Eused : Z.of_nat (List.length (used ids out ids)) = num).
      { rewrite used_count by auto. unfold num, in_num in *. lia. }
      constructor; cbn; [unfold num; lia|].
      intros x [= <-]. constructor; cbn; auto.
      + intros i Hi. apply pick_In in Hi as (k & _ & E). eapply masked_keep, nth_error_In; eauto.
      + lia.
      + apply chi2_removed; auto.
      + exists q, num. split; auto. split; auto. split; auto. split; auto. split; [unfold num; lia|]. split; [lia|].
        intros _. split; auto. exists a. split; auto. now apply arc_span.
    - apply IH; auto; [intros; apply Hos; now right|]. destruct I as [I1 I2]. constructor; cbn; auto.
  Qed.
  Lemma try_orbits_ok triples triple : In triple triples -> forall orbs s s', (forall o, In o orbs -> In o (gauss triple)) -> sinv triples s ->
    try_orbits ids times chi2_of argsort threshold min_arc max_outliers triple orbs s = Ok s' -> sinv triples s'.
  Proof.
    intros Ht. induction orbs as [|orb rest IH]; intros s s' Ho I; cbn [try_orbits]; [intros [= <-]; auto|].
    assert (Hr : forall o, In o rest -> In o (gauss triple)) by (intros; apply Ho; now right).
    set (r := rdiv (sum (chi2_of orb)) (2 * i_num s - 6)).
    destruct (rgt r threshold && Nat.eqb max_outliers 0).
    { destruct rest; [|apply IH; auto]. intros [= <-]. destruct I as [I1 I2]. constructor; cbn; auto. }
    destruct (rle r threshold) eqn:E.
    { destruct (arc _ _) as [a|]; [|discriminate]. cbn [bind]. intros [= <-]. destruct I as [I1 I2].
      apply rdiv_le in E as (q & Eq & Lq & Dn & Eqq).
      constructor; cbn; auto. intros x [= <-]. constructor; cbn; auto; try lia; try tauto; try (apply Ho; now left).
      - constructor.
      - intros i [].
      - rewrite used_all by (rewrite Hlen; lia). reflexivity.
      - exists q, (i_num s). split; auto. split; auto. split; auto. split; auto. split; [lia|]. rewrite used_nil. unfold in_num in *. split; [lia|tauto]. }
    destruct (Nat.ltb 0 max_outliers); [|apply IH; auto].
    destruct (try_outliers _ _ _ _ _ _ _ _ _ _) as [s1|] eqn:E1; [|discriminate]. cbn [bind]. apply IH; auto.
    revert E1. apply try_outliers_ok; auto; [apply Ho; now left|]. intros o H. apply in_seq in H. lia.
  Qed.
  Lemma try_triples_ok triples : forall ts s s', incl ts triples -> sinv triples s ->
    try_triples ids times chi2_of argsort gauss threshold min_arc max_outliers ts s = Ok s' -> sinv triples s'.
  Proof.
    induction ts as [|t ts IH]; intros s s' Hi I; cbn [try_triples]; [intros [= <-]; auto|].
    destruct (i_sol s); [intros [= <-]; auto|]. destruct (i_proc s); [|intros [= <-]; auto].
    destruct (try_orbits _ _ _ _ _ _ _ _ _ _) as [s1|] eqn:E1; [|discriminate]. cbn [bind]. apply IH; [intros y Hy; apply Hi; now right|].
    revert E1. apply try_orbits_ok; auto. apply Hi. now left.
  Qed.
  Lemma iod_found budget triples min_obs r :
    iod ids times chi2_of argsort gauss threshold min_arc max_outliers budget (Ok triples) min_obs = Ok (Some r) ->
    (Z.of_nat max_outliers <= N - min_obs)%Z ->
    In (ir_triple r) triples /\ In (ir_orb r) (gauss (ir_triple r)) /\
    NoDup (ir_out r) /\ incl (ir_out r) ids /\ (forall i, In i (ir_out r) -> ~ In i (ir_triple r)) /\
    (List.length (ir_out r) <= max_outliers)%nat /\ (min_obs <= Z.of_nat (List.length (used ids (ir_out r) ids)))%Z /\
    (ir_chi2 r == add_up (used ids (ir_out r) (chi2_of (ir_orb r))))%Q /\
    (exists q, ir_rchi2 r = Fin q /\ (q <= threshold)%Q) /\
    (ir_out r <> [] -> (exists q, ir_rchi2 r = Fin q /\ (q == ir_chi2 r / inject_Z (2 * Z.of_nat (List.length (used ids (ir_out r) ids)) - 6))%Q) /\
       exists a, is_span (used ids (ir_out r) times) a /\ (min_arc <= a)%Q) /\
    ((forall o c, In c (chi2_of o) -> (0 <= c)%Q) -> (4 <= min_obs)%Z ->
       (ir_chi2 r <= threshold * inject_Z (2 * Z.of_nat (List.length (used ids (ir_out r) ids)) - 6))%Q).
  Proof.
    unfold iod. destruct budget; [|discriminate]. cbn [bind].
    destruct (_ && _); [|discriminate]. destruct (try_triples _ _ _ _ _ _ _ _ _ _) as [s|] eqn:E; [|discriminate]. cbn [bind].
    set (ts := firstn _ triples) in E.
    assert (Its : incl ts triples) by (intros y; apply In_firstn).
    assert (I : sinv triples s) by (revert E; apply try_triples_ok; auto; constructor; cbn; [lia|discriminate]).
    destruct (i_sol s) as [x|] eqn:Es; [|discriminate]. destruct (i_proc s); [|discriminate]. intros [= <-] Hm. cbn [ir_triple ir_orb ir_out ir_chi2 ir_rchi2].
    destruct (v_sol _ _ I x Es) as [X1 X2 X3 X4 X5 X6 X7 (q & m & R1 & R2 & R3 & R4 & R5 & R6 & R7)].
    split; auto. split; auto. split; auto. split; auto. split; auto. split; auto. split; [lia|]. split; auto.
    split; [eauto|]. split.
    - intros H. destruct (R7 H) as (-> & A). split; eauto.
    - intros Hc H4. assert (M4 : (4 <= m)%Z) by lia.
      assert (Pos : (0 <= i_chi2 x)%Q).
      { rewrite X7. clear - Hc. assert (F : forall c, In c (used ids (i_out x) (chi2_of (i_orb x))) -> (0 <= c)%Q).
        { intros c H. apply used_In in H as (i & H & _). apply in_combine_r in H. eauto. }
        unfold add_up. induction (used _ _ _) as [|c l IH]; cbn [fold_right]; [lra|].
        pose proof (F c (or_introl eq_refl)). assert (0 <= fold_right Qplus (0 # 1) l)%Q by (apply IH; intros; apply F; now right). lra. }
      set (u := List.length (used ids (i_out x) ids)) in *.
      assert (D2 : (2 <= inject_Z (2 * m - 6))%Q) by (change 2 with (inject_Z 2); rewrite <- Zle_Qle; lia).
      assert (D3 : (inject_Z (2 * m - 6) <= inject_Z (2 * Z.of_nat u - 6))%Q) by (rewrite <- Zle_Qle; lia).
      assert (Q0 : (q * inject_Z (2 * m - 6) == i_chi2 x)%Q) by (rewrite R4; field; lra).
      generalize dependent (inject_Z (2 * m - 6)). generalize dependent (inject_Z (2 * Z.of_nat u - 6)). clear - R2 Pos. intros w v R4 D2 D3 Q0.
      destruct (Qlt_le_dec q 0) as [Q1|Q1]; [exfalso; nra|]. rewrite <- Q0.
      apply Qle_trans with (threshold * v)%Q; [apply Qmult_le_compat_r; lra|].
      assert (0 <= threshold * (w - v))%Q by (apply Qmult_le_0_compat; lra). lra.
  Qed.
  (* one candidate orbit per triple: the reported numbers belong to the accepted orbit *)
  Record single (s : istate) : Prop := {
    g_num : i_sol s = None -> i_num s = N;
    g_sol : forall x, i_sol s = Some x -> i_num s = Z.of_nat (List.length (used ids (i_out x) ids)) /\
      (exists a, i_arc s = Some a /\ is_span (used ids (i_out x) times) a) /\
      (exists q, i_rchi2 x = Fin q /\ (q == i_chi2 x / inject_Z (2 * i_num s - 6))%Q) }.
  Lemma try_outliers_single triple orb : forall os s s', i_sol s = None -> single s ->
    try_outliers ids times chi2_of argsort threshold min_arc triple orb os s = Ok s' -> single s'.
  Proof.
    induction os as [|o os IH]; intros s s' Hn I; cbn [try_outliers]; [intros [= <-]; auto|].
    set (rest := map negb (map (fun i => mem i triple) ids)). set (c := masked rest (chi2_of orb)).
    set (rem := top (argsort c) (o + 1)). set (out := pick (masked rest ids) rem).
    set (total := (sum (chi2_of orb) - sum (pick c rem))%Q). set (num := (N - Z.of_nat (List.length rem))%Z). cbv zeta.
    destruct (arc times (keep_mask ids out)) as [a|] eqn:Ea; [|discriminate]. cbn [bind].
    destruct (rle _ _ && _) eqn:Eacc.
    - apply andb_true_iff in Eacc as [E1 E2]. intros [= <-]. apply rdiv_le in E1 as (q & Eq & Lq & Dn & Eqq).
      assert (Hsr : Permutation (seq 0 (List.length c)) (argsort c)) by apply Hsort.
      assert (Nr : NoDup rem) by (apply NoDup_skipn; eapply Permutation_NoDup; [exact Hsr|apply seq_NoDup]).
      assert (Lr : forall i, In i rem -> (i < List.length (masked rest ids))%nat).
      { intros i Hi. apply In_skipn in Hi. apply (Permutation_in _ (Permutation_sym Hsr)), in_seq in Hi.
        rewrite (masked_len rest ids (chi2_of orb)) by auto. unfold c in *. lia. }
      assert (Lo : List.length out = List.length rem) by (apply pick_length; auto).
      assert (No : NoDup out) by (apply pick_NoDup; auto; apply masked_NoDup; auto).
      assert (Io : incl out ids) by (intros i Hi; apply pick_In in Hi as (k & _ & E); eapply (masked_In rest), nth_error_In; eauto).
      assert (Lle : (List.length out <= List.length ids)%nat) by (apply NoDup_incl_length; auto).
      constructor; cbn [i_sol]; [discriminate|]. intros x [= <-]. cbn [i_num i_out i_arc i_rchi2 i_chi2].
      split; [rewrite used_count by auto; unfold num, in_num in *; lia|]. split; [exists a; split; auto; now apply arc_span|eauto].
    - apply IH; cbn; auto. constructor; cbn; [apply (g_num _ I)|rewrite Hn; discriminate].
  Qed.
  Lemma try_orbits_single triple orbs s s' : (List.length orbs <= 1)%nat -> i_sol s = None -> single s ->
    try_orbits ids times chi2_of argsort threshold min_arc max_outliers triple orbs s = Ok s' -> single s'.
  Proof.
    destruct orbs as [|orb [|? ?]]; cbn [List.length]; try lia; intros _ Hn I; cbn [try_orbits]; [intros [= <-]; auto|].
    set (r := rdiv (sum (chi2_of orb)) (2 * i_num s - 6)).
    destruct (rgt r threshold && Nat.eqb max_outliers 0).
    { intros [= <-]. constructor; cbn; [apply (g_num _ I)|rewrite Hn; discriminate]. }
    destruct (rle r threshold) eqn:E.
    { destruct (arc _ _) as [a|] eqn:Ea; [|discriminate]. cbn [bind]. intros [= <-].
      apply rdiv_le in E as (q & Eq & Lq & Dn & Eqq).
      constructor; cbn [i_sol]; [discriminate|]. intros x [= <-]. cbn [i_num i_out i_arc i_rchi2 i_chi2].
      split; [rewrite used_nil; apply (g_num _ I Hn)|]. split; [|eauto]. exists a. split; auto.
      apply arc_span. rewrite <- Ea. reflexivity. }
    destruct (Nat.ltb 0 max_outliers); [|intros [= <-]; auto].
    destruct (try_outliers _ _ _ _ _ _ _ _ _ _) as [s1|] eqn:E1; [|discriminate]. cbn [bind]. intros [= <-].
    revert E1. now apply try_outliers_single.
  Qed.
  Lemma try_triples_single : (forall t, (List.length (gauss t) <= 1)%nat) -> forall ts s s', single s ->
    try_triples ids times chi2_of argsort gauss threshold min_arc max_outliers ts s = Ok s' -> single s'.
  Proof.
    intros Hg. induction ts as [|t ts IH]; intros s s' I; cbn [try_triples]; [intros [= <-]; auto|].
    destruct (i_sol s) eqn:Es; [intros [= <-]; auto|]. destruct (i_proc s); [|intros [= <-]; auto].
    destruct (try_orbits _ _ _ _ _ _ _ _ _ _) as [s1|] eqn:E1; [|discriminate]. cbn [bind]. apply IH.
    revert E1. now apply try_orbits_single.
  Qed.
  Lemma iod_single_ budget triples min_obs r : (forall t, (List.length (gauss t) <= 1)%nat) ->
    iod ids times chi2_of argsort gauss threshold min_arc max_outliers budget (Ok triples) min_obs = Ok (Some r) ->
    ir_num r = Z.of_nat (List.length (used ids (ir_out r) ids)) /\
    (exists a, ir_arc r = Some a /\ is_span (used ids (ir_out r) times) a) /\
    (exists q, ir_rchi2 r = Fin q /\ (q == ir_chi2 r / inject_Z (2 * ir_num r - 6))%Q).
  Proof.
    intros Hg. unfold iod. destruct budget; [|discriminate]. cbn [bind].
    destruct (_ && _); [|discriminate]. destruct (try_triples _ _ _ _ _ _ _ _ _ _) as [s|] eqn:E; [|discriminate]. cbn [bind].
    assert (I : single s) by (revert E; apply try_triples_single; auto; constructor; cbn; auto; discriminate).
    destruct (i_sol s) as [x|] eqn:Es; [|discriminate]. destruct (i_proc s); [|discriminate]. intros [= <-].
    exact (g_sol _ I x Es).
  Qed.
  Lemma iod_error e select min_obs :
    iod ids times chi2_of argsort gauss threshold min_arc max_outliers (Err e) select min_obs = Err e.
  Proof. reflexivity. Qed.
  Lemma iod_short z triples min_obs : (N < min_obs)%Z ->
    iod ids times chi2_of argsort gauss threshold min_arc max_outliers (Ok z) (Ok triples) min_obs = Ok None.
  Proof. intros H. unfold iod. cbn [bind]. replace (N <? min_obs)%Z with true by lia. now rewrite andb_false_r. Qed.
End IodP.
Lemma iod_single {Orb} ids times (chi2_of : Orb -> list Q) argsort gauss threshold min_arc max_outliers budget triples min_obs r :
  NoDup ids -> (forall o, List.length (chi2_of o) = List.length ids) -> (forall c, sorts (argsort c) c) ->
  (forall t, (List.length (gauss t) <= 1)%nat) ->
  iod ids times chi2_of argsort gauss threshold min_arc max_outliers budget (Ok triples) min_obs = Ok (Some r) ->
  ir_num r = Z.of_nat (List.length (used ids (ir_out r) ids)) /\
  (exists a, ir_arc r = Some a /\ is_span (used ids (ir_out r) times) a) /\
  (exists q, ir_rchi2 r = Fin q /\ (q == ir_chi2 r / inject_Z (2 * ir_num r - 6))%Q).
Proof. intros H1 H2 H3 H4. now apply iod_single_. Qed.

(* ---------- least squares ---------- *)
Section LsP.
  Context {Orb : Type}.
  Variable rms : Orb -> Q.
  Variable update : Orb -> Q -> result Orb.
  Variable mult eps max_iterations : Q.
  Notation loop := (ls_loop rms update mult eps max_iterations).
  Lemma ls_spec : forall fuel orb pert it r k, (0 <= it)%Z -> loop fuel orb pert it = Ok (r, k) ->
    (it <= k)%Z /\ ((it < k)%Z -> (inject_Z (k - 1) < max_iterations)%Q) /\
    match r with
    | Some u => (rms u <= rms orb)%Q /\ (u = orb \/ (rms u < rms orb)%Q)
    | None => it = 0%Z /\ k = 1%Z /\ exists u, update orb pert = Ok u /\ (rms orb <= rms u)%Q /\ (pert <= 1 # 10 ^ 12)%Q
    end.
  Proof.
    induction fuel as [|f IH]; intros orb pert it r k H0; cbn [ls_loop].
    - destruct (qltb _ _); [destruct (qltb _ _); [|discriminate]|]; intros [= <- <-]; (split; [lia|]; split; [lia|]; split; [lra|auto]).
    - destruct (qltb (inject_Z it) max_iterations) eqn:Em.
      2:{ intros [= <- <-]. split; [lia|]. split; [lia|]. split; [lra|auto]. }
      destruct (qltb (rms orb) _). { intros [= <- <-]. split; [lia|]. split; [lia|]. split; [lra|auto]. }
      apply qltb_iff in Em.
      assert (Em' : (inject_Z (it + 1 - 1) < max_iterations)%Q) by (replace (it + 1 - 1)%Z with it by lia; auto).
      destruct (update orb pert) as [u|] eqn:Eu; [|discriminate]. cbn [bind]. cbv zeta.
      destruct (qltb (Qabs_ ((rms orb - rms u) / rms orb)) eps).
      + destruct (qltb (rms u) (rms orb)) eqn:E; qb; intros [= <- <-]; (split; [lia|]; split; [auto|]; split; [lra|auto]).
      + destruct (qltb (rms u) (rms orb)) eqn:E; qb.
        * intros H. apply IH in H as (K1 & K2 & K3); [|lia]. split; [lia|]. split.
          -- intros _. destruct (Z.eq_dec k (it + 1)) as [->|]; auto. apply K2. lia.
          -- destruct r as [w|]; [|lia]. destruct K3 as [K3 _]. split; [lra|right; lra].
        * destruct (qltb (1 # 10 ^ 12) pert) eqn:Ep; qb.
          -- intros H. apply IH in H as (K1 & K2 & K3); [|lia]. split; [lia|]. split.
             ++ intros _. destruct (Z.eq_dec k (it + 1)) as [->|]; auto. apply K2. lia.
             ++ destruct r as [w|]; [|lia]. exact K3.
          -- destruct (Z.ltb_spec 1 (it + 1)); intros [= <- <-]; (split; [lia|]; split; [auto|]).
             ++ split; [lra|auto].
             ++ split; [lia|]. split; [lia|]. exists u. auto.
  Qed.
  Lemma ls_fuel : forall fuel orb pert it, (0 <= it)%Z -> (max_iterations <= inject_Z (it + Z.of_nat fuel))%Q -> (forall o p, update o p <> Err StopFuel) ->
    loop fuel orb pert it <> Err StopFuel.
  Proof.
    induction fuel as [|f IH]; intros orb pert it H0 H Hu; cbn [ls_loop].
    - rewrite Z.add_0_r in H. destruct (qltb _ _) eqn:E; [|discriminate]. qb. lra.
    - destruct (qltb _ _); [|discriminate]. destruct (qltb _ _); [discriminate|].
      specialize (Hu orb pert) as Hu'. destruct (update orb pert); cbn [bind]; [|congruence]. cbv zeta.
      assert (Hs : (max_iterations <= inject_Z (it + 1 + Z.of_nat f))%Q) by (replace (it + 1 + Z.of_nat f)%Z with (it + Z.of_nat (S f))%Z by lia; auto).
      destruct (qltb _ eps), (qltb (rms _) (rms orb)); try discriminate; [apply IH; auto; lia|].
      destruct (qltb _ pert); [apply IH; auto; lia|discriminate].
  Qed.
End LsP.
