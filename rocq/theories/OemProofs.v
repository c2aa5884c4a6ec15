(* Proofs for OemModel. *)
From Coq Require Import String Ascii QArith Qround Lqa Lia Permutation Sorted.
From Verif Require Import Base ListLemmas TimeModel TimeSpec TimeProofs OemModel OemSpec.
Open Scope string_scope.
Open Scope Z_scope.
Open Scope list_scope.

Lemma assoc_In : forall k l v, assoc k l = Some v -> In (k, v) l.
Proof.
  induction l as [|[a b] l IH]; intros v H; cbn in H; [discriminate|].
  destruct (String.eqb k a) eqn:E; [apply String.eqb_eq in E; injection H as <-; subst; cbn; auto|cbn; auto].
Qed.
Lemma get_In : forall k l v, get k l = Ok v -> In (k, v) l.
Proof. unfold get. intros k l v H. destruct (assoc k l) eqn:E; [injection H as <-; apply assoc_In; auto|discriminate]. Qed.
Lemma get_err : forall k l e, get k l = Err e -> e = ValueError.
Proof. unfold get. intros k l e H. destruct (assoc k l); congruence. Qed.
Lemma upper_idem : forall s, upper (upper s) = upper s.
Proof.
  induction s as [|c s IH]; auto. cbn. rewrite IH. f_equal. destruct c as [[] [] [] [] [] [] [] []]; reflexivity.
Qed.

Lemma center_round : forall c o, adam_to_oem_center c = Ok o -> oem_to_adam_center o = Ok c.
Proof.
  intros c o H. apply get_In in H. cbn in H.
  repeat (destruct H as [H|H]; [injection H as <- <-; reflexivity|]). destruct H.
Qed.
Lemma center_round_back : forall o c, oem_to_adam_center o = Ok c -> adam_to_oem_center c = Ok (upper o).
Proof.
  intros o c H. apply get_In in H. cbn in H.
  repeat (destruct H as [H|H]; [injection H as E E2; rewrite <- E; subst c; reflexivity|]). destruct H.
Qed.
Lemma frame_round : forall f o, adam_to_oem_frame f = Ok o -> oem_to_adam_frame o = Ok f.
Proof.
  intros c o H. apply get_In in H. cbn in H.
  repeat (destruct H as [H|H]; [injection H as <- <-; reflexivity|]). destruct H.
Qed.
Lemma frame_round_back : forall o f, oem_to_adam_frame o = Ok f -> adam_to_oem_frame f = Ok o.
Proof.
  intros c o H. apply get_In in H. cbn in H.
  repeat (destruct H as [H|H]; [injection H as <- <-; reflexivity|]). destruct H.
Qed.

Section P.
Context {V C : Type}.
Variable rotate : string -> V -> V.
Variable rotate_cov : string -> C -> C.
Variables (km au : V -> V) (km_cov au_cov : C -> C).
Variable stamp : row -> row.
Variable name : string -> row -> string.
Notation turn := (turn rotate rotate_cov).
Notation orbit_to_oem := (orbit_to_oem rotate rotate_cov km km_cov stamp).

Lemma turn_time : forall f (s : state V C), s_time (turn f s) = s_time s. Proof. reflexivity. Qed.
Lemma insert_turn : forall f (s : state V C) l, insert time_leb (turn f s) (map (turn f) l) = map (turn f) (insert time_leb s l).
Proof.
  induction l as [|a l IH]; auto. cbn. unfold time_leb. rewrite !turn_time.
  destruct (_ || _); auto. cbn. f_equal. auto.
Qed.
Lemma sort_turn : forall f (l : list (state V C)), sort time_leb (map (turn f) l) = map (turn f) (sort time_leb l).
Proof. induction l as [|a l IH]; auto. cbn. rewrite IH. apply insert_turn. Qed.
Lemma time_leb_total : forall x y : state V C, time_leb x y = true \/ time_leb y x = true.
Proof. intros x y. unfold time_leb. lia. Qed.
Lemma time_leb_trans : forall x y z : state V C, time_leb x y = true -> time_leb y z = true -> time_leb x z = true.
Proof. intros x y z. unfold time_leb. lia. Qed.

Lemma opt_eqb_eq : forall a b, opt_eqb a b = true <-> a = b.
Proof.
  intros [a|] [b|]; cbn; try (split; congruence). rewrite String.eqb_eq. split; congruence.
Qed.
Lemma uniq_one : forall (l : list (option string)), List.length (uniq opt_eqb l) = 1%nat -> exists x, In x l /\ forall y, In y l -> y = x.
Proof.
  intros l H. destruct (uniq opt_eqb l) as [|x [|]] eqn:E; cbn in H; try discriminate. exists x. split.
  - apply (uniq_In opt_eqb opt_eqb_eq). rewrite E. cbn. auto.
  - intros y Hy. apply (uniq_In opt_eqb opt_eqb_eq) in Hy. rewrite E in Hy. destruct Hy as [<-|[]]. auto.
Qed.
Lemma uniq_same : forall (l : list (option string)) x, l <> [] -> (forall y, In y l -> y = x) -> List.length (uniq opt_eqb l) = 1%nat.
Proof.
  intros l x N H. pose proof (uniq_NoDup opt_eqb opt_eqb_eq l) as D.
  assert (I : forall y, In y (uniq opt_eqb l) -> y = x) by (intros y Hy; apply H, (uniq_In opt_eqb opt_eqb_eq); auto).
  destruct l as [|a l]; [congruence|].
  assert (Ha : In a (uniq opt_eqb (a :: l))) by (apply (uniq_In opt_eqb opt_eqb_eq); cbn; auto).
  destruct (uniq opt_eqb (a :: l)) as [|u [|v r]]; [destruct Ha|reflexivity|exfalso].
  rewrite (I u), (I v) in D by (cbn; auto). inversion D as [|? ? N1 _]. apply N1. cbn. auto.
Qed.

Lemma written : forall frame (os : list (state V C)) f, orbit_to_oem frame os = Ok f ->
  exists object s0, (forall s, In s os -> s_object s = Some object) /\
    hd_error (sort time_leb os) = Some s0 /\ f_object f = object /\ f_frame f = "EME2000" /\
    adam_to_oem_center (s_code s0) = Ok (f_center f) /\
    f_states f = map (fun s => (stamp (s_time s), km (rotate frame (s_vals s)))) (sort time_leb os) /\
    f_covs f = flat_map (fun s => match s_cov s with Some c => [(stamp (s_time s), ("EME2000", km_cov (rotate_cov frame c)))] | None => [] end) (sort time_leb os).
Proof.
  intros frame os f H. unfold OemModel.orbit_to_oem in H.
  destruct (List.length (uniq opt_eqb (map s_object os)) =? 1)%nat eqn:E1; cbn [negb] in H; [|discriminate].
  apply Nat.eqb_eq in E1. destruct (uniq_one _ E1) as [x [Hx U]].
  destruct (map s_object os) as [|[object|] r] eqn:E2; try discriminate.
  rewrite sort_turn in H. destruct (sort time_leb os) as [|s0 ss] eqn:E3; cbn [map] in H; [discriminate|].
  assert (F : adam_to_oem_frame "equatorial" = Ok "EME2000") by reflexivity. rewrite F in H. cbn [bind] in H.
  destruct (adam_to_oem_center (s_code (turn frame s0))) as [ce|] eqn:E4; cbn [bind] in H; [|discriminate].
  destruct (ts_min _) as [lo|]; cbn [bind] in H; [|discriminate].
  destruct (ts_max _) as [hi|]; cbn [bind] in H; [|discriminate].
  injection H as <-. exists object, s0. cbn [f_object f_frame f_center f_states f_covs hd_error].
  assert (OX : Some object = x) by (apply U; cbn; auto).
  split. { intros s Hs. rewrite (U (s_object s)); [auto|]. rewrite <- E2. apply in_map. auto. }
  split; [reflexivity|]. split; [reflexivity|]. split; [reflexivity|]. split; [exact E4|].
  split; [cbn [map]; f_equal; rewrite map_map; reflexivity|].
  cbn [flat_map]. rewrite !flat_map_concat_map, map_map. f_equal.
  - cbn. destruct (s_cov s0); auto.
  - f_equal. apply map_ext. intros s. cbn. destruct (s_cov s); auto.
Qed.

Lemma find_cov_last : forall (fr : string) t (cs : list (row * (string * C))) acc,
  fold_left (fun acc c => if row_eqb (fst c) t && String.eqb (fst (snd c)) fr then Some (au_cov (snd (snd c))) else acc) cs acc =
  match find (fun c => row_eqb (fst c) t && String.eqb (fst (snd c)) fr) (rev cs) with
  | Some c => Some (au_cov (snd (snd c))) | None => acc end.
Proof.
  induction cs as [|c cs IH]; intros acc; auto. cbn [fold_left rev]. rewrite IH.
  assert (F : forall p (l : list (row * (string * C))), find p (l ++ [c]) = match find p l with Some x => Some x | None => if p c then Some c else None end).
  { intros p. induction l as [|a l IHl]; cbn; auto. destruct (p a); auto. }
  rewrite F. destruct (find _ (rev cs)); auto. destruct (_ && _); auto.
Qed.
Lemma row_eqb_eq : forall a b, row_eqb a b = true <-> a = b.
Proof.
  intros [a1 a2] [b1 b2]. unfold row_eqb. cbn. rewrite Bool.andb_true_iff, !Z.eqb_eq. split; [intros [-> ->]; auto|intros E; injection E as -> ->; auto].
Qed.

(* the covariance found for a state is its own when stamped epochs are distinct *)
Lemma own_cov : forall (g : C -> C) (l : list (state V C)) s,
  NoDup (map (fun s => stamp (s_time s)) l) -> In s l ->
  find_cov au_cov "EME2000" (stamp (s_time s))
    (flat_map (fun s => match s_cov s with Some c => [(stamp (s_time s), ("EME2000", g c))] | None => [] end) l) =
  option_map (fun c => au_cov (g c)) (s_cov s).
Proof.
  intros g l s D Hs. unfold find_cov. rewrite find_cov_last.
  set (cs := flat_map _ l).
  assert (M : forall c, In c cs -> fst c = stamp (s_time s) -> exists k, s_cov s = Some k /\ snd (snd c) = g k).
  { intros c Hc Ec. apply in_flat_map in Hc. destruct Hc as [s' [Hs' Hc]].
    destruct (s_cov s') as [k|] eqn:Ek; [|destruct Hc]. destruct Hc as [<-|[]]. cbn in Ec.
    assert (s' = s).
    { clear - D Hs Hs' Ec. induction l as [|a l IH]; [destruct Hs|]. cbn in D. inversion D as [|? ? N D']; subst.
      destruct Hs as [<-|Hs], Hs' as [<-|Hs']; auto.
      - exfalso. apply N. rewrite <- Ec. apply in_map_iff. exists s'. auto.
      - exfalso. apply N. rewrite Ec. apply in_map_iff. exists s. auto. }
    subst s'. exists k. auto. }
  destruct (find _ (rev cs)) as [c|] eqn:E.
  - apply find_some in E. destruct E as [I B]. apply in_rev in I. apply Bool.andb_true_iff in B. destruct B as [B _].
    apply row_eqb_eq in B. destruct (M c I B) as [k [-> ->]]. reflexivity.
  - destruct (s_cov s) as [k|] eqn:Ek; auto. exfalso.
    pose proof (find_none _ _ E (stamp (s_time s), ("EME2000", g k))) as X. cbn [fst snd] in X.
    assert (I : In (stamp (s_time s), ("EME2000", g k)) (rev cs)).
    { rewrite <- in_rev. apply in_flat_map. exists s. split; auto. rewrite Ek. cbn. auto. }
    specialize (X I). rewrite (proj2 (row_eqb_eq _ _) eq_refl), String.eqb_refl in X. discriminate.
Qed.

Lemma write_ok : forall frame (os : list (state V C)) object code ce,
  os <> [] -> (forall s, In s os -> s_object s = Some object /\ s_code s = code /\ normal (s_time s)) ->
  adam_to_oem_center code = Ok ce ->
  exists f, orbit_to_oem frame os = Ok f.
Proof.
  intros frame os object code ce N A Hc. unfold OemModel.orbit_to_oem.
  rewrite (uniq_same (map s_object os) (Some object)); [|destruct os; cbn; congruence|].
  2:{ intros y Hy. apply in_map_iff in Hy. destruct Hy as [s [<- Hs]]. apply A. auto. }
  cbn [Nat.eqb negb]. destruct os as [|o os']; [congruence|]. cbn [map].
  destruct (A o (or_introl eq_refl)) as [Ao _]. rewrite Ao.
  change (turn frame o :: map (turn frame) os') with (map (turn frame) (o :: os')). rewrite sort_turn.
  assert (P : forall s, In s (sort time_leb (o :: os')) -> In s (o :: os')) by (intros s Hs; apply sort_In in Hs; auto).
  destruct (sort time_leb (o :: os')) as [|s0 ss] eqn:E.
  { pose proof (sort_length time_leb (o :: os')) as L. rewrite E in L. discriminate. }
  cbn [map]. assert (F : adam_to_oem_frame "equatorial" = Ok "EME2000") by reflexivity. rewrite F. cbn [bind].
  cbn [s_code OemModel.turn]. destruct (A s0 (P s0 (or_introl eq_refl))) as [_ [-> _]]. rewrite Hc. cbn [bind].
  set (ts := mkts _ _).
  assert (FN : Forall normal (rows ts)).
  { apply Forall_forall. intros r Hr. unfold ts in Hr. cbn [rows] in Hr.
    change (In r (map s_time (map (turn frame) (s0 :: ss)))) in Hr. rewrite map_map in Hr. apply in_map_iff in Hr.
    destruct Hr as [s [<- Hs]]. cbn. apply A. apply P. auto. }
  destruct (ts_min_spec ts) as [lo [-> _]]; [discriminate|auto|]. destruct (ts_max_spec ts) as [hi [-> _]]; [discriminate|auto|].
  cbn [bind]. eauto.
Qed.
End P.
