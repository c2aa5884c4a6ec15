From Verif Require Import Base TimeModel TimeSpec TimeProofs ListLemmas CacheModel CacheSpec.
From Coq Require Import String.
Local Notation S := Datatypes.S.
Open Scope Z_scope.
Open Scope list_scope.

(* ------------------------------------------------------------- LRU ---- *)
Section LruProofs.
  Context {K V : Type} (keqb : K -> K -> bool).
  Hypothesis keq : forall a b, keqb a b = true <-> a = b.

  Lemma keqb_refl k : keqb k k = true.
  Proof. now apply keq. Qed.
  Lemma keqb_false a b : keqb a b = false <-> a <> b.
  Proof. rewrite <- keq. destruct (keqb a b); split; congruence. Qed.

  Notation rem k l := (filter (fun x => negb (keqb k x)) l).

  Lemma rem_not_in k l : ~ In k l -> rem k l = l.
  Proof.
    induction l as [|x r IH]; cbn; auto. intros H.
    destruct (keqb k x) eqn:E. apply keq in E. subst. exfalso. auto.
    cbn. f_equal. auto.
  Qed.
  Lemma rem_In k l x : In x (rem k l) <-> In x l /\ x <> k.
  Proof.
    rewrite filter_In. split; intros [H1 H2]; split; auto.
    intros ->. rewrite keqb_refl in H2. discriminate.
    destruct (keqb k x) eqn:E; auto. apply keq in E. congruence.
  Qed.
  Lemma rem_NoDup k l : NoDup l -> NoDup (rem k l).
  Proof. apply NoDup_filter. Qed.

  Lemma rem_firstn k l m : NoDup l -> firstn m (rem k l) = firstn m (rem k (firstn (S m) l)).
  Proof.
    intros H. revert m. induction H as [|x r Hx Hr IH]; intros m. destruct m; reflexivity.
    cbn [firstn]. cbn [filter]. destruct (keqb k x) eqn:E; cbn [negb].
    - apply keq in E. subst. rewrite rem_not_in by auto.
      rewrite rem_not_in. rewrite firstn_firstn. now rewrite Nat.min_id.
      intros C. apply Hx. eapply In_firstn; eauto.
    - destruct m. reflexivity. cbn [firstn]. f_equal. apply IH.
  Qed.
  Lemma rem_firstn_in k l m : NoDup l -> In k (firstn (S m) l) -> firstn m (rem k l) = rem k (firstn (S m) l).
  Proof.
    intros H I. rewrite rem_firstn by auto. apply firstn_all2.
    assert (G : (S (List.length (rem k (firstn (S m) l))) <= S m)%nat); [|lia].
    apply Nat.le_trans with (List.length (firstn (S m) l)). 2: rewrite firstn_length; lia.
    revert I. generalize (firstn (S m) l). clear H l. induction l as [|x r IH]; cbn. easy.
    intros [->|I]. rewrite keqb_refl. cbn. apply le_n_S. apply filter_len.
    destruct (keqb k x); cbn. apply le_S. apply IH; auto. apply le_n_S. auto.
  Qed.

  (* od facts *)
  Lemma od_get_In (c : od K V) k v : od_get keqb c k = Some v -> In (k, v) c.
  Proof.
    induction c as [|[k' v'] r IH]; cbn. discriminate.
    destruct (keqb k k') eqn:E. apply keq in E. intros [= <-]. subst. auto. auto.
  Qed.
  Lemma od_get_None (c : od K V) k : od_get keqb c k = None <-> ~ In k (map fst c).
  Proof.
    induction c as [|[k' v'] r IH]; cbn. tauto.
    destruct (keqb k k') eqn:E. apply keq in E. subst. split. discriminate. tauto.
    apply keqb_false in E. rewrite IH. split; intros H; [intros [|]; auto|auto].
  Qed.
  Lemma od_get_Some (c : od K V) k v : NoDup (map fst c) -> In (k, v) c -> od_get keqb c k = Some v.
  Proof.
    induction c as [|[k' v'] r IH]; cbn. easy. intros N H. inversion N as [|? ? Hk Hr]; subst.
    destruct H as [H|H]. injection H as -> ->. now rewrite keqb_refl.
    destruct (keqb k k') eqn:E. apply keq in E. subst. exfalso. apply Hk. apply in_map_iff. exists (k', v). auto.
    auto.
  Qed.
  Lemma od_remove_fst (c : od K V) k : map fst (od_remove keqb c k) = rem k (map fst c).
  Proof.
    unfold od_remove. induction c as [|[k' v'] r IH]; cbn; auto.
    destruct (keqb k k'); cbn; auto. f_equal. auto.
  Qed.
  Lemma od_set_remove (c : od K V) k v : NoDup (map fst c) ->
    od_remove keqb (od_set keqb c k v) k = od_remove keqb c k /\ od_get keqb (od_set keqb c k v) k = Some v.
  Proof.
    unfold od_remove. induction c as [|[k' v'] r IH]; cbn; intros N.
    - rewrite keqb_refl. auto.
    - inversion N; subst. destruct (keqb k k') eqn:E; cbn; rewrite E; cbn; auto.
      destruct IH as [IH1 IH2]; auto. rewrite IH1. auto.
  Qed.
  Lemma lru_put_list (c : od K V) m k v : NoDup (map fst c) ->
    lru_put keqb m c k v = if m <=? 0 then c else evict m (od_remove keqb c k ++ [(k, v)]).
  Proof.
    intros N. unfold lru_put, move_to_end. destruct (m <=? 0); auto.
    destruct (od_set_remove c k v N) as [E1 E2]. now rewrite E1, E2.
  Qed.
  Lemma evict_skip (c : od K V) m : 0 < m -> evict m c = skipn (List.length c - Z.to_nat m) c.
  Proof.
    intros H. induction c as [|x r IH]. reflexivity.
    cbn [evict]. destruct (Z.ltb_spec m (Z.of_nat (List.length (x :: r)))).
    - rewrite IH. cbn [List.length] in *. replace (S (List.length r) - Z.to_nat m)%nat with (S (List.length r - Z.to_nat m)) by lia. reflexivity.
    - replace (List.length (x :: r) - Z.to_nat m)%nat with 0%nat by lia. reflexivity.
  Qed.
  Lemma skipn_rev_firstn {A} (l : list A) n : rev (skipn (List.length l - n) l) = firstn n (rev l).
  Proof. rewrite firstn_rev. reflexivity. Qed.

  (* the invariant tying the cache to the trace *)
  Definition lru_inv (m : Z) (tr : list (lru_op K V * option V)) (c : od K V) : Prop :=
    NoDup (map fst c) /\ NoDup (recent keqb tr) /\
    rev (map fst c) = firstn (Z.to_nat m) (recent keqb tr) /\
    (forall k v, In (k, v) c -> last_put keqb tr k = Some v).

  Lemma recent_snoc (tr : list (lru_op K V * option V)) e : recent keqb (tr ++ [e]) = recent_step keqb (recent keqb tr) e.
  Proof. unfold recent. now rewrite fold_left_app. Qed.
  Lemma last_put_snoc (tr : list (lru_op K V * option V)) e k : last_put keqb (tr ++ [e]) k = put_step keqb k (last_put keqb tr k) e.
  Proof. unfold last_put. now rewrite fold_left_app. Qed.

  Lemma od_get_spec m tr c k : lru_inv m tr c -> 
    od_get keqb c k = expected_get keqb (Z.to_nat m) tr k.
  Proof.
    intros (N & _ & R & L). unfold expected_get. rewrite <- R.
    destruct (existsb (keqb k) (rev (map fst c))) eqn:E.
    - apply existsb_exists in E. destruct E as (k' & I & E). apply keq in E. subst k'.
      apply in_rev in I. apply in_map_iff in I. destruct I as ([k2 v] & Ek & I). cbn in Ek. subst.
      rewrite (L k v I). now apply od_get_Some.
    - apply od_get_None. intros C. assert (existsb (keqb k) (rev (map fst c)) = true); [|congruence].
      apply existsb_exists. exists k. split. now apply -> in_rev. apply keqb_refl.
  Qed.

  Lemma lru_step_inv m tr c o : lru_inv m tr c ->
    let '(x, c') := lru_step keqb m c o in
    lru_inv m (tr ++ [(o, x)]) c' /\
    match o with Get k => x = expected_get keqb (Z.to_nat m) tr k | Put _ _ => x = None end.
  Proof.
    intros I. pose proof (fun k => od_get_spec m tr c k I) as G.
    destruct I as (N & NR & R & L).
    destruct o as [k|k v]; cbn [lru_step].
    - unfold lru_get. specialize (G k). destruct (Z.leb_spec m 0) as [Hm|Hm].
      + assert (E : expected_get keqb (Z.to_nat m) tr k = None).
        { unfold expected_get. replace (Z.to_nat m) with 0%nat by lia. reflexivity. }
        split; [|now rewrite E]. unfold lru_inv. rewrite recent_snoc. cbn.
        repeat split; auto. intros k0 v0 H. rewrite last_put_snoc. cbn. auto.
      + destruct (od_get keqb c k) as [v|] eqn:Ek.
        * split; [|auto]. unfold move_to_end. rewrite Ek.
          assert (Ik : In k (firstn (Z.to_nat m) (recent keqb tr))).
          { rewrite <- R. apply -> in_rev. apply in_map_iff. exists (k, v). split; auto. now apply od_get_In. }
          unfold lru_inv. rewrite recent_snoc. unfold recent_step, used.
          rewrite map_app, od_remove_fst. cbn [map fst].
          repeat split.
          -- apply NoDup_app_snoc. now apply rem_NoDup. rewrite rem_In. tauto.
          -- constructor. rewrite rem_In. tauto. now apply rem_NoDup.
          -- rewrite rev_app_distr. cbn [rev app].
             replace (Z.to_nat m) with (S (Z.to_nat m - 1)) in * by lia. cbn [firstn]. f_equal.
             rewrite rem_firstn_in by auto. rewrite <- R. now rewrite filter_rev_.
          -- intros k0 v0 H. rewrite last_put_snoc. cbn. apply in_app_or in H. destruct H as [H|H].
             apply filter_In in H. apply L. tauto.
             destruct H as [H|[]]. injection H as <- <-. apply L. now apply od_get_In.
        * split; [|auto]. unfold lru_inv. rewrite recent_snoc. cbn.
          repeat split; auto. intros k0 v0 H. rewrite last_put_snoc. cbn. auto.
    - split; [|auto]. rewrite lru_put_list by auto. unfold lru_inv. rewrite recent_snoc. unfold recent_step, used.
      destruct (Z.leb_spec m 0) as [Hm|Hm].
      + replace (Z.to_nat m) with 0%nat in * by lia. cbn [firstn] in *.
        assert (c = []). { destruct c; auto. cbn in R. symmetry in R. apply app_cons_not_nil in R. easy. }
        subst c. repeat split; auto. constructor. rewrite rem_In. tauto. now apply rem_NoDup. easy.
      + rewrite evict_skip by auto.
        set (c1 := od_remove keqb c k ++ [(k, v)]).
        assert (N1 : NoDup (map fst c1)).
        { unfold c1. rewrite map_app, od_remove_fst. apply NoDup_app_snoc. now apply rem_NoDup. rewrite rem_In. tauto. }
        assert (M : map fst (skipn (List.length c1 - Z.to_nat m) c1) = skipn (List.length (map fst c1) - Z.to_nat m) (map fst c1)).
        { rewrite map_length. now rewrite skipn_map_. }
        rewrite M. repeat split.
        * eapply NoDup_skipn; auto.
        * constructor. rewrite rem_In. tauto. now apply rem_NoDup.
        * rewrite skipn_rev_firstn. unfold c1. rewrite map_app, od_remove_fst. cbn [map fst].
          rewrite rev_app_distr. cbn [rev app].
          replace (Z.to_nat m) with (S (Z.to_nat m - 1)) in * by lia. cbn [firstn]. f_equal.
          rewrite <- filter_rev_, R. destruct (Z.to_nat m - 1)%nat eqn:Em. reflexivity. rewrite <- Em in *. symmetry. now apply rem_firstn.
        * intros k0 v0 H. rewrite last_put_snoc. cbn. apply In_skipn in H.
          unfold c1 in H. apply in_app_or in H. destruct H as [H|H].
          -- apply filter_In in H. cbn in H. destruct H as [H1 H2].
             destruct (keqb k0 k) eqn:E. apply keq in E. subst. rewrite keqb_refl in H2. discriminate. auto.
          -- destruct H as [H|[]]. injection H as <- <-. now rewrite keqb_refl.
  Qed.

  Lemma lru_run_gen m : forall ops tr c, lru_inv m tr c ->
    let '(outs, c') := lru_run keqb m c ops in
    List.length outs = List.length ops /\ lru_inv m (tr ++ combine ops outs) c' /\
    (forall i k, nth_error ops i = Some (Get k) ->
       nth_error outs i = Some (expected_get keqb (Z.to_nat m) (tr ++ firstn i (combine ops outs)) k)) /\
    (forall i k v, nth_error ops i = Some (Put k v) -> nth_error outs i = Some None).
  Proof.
    induction ops as [|o r IH]; intros tr c I; cbn [lru_run].
    - cbn. rewrite app_nil_r. split; [reflexivity|]. split; [exact I|].
      split; intros [|i]; discriminate.
    - pose proof (lru_step_inv m tr c o I) as P. destruct (lru_step keqb m c o) as [x c1].
      destruct P as [I1 Hx]. specialize (IH _ _ I1). destruct (lru_run keqb m c1 r) as [xs c2].
      destruct IH as (L & I2 & G & Pu). cbn [List.length combine]. rewrite <- app_assoc in I2. cbn [app] in I2.
      split; [lia|]. split; [exact I2|]. split.
      + intros [|i] k H; cbn [nth_error firstn] in *.
        * injection H as ->. rewrite app_nil_r. now subst.
        * rewrite (G i k H). now rewrite <- app_assoc.
      + intros [|i] k v H; cbn [nth_error] in *.
        * injection H as ->. now subst.
        * eapply Pu; eauto.
  Qed.

  Lemma lru_inv_nil m : lru_inv m [] ([] : od K V).
  Proof. repeat split; try constructor. cbn. now rewrite firstn_nil. easy. Qed.

  Lemma lru_trace m (ops : list (lru_op K V)) : let '(outs, c) := lru_run keqb m [] ops in
    List.length outs = List.length ops /\
    (forall i k, nth_error ops i = Some (Get k) ->
       nth_error outs i = Some (expected_get keqb (Z.to_nat m) (firstn i (combine ops outs)) k)) /\
    rev (map fst c) = firstn (Z.to_nat m) (recent keqb (combine ops outs)) /\
    NoDup (map fst c) /\ Z.of_nat (List.length c) <= Z.max 0 m.
  Proof.
    pose proof (lru_run_gen m ops [] [] (lru_inv_nil m)) as P.
    destruct (lru_run keqb m [] ops) as [outs c]. destruct P as (L & (N & _ & R & _) & G & _).
    repeat split; auto.
    apply (f_equal (@List.length K)) in R. rewrite rev_length, map_length, firstn_length in R. cbn in R. lia.
  Qed.

  (* ---- entries only come from puts ---- *)
  Lemma lru_get_sub m (c : od K V) k : forall x, In x (snd (lru_get keqb m c k)) -> In x c.
  Proof.
    unfold lru_get. destruct (m <=? 0); auto. destruct (od_get keqb c k) eqn:E; auto.
    cbn [snd]. unfold move_to_end. rewrite E. intros x H. apply in_app_or in H. destruct H as [H|[<-|[]]].
    apply filter_In in H. tauto. now apply od_get_In.
  Qed.
  Lemma lru_get_In m (c : od K V) k v : fst (lru_get keqb m c k) = Some v -> In (k, v) c.
  Proof.
    unfold lru_get. destruct (m <=? 0). discriminate. destruct (od_get keqb c k) eqn:E; cbn. 2: discriminate.
    intros [= <-]. now apply od_get_In.
  Qed.
  Lemma od_set_sub (c : od K V) k v x : In x (od_set keqb c k v) -> x = (k, v) \/ In x c.
  Proof.
    induction c as [|[k' v'] r IH]; cbn. intuition. destruct (keqb k k') eqn:E; cbn; intuition.
    apply keq in E. subst. auto.
  Qed.
  Lemma evict_sub m (c : od K V) x : In x (evict m c) -> In x c.
  Proof.
    induction c as [|y r IH]. easy. cbn [evict]. destruct (m <? _). intros H. right. auto. auto.
  Qed.
  Lemma lru_put_sub m (c : od K V) k v x : In x (lru_put keqb m c k v) -> x = (k, v) \/ In x c.
  Proof.
    unfold lru_put. destruct (m <=? 0); auto. intros H. apply evict_sub in H. unfold move_to_end in H.
    destruct (od_get keqb (od_set keqb c k v) k) eqn:E.
    - apply in_app_or in H. destruct H as [H|[<-|[]]].
      apply filter_In in H. eapply od_set_sub. apply H. eapply od_set_sub. now apply od_get_In.
    - now eapply od_set_sub.
  Qed.
End LruProofs.

(* ------------------------------------------------------------- SPKEZ ---- *)
Lemma spk_keq a b : spk_keqb a b = true <-> a = b.
Proof.
  destruct a, b. unfold spk_keqb. cbn. rewrite !andb_true_iff, !Z.eqb_eq, String.eqb_eq.
  split. intros [[[[-> ->] ->] ->] ->]. reflexivity. intros [= -> -> -> -> ->]. auto.
Qed.

Lemma epoch_key_inj a b : epoch_ok a -> epoch_ok b -> key_row a = key_row b -> a = b.
Proof.
  intros [Na Ia] [Nb Ib] E. apply instant_inj; auto. apply key_eq_iff in E. destruct E as [k E].
  unfold in_int64 in *. lia.
Qed.

Section SpkProofs.
  Context {St : Type} (neg : St -> St) (spk : Z -> Z -> string -> row -> St).
  Variable maxsize : Z.
  Hypothesis anti : forall a b f r, spk b a f r = neg (spk a b f r).

  Definition spk_valid (c : @spk_cache St) : Prop :=
    forall k s, In (k, s) c -> s = spk (k_target k) (k_observer k) (k_frame k) (mkrow (k_days k) (k_nanos k)).

  Lemma mkrow_eta r : mkrow (days r) (nanos r) = r.
  Proof. now destruct r. Qed.

  Lemma spk_lookup_ok c t o f r : spk_valid c ->
    let '(s, c') := spk_lookup neg spk maxsize c t o f r in s = spk t o f r /\ spk_valid c'.
  Proof.
    intros V. unfold spk_lookup.
    set (key := mkspk t o f (days r) (nanos r)). set (rk := mkspk o t f (days r) (nanos r)).
    pose proof (lru_get_In spk_keqb spk_keq maxsize c key) as G1.
    pose proof (lru_get_sub spk_keqb spk_keq maxsize c key) as S1.
    destruct (lru_get spk_keqb maxsize c key) as [[s|] c1]; cbn [fst snd] in *.
    - split. apply (V key s) in G1; auto. cbn in G1. now rewrite mkrow_eta in G1.
      intros k s' H. apply V. auto.
    - assert (V1 : spk_valid c1) by (intros k s' H; apply V; auto).
      pose proof (lru_get_In spk_keqb spk_keq maxsize c1 rk) as G2.
      pose proof (lru_get_sub spk_keqb spk_keq maxsize c1 rk) as S2.
      destruct (lru_get spk_keqb maxsize c1 rk) as [[s|] c2]; cbn [fst snd] in *.
      + assert (Es : s = spk o t f r). { specialize (G2 s eq_refl). apply V1 in G2. cbn in G2. now rewrite mkrow_eta in G2. }
        assert (En : neg s = spk t o f r). { subst. symmetry. apply anti. }
        split; auto. intros k s' H. apply lru_put_sub in H; [|exact spk_keq]. destruct H as [H|H].
        injection H as -> ->. cbn. now rewrite mkrow_eta. apply V1. auto.
      + split; auto. intros k s' H. apply lru_put_sub in H; [|exact spk_keq]. destruct H as [H|H].
        injection H as -> ->. cbn. rewrite mkrow_eta. symmetry. apply anti.
        apply lru_put_sub in H; [|exact spk_keq]. destruct H as [H|H].
        injection H as -> ->. cbn. now rewrite mkrow_eta. apply V1. auto.
  Qed.

  Lemma spk_loop_ok l : forall c t o f, spk_valid c ->
    let '(ss, c') := spk_loop neg spk maxsize c t o f l in
    ss = map (fun p => (fst p, spk t o f (snd p))) l /\ spk_valid c'.
  Proof.
    induction l as [|[k r] l IH]; intros c t o f V; cbn. auto.
    pose proof (spk_lookup_ok c t o f r V) as P. destruct (spk_lookup neg spk maxsize c t o f r) as [s c1].
    destruct P as [-> V1]. specialize (IH c1 t o f V1). destruct (spk_loop neg spk maxsize c1 t o f l) as [ss c2].
    destruct IH as [-> V2]. auto.
  Qed.

  Lemma reps_find rs k : (exists r, In r rs /\ key_row r = k) ->
    exists r0, first_row rs k = Some r0 /\ find (fun p => fst p =? k) (reps rs) = Some (k, r0).
  Proof.
    intros (r & I & E). 
    destruct (find_some_iff (fun r => key_row r =? k) rs) as [r0 F]. exists r. split; auto. now apply Z.eqb_eq.
    exists r0. split. exact F. unfold reps.
    assert (M : In k (sort Z.leb (uniq Z.eqb (map key_row rs)))).
    { apply sort_In. apply uniq_In. apply Z.eqb_eq. apply in_map_iff. eauto. }
    revert M. generalize (sort Z.leb (uniq Z.eqb (map key_row rs))). intros l.
    induction l as [|k' l IH]; cbn [flat_map]. easy. intros M.
    destruct (Z.eq_dec k' k) as [->|Ne].
    - unfold first_row. rewrite F. cbn. now rewrite Z.eqb_refl.
    - destruct M as [M|M]; [congruence|]. destruct (first_row rs k') eqn:Fk; cbn.
      + apply Z.eqb_neq in Ne. rewrite Ne. auto.
      + auto.
  Qed.

  Lemma gps_ok c t rs fr o : spk_valid c -> Forall epoch_ok rs ->
    let '(res, c') := get_perturber_state neg spk maxsize c t rs fr o in
    res = expected_states spk t rs fr o /\ spk_valid c'.
  Proof.
    intros V E. unfold get_perturber_state.
    assert (H : forall f, let '(us, c1) := spk_loop neg spk maxsize c t o f (reps rs) in
      mapM (fun r => match assoc_z (key_row r) us with Some s => Ok s | None => Err IndexError end) rs
        = Ok (map (spk t o f) rs) /\ spk_valid c1).
    { intros f. pose proof (spk_loop_ok (reps rs) c t o f V) as P.
      destruct (spk_loop neg spk maxsize c t o f (reps rs)) as [us c1]. destruct P as [-> V1]. split; auto.
      set (us := map _ (reps rs)).
      assert (G : forall l, (forall r, In r l -> In r rs) ->
        mapM (fun r => match assoc_z (key_row r) us with Some s => Ok s | None => Err IndexError end) l = Ok (map (spk t o f) l)).
      { induction l as [|r l IH]; intros Hl; cbn. reflexivity.
        destruct (reps_find rs (key_row r)) as (r0 & F & Fr). exists r. split; auto. apply Hl; now left.
        assert (Er : r0 = r).
        { apply find_some in F. destruct F as [F1 F2]. apply Z.eqb_eq in F2.
          rewrite Forall_forall in E. apply epoch_key_inj; auto. apply E. apply Hl. now left. }
        subst r0.
        assert (As : assoc_z (key_row r) us = Some (spk t o f r)).
        { unfold assoc_z, us. revert Fr. generalize (reps rs). clear. induction l as [|[k x] l IH]; cbn. discriminate.
          destruct (k =? key_row r). intros [= -> ->]. reflexivity. exact IH. }
        rewrite As. cbn. rewrite IH. reflexivity. intros; apply Hl; now right. }
      apply G. auto. }
    unfold spice_frame, expected_states.
    destruct (String.eqb fr "ecliptic"); [|destruct (String.eqb fr "equatorial"); [|destruct (String.eqb fr "itrf93")]];
    try (match goal with |- context [spk_loop _ _ _ _ _ _ ?f _] => specialize (H f) end;
         destruct (spk_loop neg spk maxsize c t o _ (reps rs)) as [us c1]; destruct H as [H V1]; split; [exact H|exact V1]).
    auto.
  Qed.
End SpkProofs.

Section SessionProofs.
  Context {St : Type} (neg : St -> St) (spk : list string -> Z -> Z -> string -> row -> St).
  Variable maxsize : Z.
  Hypothesis anti : forall p a b f r, spk p b a f r = neg (spk p a b f r).

  Lemma spice_run_ok pool : forall ops c, spk_valid (spk pool) c ->
    Forall no_pool_change ops -> Forall op_ok ops ->
    let '(outs, st) := spice_run neg spk maxsize (c, pool) ops in
    outs = map (op_expected spk pool) ops /\ snd st = pool /\ spk_valid (spk pool) (fst st).
  Proof.
    induction ops as [|o ops IH]; intros c V NP OK; cbn [spice_run].
    - cbn. auto.
    - inversion NP as [|? ? N1 N2]; subst. inversion OK as [|? ? O1 O2]; subst.
      destruct o as [t rs f og| |k|k]; cbn [spice_step]; try easy.
      + pose proof (gps_ok neg (spk pool) maxsize (anti pool) c t rs f og V O1) as P.
        destruct (get_perturber_state neg (spk pool) maxsize c t rs f og) as [res c1]. destruct P as [-> V1].
        specialize (IH c1 V1 N2 O2). destruct (spice_run neg spk maxsize (c1, pool) ops) as [outs st].
        destruct IH as (-> & E & V2). auto.
      + assert (V0 : spk_valid (spk pool) []) by (intros k s []).
        specialize (IH [] V0 N2 O2). unfold spice_state, spk_cache, od in *. destruct (spice_run neg spk maxsize ([], pool) ops) as [outs st].
        destruct IH as (-> & E & V2). auto.
  Qed.

  Lemma spice_run_app st ops1 ops2 :
    spice_run neg spk maxsize st (ops1 ++ ops2) =
    (let '(o1, s1) := spice_run neg spk maxsize st ops1 in
     let '(o2, s2) := spice_run neg spk maxsize s1 ops2 in (o1 ++ o2, s2)).
  Proof.
    revert st. induction ops1 as [|o ops1 IH]; intros st; cbn.
    - destruct (spice_run neg spk maxsize st ops2); reflexivity.
    - destruct (spice_step neg spk maxsize st o) as [x s1]. rewrite IH.
      destruct (spice_run neg spk maxsize s1 ops1) as [o1 s2].
      destruct (spice_run neg spk maxsize s2 ops2) as [o2 s3]. reflexivity.
  Qed.

  Lemma spice_run_pool : forall ops c p,
    snd (snd (spice_run neg spk maxsize (c, p) ops)) = fold_left pool_step ops p.
  Proof.
    induction ops as [|o ops IH]; intros c p; cbn [spice_run fold_left]. reflexivity.
    destruct o as [t rs f og| |k|k]; cbn [spice_step pool_step].
    - destruct (get_perturber_state neg (spk p) maxsize c t rs f og) as [r c1]. specialize (IH c1 p).
      destruct (spice_run neg spk maxsize (c1, p) ops). exact IH.
    - specialize (IH [] p). unfold spice_state, spk_cache, od in *. destruct (spice_run neg spk maxsize ([], p) ops). exact IH.
    - specialize (IH c (pool_step p (Register k))). cbn in IH. unfold pool_has.
      destruct (spice_run neg spk maxsize (c, _) ops). exact IH.
    - specialize (IH c (pool_step p (Unregister k))). cbn in IH.
      destruct (spice_run neg spk maxsize (c, _) ops). exact IH.
  Qed.

  Lemma after_clear_ok : forall ops1 ops2 c p,
    Forall no_pool_change ops2 -> Forall op_ok ops2 ->
    skipn (Datatypes.S (List.length ops1)) (fst (spice_run neg spk maxsize (c, p) (ops1 ++ ClearCache :: ops2)))
    = map (op_expected spk (fold_left pool_step ops1 p)) ops2.
  Proof.
    intros ops1 ops2 c p NP OK. rewrite spice_run_app.
    pose proof (spice_run_pool ops1 c p) as Pp.
    assert (L : forall ops st, List.length (fst (spice_run neg spk maxsize st ops)) = List.length ops).
    { induction ops as [|o ops IH]; intros st; cbn [spice_run]. reflexivity.
      destruct (spice_step neg spk maxsize st o) as [x s1]. specialize (IH s1).
      destruct (spice_run neg spk maxsize s1 ops). cbn in *. lia. }
    specialize (L ops1 (c, p)).
    destruct (spice_run neg spk maxsize (c, p) ops1) as [o1 [c1 p1]]. cbn in Pp, L. subst p1.
    cbn [spice_run spice_step].
    assert (V0 : spk_valid (spk (fold_left pool_step ops1 p)) []) by (intros k s []).
    pose proof (spice_run_ok _ ops2 [] V0 NP OK) as P. unfold spice_state, spk_cache, od in *.
    destruct (spice_run neg spk maxsize ([], _) ops2) as [o2 s2]. destruct P as (-> & _ & _).
    cbn [fst]. rewrite <- L. rewrite skipn_app.
    rewrite skipn_all2 by lia. replace (Datatypes.S (List.length o1) - List.length o1)%nat with 1%nat by lia. reflexivity.
  Qed.
End SessionProofs.

(* ----------------------------------------------------- time-based keys ---- *)
Lemma tkey_eq a b : tkey_eqb a b = true <-> a = b.
Proof.
  destruct a as [[[[[[a1 a2] a3] a4] a5] a6] a7], b as [[[[[[b1 b2] b3] b4] b5] b6] b7]. cbn.
  rewrite !andb_true_iff, !String.eqb_eq, !Z.eqb_eq. split.
  - intros [[[[[[-> ->] ->] ->] ->] ->] ->]. reflexivity.
  - intros [= -> -> -> -> -> -> ->]. intuition.
Qed.

Lemma map_key_inj l : forall l', Forall epoch_ok l -> Forall epoch_ok l' ->
  map key_row l = map key_row l' -> l = l'.
Proof.
  induction l as [|a l IH]; intros [|b l'] H H' E; try discriminate. reflexivity.
  injection E as E1 E2. inversion H; inversion H'; subst. f_equal; auto. apply epoch_key_inj; auto.
Qed.

Lemma time_key_inj digest (P : list row -> Prop) : digest_separates digest P ->
  forall a1 a2 a3 l b1 b2 b3 l', P l -> P l' -> Forall epoch_ok l -> Forall epoch_ok l' ->
  time_key digest a1 a2 a3 l = time_key digest b1 b2 b3 l' -> a1 = b1 /\ a2 = b2 /\ a3 = b3 /\ l = l'.
Proof.
  intros D a1 a2 a3 l b1 b2 b3 l' Pl Pl' E E' H. unfold time_key, signature in H. cbn [rows] in H.
  destruct l as [|x l], l' as [|y l']; cbn [map] in H.
  - injection H as -> -> ->. auto.
  - injection H as -> -> -> H _ _. cbn [List.length] in H. lia.
  - injection H as -> -> -> H _ _. cbn [List.length] in H. lia.
  - assert (Hd : digest (map key_row (x :: l)) = digest (map key_row (y :: l'))) by (cbn [map]; congruence).
    assert (a1 = b1 /\ a2 = b2 /\ a3 = b3) as (-> & -> & ->) by (injection H; auto).
    apply D in Hd; auto. apply map_key_inj in Hd; auto.
Qed.

Lemma spice_frame_known f : (exists s, spice_frame f = Ok s) <-> known_frame f.
Proof.
  unfold spice_frame, known_frame.
  destruct (String.eqb f "ecliptic") eqn:E1; [apply String.eqb_eq in E1; subst; split; eauto|].
  destruct (String.eqb f "equatorial") eqn:E2; [apply String.eqb_eq in E2; subst; split; eauto|].
  destruct (String.eqb f "itrf93") eqn:E3; [apply String.eqb_eq in E3; subst; split; eauto|].
  apply String.eqb_neq in E1, E2, E3. split. intros [s H]. discriminate. intuition.
Qed.
Lemma spice_frame_err f e : spice_frame f = Err e -> e = ValueError /\ ~ known_frame f.
Proof.
  intros H. split. unfold spice_frame in H.
  repeat (destruct (String.eqb f _); [discriminate|]). congruence.
  intros K. apply spice_frame_known in K. destruct K as [s K]. congruence.
Qed.

Section ObsProofs.
  Context {St : Type}.
  Variable digest : list Z -> Z.
  Variable tdb : timestamp -> list row.
  Variable table : string -> option bool.
  Variable site : string -> string -> string -> row -> St.
  Variable maxsize : Z.
  Variable P : list row -> Prop.
  Hypothesis D : digest_separates digest P.

  Definition obs_valid (c : @obs_cache St) : Prop :=
    forall k r, In (k, r) c -> exists code t f og,
      k = time_key digest code f og (tdb t) /\ r = fresh_observer tdb site code t f og /\
      Forall epoch_ok (tdb t) /\ List.length (tdb t) = List.length (rows t) /\ P (tdb t).

  Lemma obs_step_ok c o : obs_valid c -> obs_in tdb P o ->
    let '(x, c') := obs_step digest tdb table site maxsize c o in
    obs_correct tdb table site o x /\ obs_valid c'.
  Proof.
    intros V I. destruct o as [code t f og|]; cbn [obs_step].
    2:{ split. exact Logic.I. intros k r []. }
    destruct I as (E & L & Pt). unfold mpc_observer_state.
    destruct (spice_frame f) as [fs|e] eqn:Fr.
    2:{ apply spice_frame_err in Fr. cbn. intuition. }
    assert (KF : known_frame f) by (apply spice_frame_known; eauto).
    destruct (table code) as [[|]|] eqn:T; cbn [obs_correct];
      try (split; [split; [reflexivity|right; rewrite T; discriminate]|exact V]).
    set (key := time_key digest code f og (tdb t)).
    pose proof (lru_get_In tkey_eqb tkey_eq maxsize c key) as G.
    pose proof (lru_get_sub tkey_eqb tkey_eq maxsize c key) as Sb.
    destruct (lru_get tkey_eqb maxsize c key) as [[r|] c1]; cbn [fst snd] in *.
    - split.
      2:{ intros k r' H. apply V. auto. }
      destruct (V key r (G r eq_refl)) as (code' & t' & f' & og' & Ek & -> & E' & L' & Pt').
      unfold key in Ek. apply (time_key_inj digest P D) in Ek; auto. destruct Ek as (<- & <- & <- & Et).
      cbn [obs_correct]. unfold fresh_observer. cbn. rewrite <- Et, <- L, Et, L'. intuition congruence.
    - assert (V1 : obs_valid c1) by (intros k r' H; apply V; auto).
      assert (C : obs_correct tdb table site (ObsQuery code t f og) (Some (Ok (fresh_observer tdb site code t f og)))).
      { cbn. intuition. }
      assert (V2 : obs_valid (lru_put tkey_eqb maxsize c1 key (fresh_observer tdb site code t f og))).
      { intros k r' H. apply lru_put_sub in H; [|exact tkey_eq]. destruct H as [H|H].
        injection H as -> ->. exists code, t, f, og. auto. auto. }
      destruct (String.eqb f "itrf93"); [|destruct (String.eqb code "500")]; auto.
  Qed.

  Lemma obs_run_ok : forall ops c, obs_valid c -> Forall (obs_in tdb P) ops ->
    Forall2 (obs_correct tdb table site) ops (fst (obs_run digest tdb table site maxsize c ops)).
  Proof.
    induction ops as [|o ops IH]; intros c V I; cbn [obs_run]. constructor.
    inversion I as [|? ? I1 I2]; subst. pose proof (obs_step_ok c o V I1) as S1.
    destruct (obs_step digest tdb table site maxsize c o) as [x c1]. destruct S1 as [C V1].
    specialize (IH c1 V1 I2). destruct (obs_run digest tdb table site maxsize c1 ops). cbn in *. constructor; auto.
  Qed.
End ObsProofs.

(* the time column of a repeated query is the one of the first caller *)
Lemma obs_first_time {St} digest tdb table (site : string -> string -> string -> row -> St) maxsize code f og t1 t2 :
  1 <= maxsize -> known_frame f -> table code = Some true -> code <> "500"%string -> tdb t1 = tdb t2 ->
  exists r, nth_error (fst (obs_run digest tdb table site maxsize [] [ObsQuery code t1 f og; ObsQuery code t2 f og])) 1
            = Some (Some (Ok r)) /\ c_time r = t1.
Proof.
  intros M KF T C E. cbn [obs_run obs_step]. unfold mpc_observer_state.
  destruct (proj2 (spice_frame_known f) KF) as [s ->]. rewrite T.
  assert (G : lru_get tkey_eqb maxsize ([] : od tkey (coords St)) (time_key digest code f og (tdb t1)) = (None, [])).
  { unfold lru_get. now destruct (maxsize <=? 0). }
  rewrite G. apply String.eqb_neq in C. rewrite C.
  set (key := time_key digest code f og (tdb t1)).
  assert (Pt : lru_put tkey_eqb maxsize [] key (fresh_observer tdb site code t1 f og) = [(key, fresh_observer tdb site code t1 f og)]).
  { unfold lru_put. destruct (Z.leb_spec maxsize 0); [lia|]. cbn [od_set]. unfold move_to_end. cbn [od_get].
    rewrite (proj2 (tkey_eq key key) eq_refl). unfold od_remove. cbn [filter fst].
    rewrite (proj2 (tkey_eq key key) eq_refl). cbn [negb app evict List.length].
    destruct (Z.ltb_spec maxsize (Z.of_nat 1)); [lia|]. reflexivity. }
  assert (Q : forall b : bool, (if b then (Ok (fresh_observer tdb site code t1 f og), lru_put tkey_eqb maxsize [] key (fresh_observer tdb site code t1 f og))
     else (Ok (fresh_observer tdb site code t1 f og), lru_put tkey_eqb maxsize [] key (fresh_observer tdb site code t1 f og)))
     = (Ok (fresh_observer tdb site code t1 f og), [(key, fresh_observer tdb site code t1 f og)])).
  { intros []; now rewrite Pt. }
  rewrite Q. rewrite <- E. fold key. unfold lru_get. destruct (Z.leb_spec maxsize 0); [lia|]. cbn [od_get].
  rewrite (proj2 (tkey_eq key key) eq_refl). cbn. eexists. split. reflexivity. reflexivity.
Qed.

(* -------------------------------------------------- origin translation ---- *)
Lemma apply_mask_map {A B} (f : A -> bool) (g : A -> B) l :
  apply_mask (map f l) (map g l) = map g (filter f l).
Proof.
  unfold apply_mask. induction l as [|x l IH]; cbn. reflexivity. destruct (f x); cbn; now rewrite ?IH.
Qed.
Lemma scatter_map {A B} (f : A -> bool) (h : A -> option B) (g : A -> B) l :
  scatter (map f l) (map h l) (map g (filter f l)) = map (fun x => if f x then Some (g x) else h x) l.
Proof.
  induction l as [|x l IH]; cbn. reflexivity. destruct (f x); cbn; now rewrite IH.
Qed.

Section OriginProofs.
  Context {St Cov : Type}.
  Variable digest : list Z -> Z.
  Variable is_origin_code is_observatory : string -> bool.
  Variable perturber observer : string -> string -> string -> row -> St.
  Variable add : St -> St -> St.
  Variable enabled : bool.
  Variable maxsize : Z.
  Variable P : list row -> Prop.
  Hypothesis D : digest_separates digest P.
  Notation supported := (supported is_origin_code is_observatory).
  Notation shift := (@shift St Cov is_origin_code perturber observer).

  Definition tr_valid (c : @tr_cache St) : Prop :=
    forall k v, In (k, v) c -> exists o out frame l,
      k = time_key digest o out frame l /\ v = map (perturber o out frame) l /\ Forall epoch_ok l /\ P l.

  Lemma origin_vectors_ok c frame (cs : list (crow St Cov)) out o :
    tr_valid c -> Forall (fun r => epoch_ok (r_time r)) cs ->
    P (map r_time (filter (fun r => String.eqb (r_origin r) o) cs)) ->
    let '(x, c') := origin_vectors digest is_origin_code is_observatory perturber observer enabled maxsize c frame out cs o in
    tr_valid c' /\
    ((supported o /\ x = Ok (map (shift frame out) (filter (fun r => String.eqb (r_origin r) o) cs))) \/
     (~ supported o /\ x = Err ValueError)).
  Proof.
    intros V E Po. unfold origin_vectors. rewrite apply_mask_map.
    set (sel := filter (fun r => String.eqb (r_origin r) o) cs) in *.
    assert (Sel : forall r, In r sel -> r_origin r = o).
    { intros r H. apply filter_In in H. now apply String.eqb_eq. }
    assert (Es : Forall epoch_ok (map r_time sel)).
    { apply Forall_forall. intros t H. apply in_map_iff in H. destruct H as (r & <- & H). apply filter_In in H.
      rewrite Forall_forall in E. apply E. tauto. }
    assert (Sp : is_origin_code o = true -> map (perturber o out frame) (map r_time sel) = map (shift frame out) sel).
    { intros Ho. rewrite map_map. apply map_ext_in. intros r H. unfold CacheSpec.shift. now rewrite (Sel r H), Ho. }
    destruct (is_origin_code o) eqn:Ho.
    - assert (So : supported o) by now left.
      destruct (enabled && allowed o out)%bool.
      + set (key := time_key digest o out frame (map r_time sel)).
        pose proof (lru_get_In tkey_eqb tkey_eq maxsize c key) as G.
        pose proof (lru_get_sub tkey_eqb tkey_eq maxsize c key) as Sb.
        destruct (lru_get tkey_eqb maxsize c key) as [[v|] c1]; cbn [fst snd] in *.
        * split. intros k v' H. apply V; auto. left. split; auto.
          destruct (V key v (G v eq_refl)) as (o' & out' & fr' & l & Ek & -> & El & Pl).
          unfold key in Ek. apply (time_key_inj digest P D) in Ek; auto. destruct Ek as (<- & <- & <- & <-).
          now rewrite Sp.
        * split. 2: left; split; auto; now rewrite Sp.
          intros k v' H. apply lru_put_sub in H; [|exact tkey_eq]. destruct H as [H|H].
          injection H as -> ->. exists o, out, frame, (map r_time sel). auto. apply V; auto.
      + split; auto. left. split; auto. now rewrite Sp.
    - destruct (is_observatory o) eqn:Hs.
      + split; auto. left. split. now right. f_equal. rewrite map_map. apply map_ext_in.
        intros r H. unfold CacheSpec.shift. now rewrite (Sel r H), Ho.
      + split; auto. right. split; auto. intros [H|H]; congruence.
  Qed.

  Lemma origin_loop_ok frame (cs : list (crow St Cov)) out :
    Forall (fun r => epoch_ok (r_time r)) cs ->
    (forall b, P (map r_time (filter (fun r => String.eqb (r_origin r) b) cs))) ->
    forall os c h, tr_valid c ->
    let '(x, c') := origin_loop digest is_origin_code is_observatory perturber observer enabled maxsize c frame out cs os (map h cs) in
    tr_valid c' /\
    ((Forall supported os /\
      x = Ok (map (fun r => if existsb (String.eqb (r_origin r)) os then Some (shift frame out r) else h r) cs)) \/
     ((exists o, In o os /\ ~ supported o) /\ x = Err ValueError)).
  Proof.
    intros E Pb. induction os as [|o os IH]; intros c h V; cbn [origin_loop].
    - auto.
    - pose proof (origin_vectors_ok c frame cs out o V E (Pb o)) as Q.
      destruct (origin_vectors digest is_origin_code is_observatory perturber observer enabled maxsize c frame out cs o) as [x c1].
      destruct Q as [V1 [[So ->]|[So ->]]].
      2:{ split; auto. right. split; auto. exists o. split; auto. now left. }
      rewrite scatter_map.
      specialize (IH c1 (fun r => if String.eqb (r_origin r) o then Some (shift frame out r) else h r) V1).
      destruct (origin_loop digest is_origin_code is_observatory perturber observer enabled maxsize c1 frame out cs os _) as [y c2].
      destruct IH as [V2 [[Sos ->]|[(o' & Io & So') ->]]].
      + split; auto. left. split. constructor; auto. f_equal. apply map_ext. intros r. cbn [existsb].
        destruct (String.eqb (r_origin r) o); cbn; destruct (existsb (String.eqb (r_origin r)) os); auto.
      + split; auto. right. split; auto. exists o'. split; auto. now right.
  Qed.

  Lemma translate_some out (cs : list (crow St Cov)) g :
    translate add cs (map (fun r => Some (g r)) cs) out
    = Ok (map (fun r => mkcrow (r_time r) out (add (r_state r) (g r)) (r_cov r)) cs).
  Proof.
    unfold translate.
    assert (Z : zip_opt cs (map (fun r => Some (g r)) cs) = Some (map (fun r => (r, Some (g r))) cs)).
    { induction cs as [|r cs IH]; cbn. reflexivity. now rewrite IH. }
    rewrite Z. clear Z. induction cs as [|r cs IH]; cbn. reflexivity. now rewrite IH.
  Qed.

  Lemma tr_call_ok c frame (cs : list (crow St Cov)) out :
    tr_valid c -> tr_in P (TrCall frame cs out) ->
    let '(x, c') := cartesian_to_origin digest is_origin_code is_observatory perturber observer add enabled maxsize c frame cs out in
    tr_valid c' /\ tr_correct is_origin_code is_observatory perturber observer add (TrCall frame cs out) (Some x).
  Proof.
    intros V [E Pb]. unfold cartesian_to_origin.
    assert (R : repeat (None : option St) (List.length cs) = map (fun _ => None) cs).
    { clear. induction cs; cbn; congruence. }
    rewrite R.
    pose proof (origin_loop_ok frame cs out E Pb (uniq String.eqb (map r_origin cs)) c (fun _ => None) V) as Q.
    destruct (origin_loop digest is_origin_code is_observatory perturber observer enabled maxsize c frame out cs _ _) as [y c1].
    destruct Q as [V1 [[So ->]|[(o & Io & So) ->]]].
    - split; auto.
      assert (M : map (fun r : crow St Cov => if existsb (String.eqb (r_origin r)) (uniq String.eqb (map r_origin cs))
                    then Some (shift frame out r) else None) cs = map (fun r => Some (shift frame out r)) cs).
      { apply map_ext_in. intros r H.
        rewrite (proj2 (existsb_exists _ _)). reflexivity. exists (r_origin r). split.
        apply uniq_In. apply String.eqb_eq. now apply in_map. apply String.eqb_refl. }
      rewrite M, translate_some. cbn. split; auto.
      apply Forall_forall. intros r H. rewrite Forall_forall in So. apply So.
      apply uniq_In. apply String.eqb_eq. now apply in_map.
    - split; auto. cbn. split; auto.
      apply uniq_In in Io. 2: intros a b; apply String.eqb_eq. apply in_map_iff in Io. destruct Io as (r & <- & H). eauto.
  Qed.

  Lemma tr_run_ok : forall (ops : list (tr_op St Cov)) c, tr_valid c -> Forall (tr_in P) ops ->
    Forall2 (tr_correct is_origin_code is_observatory perturber observer add) ops
      (fst (tr_run digest is_origin_code is_observatory perturber observer add enabled maxsize c ops)).
  Proof.
    induction ops as [|o ops IH]; intros c V I; cbn [tr_run]. constructor.
    inversion I as [|? ? I1 I2]; subst. destruct o as [frame cs out|].
    - pose proof (tr_call_ok c frame cs out V I1) as Q.
      destruct (cartesian_to_origin digest is_origin_code is_observatory perturber observer add enabled maxsize c frame cs out) as [x c1].
      destruct Q as [V1 C]. specialize (IH c1 V1 I2).
      destruct (tr_run digest is_origin_code is_observatory perturber observer add enabled maxsize c1 ops). cbn in *. constructor; auto.
    - assert (V0 : tr_valid []) by (intros k v []). specialize (IH [] V0 I2). unfold tr_cache, od in *.
      destruct (tr_run digest is_origin_code is_observatory perturber observer add enabled maxsize [] ops). cbn in *. constructor; auto.
  Qed.
End OriginProofs.

(* ------------------------------------------------------- statements ---- *)
Lemma tr_correct_fun {St Cov} ic io pe ob ad (o : tr_op St Cov) x y :
  tr_correct ic io pe ob ad o x -> tr_correct ic io pe ob ad o y -> x = y.
Proof.
  destruct o as [f cs out|], x as [[l|e]|], y as [[l'|e']|]; cbn; try easy.
  - intros [_ ->] [_ ->]. reflexivity.
  - intros [F _] [_ (r & I & N)]. rewrite Forall_forall in F. now apply F in I.
  - intros [_ (r & I & N)] [F _]. rewrite Forall_forall in F. now apply F in I.
  - intros [-> _] [-> _]. reflexivity.
Qed.

Lemma Forall2_nth2 {A B} (R : A -> B -> Prop) l m : Forall2 R l m -> forall i a, nth_error l i = Some a ->
  exists b, nth_error m i = Some b /\ R a b.
Proof.
  induction 1; intros [|i] a H1; cbn in *; try discriminate. injection H1 as <-. eauto. eauto.
Qed.

Lemma tr_warm_cold {St Cov} digest ic io pe ob (ad : St -> St -> St) en m P (ops : list (tr_op St Cov)) i o :
  digest_separates digest P -> Forall (tr_in P) ops -> nth_error ops i = Some o ->
  nth_error (fst (tr_run digest ic io pe ob ad en m [] ops)) i =
  nth_error (fst (tr_run digest ic io pe ob ad en m [] [o])) 0.
Proof.
  intros D F H.
  assert (V0 : @tr_valid St digest pe P []) by (intros k v []).
  pose proof (tr_run_ok digest ic io pe ob ad en m P D ops [] V0 F) as A.
  destruct (Forall2_nth2 _ _ _ A i o H) as (b & -> & Cb).
  assert (F1 : Forall (tr_in P) [o]). { constructor; auto. rewrite Forall_forall in F. apply F. eapply nth_error_In; eauto. }
  pose proof (tr_run_ok digest ic io pe ob ad en m P D [o] [] V0 F1) as B.
  destruct (Forall2_nth2 _ _ _ B 0%nat o eq_refl) as (b' & -> & Cb').
  f_equal. eapply tr_correct_fun; eauto.
Qed.

Lemma rescale_scale E t d t' : rescale E t d = Ok t' -> scale t' = d.
Proof.
  unfold rescale. destruct (String.eqb_spec (scale t) d). congruence.
  destruct (_ || _)%bool. destruct (known_scale d). intros [= <-]. reflexivity. discriminate.
  destruct (TimeModel.supported (scale t) d). 2: discriminate.
  destruct (mapM _ _); cbn. intros [= <-]. reflexivity. discriminate.
Qed.
Lemma rescale_same E t : rescale E t (scale t) = Ok t.
Proof. unfold rescale. now rewrite String.eqb_refl. Qed.

Lemma obs_time_scale {St} digest E table (site : string -> string -> string -> row -> St) maxsize code f og t t' :
  1 <= maxsize -> known_frame f -> table code = Some true -> code <> "500"%string ->
  scale t <> "tdb"%string -> rescale E t "tdb" = Ok t' ->
  let tdb x := match rescale E x "tdb" with Ok y => rows y | Err _ => [] end in
  exists r, nth_error (fst (obs_run digest tdb table site maxsize [] [ObsQuery code t f og; ObsQuery code t' f og])) 1
            = Some (Some (Ok r)) /\ c_time r = t /\ scale (c_time r) <> scale t' /\
    nth_error (fst (obs_run digest tdb table site maxsize [] [ObsQuery code t' f og])) 0
            = Some (Some (Ok (mkcoords t' (c_states r) f (repeat og (List.length (rows t')))))).
Proof.
  intros M KF T C Sc R tdb.
  assert (Sc' : scale t' = "tdb"%string) by (eapply rescale_scale; eauto).
  assert (R' : rescale E t' "tdb" = Ok t') by (rewrite <- Sc'; apply rescale_same).
  assert (Et : tdb t = tdb t') by (unfold tdb; now rewrite R, R').
  cbn [obs_run obs_step]. unfold mpc_observer_state.
  destruct (proj2 (spice_frame_known f) KF) as [s ->]. rewrite T.
  assert (G : forall k, lru_get tkey_eqb maxsize ([] : od tkey (coords St)) k = (None, [])).
  { intros k. unfold lru_get. now destruct (maxsize <=? 0). }
  rewrite !G. apply String.eqb_neq in C. rewrite C. rewrite <- Et.
  set (key := time_key digest code f og (tdb t)).
  assert (Pt : forall x, lru_put tkey_eqb maxsize [] key x = [(key, x : coords St)]).
  { intros x. unfold lru_put. destruct (Z.leb_spec maxsize 0); [lia|]. cbn [od_set]. unfold move_to_end. cbn [od_get].
    rewrite (proj2 (tkey_eq key key) eq_refl). unfold od_remove. cbn [filter fst].
    rewrite (proj2 (tkey_eq key key) eq_refl). cbn [negb app evict List.length].
    destruct (Z.ltb_spec maxsize (Z.of_nat 1)); [lia|]. reflexivity. }
  rewrite !Pt.
  assert (Q : forall (b : bool) x, (if b then (Ok x, [(key, x)]) else (Ok x, [(key, x)])) = (Ok (x : coords St), [(key, x)])).
  { intros []; reflexivity. }
  rewrite !Q. unfold lru_get. destruct (Z.leb_spec maxsize 0); [lia|]. cbn [od_get].
  rewrite (proj2 (tkey_eq key key) eq_refl). cbn.
  eexists. split. reflexivity. cbn. split. reflexivity. split. congruence. unfold fresh_observer. now rewrite Et.
Qed.

(* two epochs 2^64 ns apart in one request get one state *)
Definition far_a := mkrow (-94187) 0.
Definition far_b := mkrow 119316 84873709551616.
Lemma far_same_key : key_row far_a = key_row far_b.
Proof. vm_compute. reflexivity. Qed.
Lemma gps_collision {St} neg (spk : Z -> Z -> string -> row -> St) maxsize t o :
  fst (get_perturber_state neg spk maxsize [] t [far_a; far_b] "ecliptic" o)
  = Ok [spk t o "ECLIPJ2000"%string far_a; spk t o "ECLIPJ2000"%string far_a].
Proof.
  unfold get_perturber_state.
  change (spice_frame "ecliptic") with (Ok "ECLIPJ2000"%string).
  assert (R : reps [far_a; far_b] = [(key_row far_a, far_a)]) by (vm_compute; reflexivity).
  rewrite R. cbn [spk_loop]. unfold spk_lookup.
  assert (G : forall k, lru_get spk_keqb maxsize ([] : od spk_key St) k = (None, [])).
  { intros k. unfold lru_get. now destruct (maxsize <=? 0). }
  rewrite !G. cbn [fst snd mapM]. rewrite <- far_same_key. unfold assoc_z. cbn [find fst snd]. rewrite Z.eqb_refl. reflexivity.
Qed.

(* a kernel change does not reach a cached epoch *)
Lemma gps_stale {St} neg (spk : list string -> Z -> Z -> string -> row -> St) maxsize pool k t r o :
  2 <= maxsize -> t <> o ->
  fst (spice_run neg spk maxsize ([], pool) [Query t [r] "ecliptic" o; Register k; Query t [r] "ecliptic" o])
  = [Some (Ok [spk pool t o "ECLIPJ2000"%string r]); None; Some (Ok [spk pool t o "ECLIPJ2000"%string r])].
Proof.
  intros M Ne. cbn [spice_run spice_step].
  assert (Rp : reps [r] = [(key_row r, r)]).
  { unfold reps, first_row. cbn [map]. unfold uniq. cbn [uniq_aux memb existsb sort insert flat_map find app].
    now rewrite Z.eqb_refl. }
  unfold get_perturber_state. change (spice_frame "ecliptic") with (Ok "ECLIPJ2000"%string). rewrite !Rp.
  cbn [spk_loop]. unfold spk_lookup.
  set (key := mkspk t o "ECLIPJ2000" (days r) (nanos r)). set (rk := mkspk o t "ECLIPJ2000" (days r) (nanos r)).
  assert (G : forall k, lru_get spk_keqb maxsize ([] : od spk_key St) k = (None, [])).
  { intros x. unfold lru_get. now destruct (maxsize <=? 0). }
  assert (kk : spk_keqb key key = true) by now apply spk_keq.
  assert (rr : spk_keqb rk rk = true) by now apply spk_keq.
  assert (kr : spk_keqb rk key = false).
  { destruct (spk_keqb rk key) eqn:E; auto. apply spk_keq in E. unfold rk, key in E. congruence. }
  assert (rkk : spk_keqb key rk = false).
  { destruct (spk_keqb key rk) eqn:E; auto. apply spk_keq in E. unfold rk, key in E. congruence. }
  assert (Pt : forall x y : St, lru_put spk_keqb maxsize (lru_put spk_keqb maxsize [] key x) rk y = [(key, x); (rk, y)]).
  { intros x y. unfold lru_put. destruct (Z.leb_spec maxsize 0); [lia|]. cbn [od_set]. unfold move_to_end, od_remove.
    cbn [od_get]. rewrite kk. cbn [filter fst]. rewrite kk. cbn [negb app evict List.length].
    destruct (Z.ltb_spec maxsize (Z.of_nat 1)); [lia|]. cbn [od_set]. rewrite kr. cbn [od_get]. rewrite kr, rr.
    cbn [filter fst]. rewrite kr, rr. cbn [negb app evict List.length].
    destruct (Z.ltb_spec maxsize (Z.of_nat 2)); [lia|]. reflexivity. }
  rewrite !G, Pt. cbn [spice_step]. unfold get_perturber_state.
  change (spice_frame "ecliptic") with (Ok "ECLIPJ2000"%string). rewrite Rp. cbn [spk_loop]. unfold spk_lookup. fold key.
  assert (H : forall x y : St, lru_get spk_keqb maxsize [(key, x); (rk, y)] key = (Some x, move_to_end spk_keqb [(key, x); (rk, y)] key)).
  { intros x y. unfold lru_get. destruct (Z.leb_spec maxsize 0); [lia|]. cbn [od_get]. now rewrite kk. }
  rewrite H. cbn [fst snd mapM]. unfold assoc_z. cbn [find fst snd]. rewrite Z.eqb_refl. reflexivity.
Qed.
