From Coq Require Import String Lia ZArith Permutation Sorted Bool.
From Verif Require Import Base ListLemmas StrOrder SchedModel SchedSpec SchedProofs PropModel PropSpec.
Open Scope Z_scope.
Open Scope list_scope.

(* ------------------------------------------------------------ orders ---- *)
Lemma tleb_total a b : tleb a b = true \/ tleb b a = true.
Proof. unfold tleb. lia. Qed.
Lemma tleb_trans a b c : tleb a b = true -> tleb b c = true -> tleb a c = true.
Proof. unfold tleb. lia. Qed.
Lemma tleb_antisym a b : tleb a b = true -> tleb b a = true -> a = b.
Proof. destruct a, b; unfold tleb; cbn. intros. f_equal; lia. Qed.
Lemma teqb_eq a b : teqb a b = true <-> a = b.
Proof. destruct a, b. unfold teqb; cbn. split. intros; f_equal; lia. intros [= -> ->]. lia. Qed.

Lemma kleb_total a b : kleb a b = true \/ kleb b a = true.
Proof.
  destruct a as [[o1 v1] t1], b as [[o2 v2] t2]; cbn.
  destruct (String.eqb_spec o1 o2), (String.eqb_spec o2 o1); try congruence.
  - destruct (String.eqb_spec v1 v2), (String.eqb_spec v2 v1); try congruence. apply tleb_total. apply str_leb_total.
  - apply str_leb_total.
Qed.
Lemma kleb_antisym a b : kleb a b = true -> kleb b a = true -> a = b.
Proof.
  destruct a as [[o1 v1] t1], b as [[o2 v2] t2]; cbn.
  destruct (String.eqb_spec o1 o2), (String.eqb_spec o2 o1); try congruence.
  - destruct (String.eqb_spec v1 v2), (String.eqb_spec v2 v1); try congruence.
    + intros H1 H2. rewrite (tleb_antisym _ _ H1 H2). congruence.
    + intros H1 H2. now pose proof (str_leb_antisym _ _ H1 H2).
  - intros H1 H2. now pose proof (str_leb_antisym _ _ H1 H2).
Qed.
Lemma kleb_trans a b c : kleb a b = true -> kleb b c = true -> kleb a c = true.
Proof.
  destruct a as [[o1 v1] t1], b as [[o2 v2] t2], c as [[o3 v3] t3]; cbn.
  destruct (String.eqb_spec o1 o2) as [->|N1].
  - destruct (String.eqb_spec o2 o3) as [->|N2]; auto.
    destruct (String.eqb_spec v1 v2) as [->|M1].
    + destruct (String.eqb_spec v2 v3) as [->|M2]; auto. apply tleb_trans.
    + destruct (String.eqb_spec v2 v3) as [->|M2]; auto.
      * destruct (String.eqb_spec v1 v3); [congruence|auto].
      * destruct (String.eqb_spec v1 v3) as [->|]. intros H1 H2. now pose proof (str_leb_antisym _ _ H1 H2).
        apply str_leb_trans.
  - destruct (String.eqb_spec o2 o3) as [->|N2].
    + destruct (String.eqb_spec o1 o3); [congruence|auto].
    + destruct (String.eqb_spec o1 o3) as [->|]. intros H1 H2. now pose proof (str_leb_antisym _ _ H1 H2).
      apply str_leb_trans.
Qed.

(* sorting by a key: two permutations sort to the same list if equal keys mean equal rows *)
Lemma sort_key_perm {A} (k : A -> key) (l m : list A) :
  (forall x y, In x l -> In y l -> k x = k y -> x = y) -> Permutation l m ->
  sort (fun a b => kleb (k a) (k b)) l = sort (fun a b => kleb (k a) (k b)) m.
Proof.
  intros H P. apply sort_perm_eq; auto.
  - intros x y. unfold le. apply kleb_total.
  - intros x y z. unfold le. apply kleb_trans.
  - intros x y Ix Iy L1 L2. apply H; auto. apply kleb_antisym; auto.
Qed.

(* ------------------------------------------------------------ ensure ---- *)
Section EnsureProofs.
  Context {I R : Type} (iid iorigin : I -> string) (oid : R -> string)
    (to_origin : string -> R -> R) (is_code : string -> bool).

  (* the origin attached to an id *)
  Definition origin_of (inputs : list I) (id : string) : option string :=
    match find (fun i => String.eqb (iid i) id) inputs with Some i => Some (iorigin i) | None => None end.

  Lemma origin_of_some inputs i : one_origin iid iorigin inputs -> In i inputs -> origin_of inputs (iid i) = Some (iorigin i).
  Proof.
    intros H Hi. unfold origin_of. destruct (find _ inputs) as [j|] eqn:E.
    - apply find_some in E. destruct E as [Ij Ej]. apply String.eqb_eq in Ej. f_equal. symmetry. apply H; auto.
    - exfalso. apply find_none with (x := i) in E; auto. now rewrite String.eqb_refl in E.
  Qed.

  Lemma filter_perm_uniq {A K} (eqb : K -> K -> bool) (f : A -> option K) : (forall x y, eqb x y = true <-> x = y) ->
    forall (ks : list K) (l : list A), NoDup ks -> (forall x, In x l -> exists k, f x = Some k /\ In k ks) ->
    Permutation (concat (map (fun k => filter (fun x => match f x with Some k' => eqb k' k | None => false end) l) ks)) l.
  Proof.
    intros He ks. induction ks as [|k ks IH]; intros l Hn Hl; cbn.
    - destruct l as [|x l]; auto. destruct (Hl x (or_introl eq_refl)) as (k & _ & []).
    - inversion Hn as [|? ? Hk Hks]; subst.
      set (p := fun x => match f x with Some k' => eqb k' k | None => false end).
      rewrite (filter_app_perm p l) at 2. apply Permutation_app_head.
      rewrite <- (IH (filter (fun x => negb (p x)) l)) at 1; auto.
      + match goal with |- Permutation ?a ?b => cut (a = b); [intros ->; reflexivity|] end. apply f_equal. apply map_ext_in. intros k' Ik'.
        clear IH. induction l as [|x l IHl]; cbn; auto.
        assert (IHl' := IHl (fun y Iy => Hl y (or_intror Iy))).
        destruct (f x) as [kx|] eqn:Fx; unfold p at 1; rewrite Fx.
        * destruct (eqb kx k) eqn:E1; cbn.
          -- apply He in E1. subst kx. destruct (eqb k k') eqn:E2; auto. apply He in E2. subst. contradiction.
          -- rewrite Fx. destruct (eqb kx k'); auto. now rewrite IHl'.
        * cbn. rewrite Fx. auto.
      + intros x Ix. apply filter_In in Ix. destruct Ix as [Ix Np]. destruct (Hl x Ix) as (kx & Fx & [<-|Ik]); eauto.
        unfold p in Np. rewrite Fx in Np. assert (eqb k k = true) as E by now apply He. rewrite E in Np. discriminate.
  Qed.

  Lemma ensure_ok inputs results :
    inputs <> [] -> one_origin iid iorigin inputs -> Forall (fun i => is_code (iorigin i) = true) inputs ->
    (forall r, In r results -> In (oid r) (map iid inputs)) ->
    exists l, ensure_origin iid iorigin oid to_origin is_code inputs results = Ok (Some l) /\
      Permutation l (map (fun r => match origin_of inputs (oid r) with Some o => to_origin o r | None => r end) results).
  Proof.
    intros Hn Ho Hc Hr. unfold ensure_origin.
    set (ks := uniq String.eqb (map iorigin inputs)).
    assert (Hk : forall k, In k ks <-> In k (map iorigin inputs)).
    { intros k. apply uniq_In. intros; apply String.eqb_eq. }
    set (p := fun k r => match origin_of inputs (oid r) with Some k' => String.eqb k' k | None => false end).
    assert (Hp : forall k r, In r results ->
       memb String.eqb (oid r) (map iid (filter (fun i => String.eqb (iorigin i) k) inputs)) = p k r).
    { intros k r Ir. apply Hr in Ir. apply in_map_iff in Ir. destruct Ir as (i & Ei & Ii).
      unfold p. rewrite <- Ei, (origin_of_some inputs i Ho Ii). destruct (String.eqb_spec (iorigin i) k) as [E|E].
      - apply memb_In. intros; apply String.eqb_eq. apply in_map. apply filter_In. split; auto. now apply String.eqb_eq.
      - destruct (memb String.eqb (iid i) _) eqn:M; auto. exfalso. apply memb_In in M. 2: intros; apply String.eqb_eq.
        apply in_map_iff in M. destruct M as (j & Ej & Ij). apply filter_In in Ij. destruct Ij as [Ij Oj]. apply String.eqb_eq in Oj.
        apply E. rewrite <- Oj. apply Ho; auto. }
    rewrite (mapM_all_ok _ (fun k => map (to_origin k) (filter (p k) results))).
    2:{ intros k Ik. unfold ensure_step. rewrite Forall_forall in Hc.
        apply Hk in Ik. apply in_map_iff in Ik. destruct Ik as (i & <- & Ii). rewrite Hc by auto.
        f_equal. f_equal. apply filter_ext_in. intros r Ir. now apply Hp. }
    cbn [bind].
    destruct ks as [|k0 ks'] eqn:Ek.
    { exfalso. destruct inputs as [|i inputs]; [congruence|]. assert (X : In (iorigin i) []) by (apply Hk; now left). destruct X. }
    rewrite <- Ek in *. destruct (map (fun k => map (to_origin k) (filter (p k) results)) ks) as [|a b] eqn:Em.
    { rewrite Ek in Em. discriminate. }
    rewrite <- Em. eexists. split. reflexivity.
    set (h := fun r => match origin_of inputs (oid r) with Some o => to_origin o r | None => r end).
    assert (Hh : map (fun k => map (to_origin k) (filter (p k) results)) ks = map (map h) (map (fun k => filter (p k) results) ks)).
    { rewrite map_map. apply map_ext. intros k. apply map_ext_in. intros r Ir. apply filter_In in Ir. destruct Ir as [_ Pr].
      unfold p in Pr. unfold h. destruct (origin_of inputs (oid r)); [|discriminate]. apply String.eqb_eq in Pr. now subst. }
    rewrite Hh, <- concat_map. apply Permutation_map.
    apply (filter_perm_uniq String.eqb (fun r => origin_of inputs (oid r))).
    - intros; apply String.eqb_eq.
    - unfold ks. apply uniq_NoDup. intros; apply String.eqb_eq.
    - intros r Ir. apply Hr in Ir. apply in_map_iff in Ir. destruct Ir as (i & <- & Ii).
      exists (iorigin i). split. now apply origin_of_some. apply Hk. now apply in_map.
  Qed.
End EnsureProofs.


(* --------------------------------------------------- propagate_orbits ---- *)
Lemma Permutation_flat_map_in {A B} (f : A -> list B) l m : Permutation l m -> Permutation (flat_map f l) (flat_map f m).
Proof. intros. now apply Permutation_flat_map. Qed.
Lemma flat_map_perm_pt {A B} (f h : A -> list B) l : (forall x, In x l -> Permutation (f x) (h x)) -> Permutation (flat_map f l) (flat_map h l).
Proof.
  induction l as [|a l IH]; cbn; intros H; auto. apply Permutation_app. apply H; auto. apply IH. intros; apply H; auto.
Qed.
Lemma rows_times_perm {I R} (g : I -> Z * Z -> R) os ts ts' : Permutation ts ts' ->
  Permutation (flat_map (fun o => map (g o) ts) os) (flat_map (fun o => map (g o) ts') os).
Proof. intros P. apply flat_map_perm_pt. intros. now apply Permutation_map. Qed.
Lemma mapM_Forall2_ok {A B} (f : A -> result B) l : (forall x, In x l -> exists y, f x = Ok y) ->
  exists r, mapM f l = Ok r /\ Forall2 (fun x y => f x = Ok y) l r.
Proof.
  induction l as [|a l IH]; intros H; cbn. exists []. split; auto.
  destruct (H a (or_introl eq_refl)) as (y & E). destruct IH as (r & Er & F). intros; apply H; now right.
  rewrite E, Er. cbn. exists (y :: r). split; auto.
Qed.

Section PropagateProofs.
  Context {I R IV V : Type}.
  Variables (iid ivid iorigin : I -> string).
  Variables (oid vid : R -> string) (rtime : R -> Z * Z).
  Variable backend : list I -> list (Z * Z) -> result (list R).
  Variable vbackend : list IV -> list (Z * Z) -> result (list V).
  Variable vkey : V -> key.
  Variable collapse : list V -> R -> R.
  Variable rescale : R -> R.
  Variable to_origin : string -> R -> R.
  Variable is_code : string -> bool.
  Variables (g : I -> Z * Z -> R) (gv : IV -> Z * Z -> V) (void vvid : IV -> string).
  Hypothesis Hb : per_orbit backend g.
  Hypothesis Hv : per_orbit vbackend gv.
  Hypothesis g_ids : forall o t, oid (g o t) = iid o /\ vid (g o t) = ivid o.
  Hypothesis collapse_ids : forall vs r, oid (collapse vs r) = oid r /\ vid (collapse vs r) = vid r.
  Hypothesis rescale_ids : forall r, oid (rescale r) = oid r /\ vid (rescale r) = vid r.
  Hypothesis origin_ids : forall o r, oid (to_origin o r) = oid r /\ vid (to_origin o r) = vid r /\ rtime (to_origin o r) = rtime r.
  Hypothesis g_time : forall o t, rtime (rescale (g o t)) = t.
  Hypothesis collapse_time : forall vs o t, rtime (rescale (collapse vs (g o t))) = t.
  Hypothesis gv_key : forall v t, vkey (gv v t) = (void v, vvid v, t).

  Definition task_rows ts (t : @ptask I IV) : list R := match t with TOrb c => flat_map (fun o => map (g o) ts) c | TVar _ => [] end.
  Definition task_vars ts (t : @ptask I IV) : list V := match t with TOrb _ => [] | TVar c => flat_map (fun o => map (gv o) ts) c end.

  Lemma run_task_ok ts t : exists r, run_task backend vbackend ts t = Ok r.
  Proof.
    destruct t as [c|c]; cbn. destruct (Hb c ts) as (r & -> & _). cbn; eauto. destruct (Hv c ts) as (r & -> & _). cbn; eauto.
  Qed.
  Lemma parts_perm ts tasks rs : Forall2 (fun x y => run_task backend vbackend ts x = Ok y) tasks rs ->
    Permutation (concat (orb_parts rs)) (flat_map (task_rows ts) tasks) /\
    Permutation (concat (var_parts rs)) (flat_map (task_vars ts) tasks) /\
    (orb_parts rs = [] <-> forall t, In t tasks -> exists c, t = TVar c) /\
    (var_parts rs = [] <-> forall t, In t tasks -> exists c, t = TOrb c).
  Proof.
    induction 1 as [|x y l m E F IH].
    - cbn. repeat split; auto; try (intros _ ? []).
    - destruct IH as (P1 & P2 & P3 & P4). destruct x as [c|c]; cbn in E.
      + destruct (Hb c ts) as (r & Er & Pr). rewrite Er in E. cbn in E. injection E as <-.
        cbn. split; [|split; [|split]].
        * now apply Permutation_app.
        * exact P2.
        * split. discriminate. intros H. destruct (H (TOrb c) (or_introl eq_refl)) as (c' & X). discriminate.
        * split. intros Z0 t [<-|It]; eauto. apply P4; auto. intros H. apply P4. intros; apply H; auto.
      + destruct (Hv c ts) as (r & Er & Pr). rewrite Er in E. cbn in E. injection E as <-.
        cbn. split; [|split; [|split]].
        * exact P1.
        * now apply Permutation_app.
        * split. intros Z0 t [<-|It]; eauto. apply P3; auto. intros H. apply P3. intros; apply H; auto.
        * split. discriminate. intros H. destruct (H (TVar c) (or_introl eq_refl)) as (c' & X). discriminate.
  Qed.

  Lemma rows_of_tasks ts (ocs : list (list I)) (vcs : list (list IV)) :
    flat_map (task_rows ts) (map TOrb ocs ++ map TVar vcs) = flat_map (fun o => map (g o) ts) (concat ocs) /\
    flat_map (task_vars ts) (map TOrb ocs ++ map TVar vcs) = flat_map (fun o => map (gv o) ts) (concat vcs).
  Proof.
    rewrite !flat_map_app. split.
    - assert (flat_map (task_rows ts) (map TVar vcs) = []) as -> by (clear; induction vcs; auto). rewrite app_nil_r.
      clear. induction ocs as [|a l IH]; cbn; auto. now rewrite IH, flat_map_app.
    - assert (flat_map (task_vars ts) (map TOrb ocs) = []) as -> by (clear; induction ocs; auto). cbn.
      clear. induction vcs as [|a l IH]; cbn; auto. now rewrite IH, flat_map_app.
  Qed.

  Lemma NoDup_map_eq {A B} (f : A -> B) l x y : NoDup (map f l) -> In x l -> In y l -> f x = f y -> x = y.
  Proof.
    induction l as [|a l IH]; cbn; intros N Ix Iy E. easy. inversion N as [|? ? N1 N2]; subst.
    destruct Ix as [->|Ix], Iy as [->|Iy]; auto.
    - exfalso. apply N1. rewrite E. now apply in_map.
    - exfalso. apply N1. rewrite <- E. now apply in_map.
  Qed.

  Lemma variants_sorted (vs : list IV) q ts ts' : NoDup (map (fun v => (void v, vvid v)) vs) -> Permutation ts ts' ->
    Permutation q (flat_map (fun v => map (gv v) ts) vs) ->
    sort_variants vkey q = sort (fun a b => kleb (vkey a) (vkey b)) (flat_map (fun v => map (gv v) ts') vs).
  Proof.
    intros Nd Pt Pq. symmetry. apply sort_key_perm.
    - intros x y Ix Iy E. apply in_flat_map in Ix, Iy. destruct Ix as (a & Ia & Ix), Iy as (b & Ib & Iy).
      apply in_map_iff in Ix, Iy. destruct Ix as (t & <- & _), Iy as (t' & <- & _). rewrite !gv_key in E.
      injection E as E1 E2 E3. subst. f_equal. eapply NoDup_map_eq; eauto. cbn. congruence.
    - rewrite Pq. apply rows_times_perm. now symmetry.
  Qed.

  Lemma propagate_ok pick mp cs variants orbits times :
    1 <= cs -> orbits <> [] -> variants <> Some [] ->
    NoDup (map (fun o => (iid o, ivid o)) orbits) ->
    (forall vs, variants = Some vs -> NoDup (map (fun v => (void v, vvid v)) vs)) ->
    one_origin iid iorigin orbits -> Forall (fun o => is_code (iorigin o) = true) orbits ->
    propagate_orbits iid iorigin oid vid rtime backend vbackend vkey collapse rescale to_origin is_code
      pick mp cs variants orbits times
    = Ok (expected_propagated iorigin oid vid rtime g gv vkey collapse rescale to_origin variants orbits times).
  Proof.
    intros Hc Ho Hvs Nd Ndv Oo Cd. unfold propagate_orbits. set (ts := sort tleb times).
    assert (Pt : Permutation ts times) by (unfold ts; symmetry; apply sort_perm).
    set (ev := expected_variants gv vkey variants times).
    assert (STEP : exists p, (if 1 <? mp then
            bind (iterate_chunks orbits cs) (fun ocs =>
            bind (match variants with Some vs => iterate_chunks vs cs | None => Ok [] end) (fun vcs =>
            bind (mapM (run_task backend vbackend ts) (fst (window pick mp (map TOrb ocs ++ map TVar vcs)))) (fun rs =>
            match orb_parts rs with
            | [] => Err ValueError
            | ps => Ok (concat ps, match var_parts rs with [] => None | vs => Some (sort_variants vkey (concat vs)) end)
            end)))
          else
            bind (backend orbits ts) (fun p =>
            match variants with
            | None => Ok (p, None)
            | Some vs => bind (vbackend vs ts) (fun q => Ok (p, Some (sort_variants vkey q)))
            end)) = Ok (p, ev) /\ Permutation p (flat_map (fun o => map (g o) ts) orbits)).
    { destruct (Z.ltb_spec 1 mp) as [Hm|Hm].
      - destruct (tiles_ok orbits cs Hc) as (ocs & -> & (Co & _)). cbn [bind].
        assert (exists vcs, (match variants with Some vs => iterate_chunks vs cs | None => Ok [] end) = Ok vcs /\
           concat vcs = match variants with Some vs => vs | None => [] end /\ (variants <> None -> vcs <> []) /\ (variants = None -> vcs = [])) as (vcs & -> & Cv & Ne & Nn).
        { destruct variants as [vs|].
          - destruct (tiles_ok vs cs Hc) as (vcs & E & (C1 & _)). exists vcs. split; auto. split; auto. split; [|discriminate].
            intros _ ->. cbn in C1. apply Hvs. now rewrite <- C1.
          - exists []. split; [reflexivity|]. split; [reflexivity|]. split; [|reflexivity]. intros X. now contradiction X. }
        cbn [bind]. set (tasks := map TOrb ocs ++ map TVar vcs).
        destruct (window_ok pick mp tasks ltac:(lia)) as (Pw & _).
        destruct (mapM_Forall2_ok (run_task backend vbackend ts) (fst (window pick mp tasks))) as (rs & -> & F2).
        { intros; apply run_task_ok. }
        cbn [bind]. apply parts_perm in F2. destruct F2 as (P1 & P2 & P3 & P4).
        rewrite (Permutation_flat_map_in _ _ _ Pw) in P1. rewrite (Permutation_flat_map_in _ _ _ Pw) in P2.
        destruct (rows_of_tasks ts ocs vcs) as (R1 & R2). fold tasks in R1, R2. rewrite R1, Co in P1. rewrite R2, Cv in P2.
        destruct (orb_parts rs) as [|pp ps] eqn:Eo.
        { exfalso. destruct ocs as [|c ocs']. cbn in Co. congruence.
          destruct (proj1 P3 eq_refl (TOrb c)) as (c' & X); [|discriminate].
          eapply Permutation_in; [symmetry; exact Pw|]. unfold tasks. cbn. auto. }
        eexists. split; [|exact P1]. f_equal. f_equal.
        unfold ev, expected_variants. destruct variants as [vs|]; cbn [option_map].
        + destruct (var_parts rs) as [|q qs] eqn:Ev.
          { exfalso. destruct vcs as [|c vcs']. apply (Ne ltac:(discriminate)); auto.
            destruct (proj1 P4 eq_refl (TVar c)) as (c' & X); [|discriminate].
            eapply Permutation_in; [symmetry; exact Pw|]. unfold tasks. apply in_or_app. right. now left. }
          f_equal. eapply variants_sorted; eauto.
        + destruct (var_parts rs) as [|q qs] eqn:Ev; auto. exfalso.
          assert (q :: qs = []); [|discriminate]. apply P4. intros t It.
          assert (It' : In t tasks) by (eapply Permutation_in; eauto). unfold tasks in It'.
          rewrite (Nn eq_refl) in It'. cbn [map] in It'. rewrite app_nil_r in It'. apply in_map_iff in It'. destruct It' as (c & <- & _). eauto.
      - destruct (Hb orbits ts) as (p & -> & Pp). cbn [bind]. unfold ev, expected_variants. destruct variants as [vs|]; cbn [option_map].
        + destruct (Hv vs ts) as (q & -> & Pq). cbn [bind]. exists p. split; auto. f_equal. f_equal. f_equal. eapply variants_sorted; eauto.
        + exists p. auto. }
    destruct STEP as (p & -> & Pp). cbn [bind fst snd].
    set (h := fun r => match ev with Some vs => collapse vs r | None => r end).
    assert (Eh : (match ev with Some vs => map (collapse vs) p | None => p end) = map h p).
    { unfold h. destruct ev; auto. now rewrite map_id. }
    rewrite Eh.
    assert (Hh : forall r, oid (rescale (h r)) = oid r /\ vid (rescale (h r)) = vid r).
    { intros r. destruct (rescale_ids (h r)) as [-> ->]. unfold h. destruct ev; auto. }
    assert (Ht : forall o t, rtime (rescale (h (g o t))) = t).
    { intros o t. unfold h. destruct ev; auto. }
    destruct (ensure_ok iid iorigin oid to_origin is_code orbits (map rescale (map h p)) Ho Oo Cd) as (l & -> & Pl).
    { intros r Ir. rewrite map_map in Ir. apply in_map_iff in Ir. destruct Ir as (r0 & <- & Ir). destruct (Hh r0) as [-> _].
      eapply Permutation_in in Ir; [|exact Pp]. apply in_flat_map in Ir. destruct Ir as (o & Io & Ir). apply in_map_iff in Ir.
      destruct Ir as (t & <- & _). destruct (g_ids o t) as [-> _]. now apply in_map. }
    cbn [bind]. apply f_equal. unfold expected_propagated. symmetry. apply (sort_key_perm (fun r => (oid r, vid r, rtime r))).
    - intros x y Ix Iy E. apply in_flat_map in Ix, Iy. destruct Ix as (a & Ia & Ix), Iy as (b & Ib & Iy).
      apply in_map_iff in Ix, Iy. destruct Ix as (t & <- & _), Iy as (t' & <- & _). unfold expected_row in *. fold ev in E |- *.
      change (match ev with Some vs => collapse vs (g a t) | None => g a t end) with (h (g a t)) in *.
      change (match ev with Some vs => collapse vs (g b t') | None => g b t' end) with (h (g b t')) in *.
      destruct (origin_ids (iorigin a) (rescale (h (g a t)))) as (E1 & E2 & E3).
      destruct (origin_ids (iorigin b) (rescale (h (g b t')))) as (F1 & F2 & F3).
      rewrite E1, E2, E3, F1, F2, F3, !Ht in E. destruct (Hh (g a t)) as [X1 X2]. destruct (Hh (g b t')) as [Y1 Y2]. rewrite X1, X2, Y1, Y2 in E.
      destruct (g_ids a t) as [X3 X4]. destruct (g_ids b t') as [Y3 Y4]. rewrite X3, X4, Y3, Y4 in E.
      injection E as E4 E5 E6. subst t'. assert (a = b) as ->; auto. eapply NoDup_map_eq; eauto. cbn. congruence.
    - rewrite Pl. rewrite map_map, map_map. rewrite (Permutation_map _ Pp). rewrite (rows_times_perm g orbits ts times Pt).
      rewrite !flat_map_concat_map, concat_map, map_map.
      match goal with |- Permutation ?a ?b => cut (a = b); [intros ->; reflexivity|] end. apply f_equal. apply map_ext_in. intros o Io.
      rewrite map_map. apply map_ext. intros t. unfold expected_row. fold ev.
      change (match ev with Some vs => collapse vs (g o t) | None => g o t end) with (h (g o t)).
      destruct (Hh (g o t)) as [-> _]. destruct (g_ids o t) as [-> _]. now rewrite (origin_of_some iid iorigin orbits o Oo Io).
  Qed.
End PropagateProofs.

(* ------------------------------------------------------------ ephemeris ---- *)
Lemma zip_opt_ok {A B} : forall (l : list A) (m : list B), length l = length m -> zip_opt l m = Some (combine l m).
Proof. induction l as [|a l IH]; destruct m; cbn; intros H; try discriminate; auto. injection H as H. now rewrite (IH _ H). Qed.
Lemma zip_opt_ne {A B} : forall (l : list A) (m : list B), length l <> length m -> zip_opt l m = None.
Proof. induction l as [|a l IH]; destruct m; cbn; intros H; try congruence. rewrite IH; auto. Qed.
Lemma combine_app_ {A B} : forall (a b : list A) (c d : list B), length a = length c -> combine (a ++ b) (c ++ d) = combine a c ++ combine b d.
Proof. induction a as [|x a IH]; destruct c; cbn; intros; try discriminate; auto. f_equal. apply IH. lia. Qed.
Lemma flat_map_length_const {A B} (f : A -> list B) n l : (forall x, In x l -> length (f x) = n) -> length (flat_map f l) = (length l * n)%nat.
Proof. induction l as [|a l IH]; cbn; intros H; auto. rewrite app_length, IH, H; auto. Qed.
Lemma combine_map_l_ {A B C} (f : A -> B) (h : C -> A) (l : list C) :
  combine (map (fun x => f (h x)) l) l = map (fun x => (f (h x), x)) l.
Proof. induction l; cbn; auto. now f_equal. Qed.

Lemma NoDup_app_l_ {A} (l m : list A) : NoDup (l ++ m) -> NoDup l.
Proof. induction l as [|a l IH]; cbn; intros H; constructor; inversion H; subst; auto. intros X. apply H2. apply in_or_app. auto. Qed.
Lemma NoDup_app_r_ {A} (l m : list A) : NoDup (l ++ m) -> NoDup m.
Proof. induction l as [|a l IH]; cbn; intros H; auto. inversion H; auto. Qed.

Section EphemerisProofs.
  Context {I R B E : Type}.
  Variables (iid ivid : I -> string) (oid vid : R -> string) (rtime : R -> Z * Z).
  Variables (btime : B -> Z * Z) (bcode : B -> string).
  Variable propagate : list I -> list (Z * Z) -> result (list R).
  Variable observe : R -> B -> E.
  Variable ekey : E -> key * string.
  Variable to_utc : E -> E.
  Variable final : I -> Z * Z -> R.
  Let rk (r : R) : key := (oid r, vid r, rtime r).
  Notation idleb := (PropSpec.idleb iid ivid).

  Lemma obs_leb_total a b : obs_leb btime bcode a b = true \/ obs_leb btime bcode b a = true.
  Proof using.
    clear. unfold obs_leb. destruct (teqb (btime a) (btime b)) eqn:X, (teqb (btime b) (btime a)) eqn:Y.
    - apply str_leb_total.
    - apply teqb_eq in X. rewrite X in Y. assert (teqb (btime b) (btime b) = true) by now apply teqb_eq. congruence.
    - apply teqb_eq in Y. rewrite Y in X. assert (teqb (btime a) (btime a) = true) by now apply teqb_eq. congruence.
    - apply tleb_total.
  Qed.
  Lemma obs_leb_time a b : obs_leb btime bcode a b = true -> tleb (btime a) (btime b) = true.
  Proof using.
    clear. unfold obs_leb. destruct (teqb _ _) eqn:X; auto. apply teqb_eq in X. rewrite X. intros _.
    destruct (tleb_total (btime b) (btime b)); auto.
  Qed.
  Lemma obs_leb_trans a b c : obs_leb btime bcode a b = true -> obs_leb btime bcode b c = true -> obs_leb btime bcode a c = true.
  Proof using.
    clear. intros H1 H2. pose proof (tleb_trans _ _ _ (obs_leb_time _ _ H1) (obs_leb_time _ _ H2)) as T.
    unfold obs_leb in *. destruct (teqb (btime a) (btime c)) eqn:X; auto. apply teqb_eq in X.
    destruct (teqb (btime a) (btime b)) eqn:Y.
    - apply teqb_eq in Y. assert (Z0 : teqb (btime b) (btime c) = true) by (apply teqb_eq; congruence). rewrite Z0 in H2. eapply str_leb_trans; eauto.
    - exfalso. destruct (teqb (btime b) (btime c)) eqn:Z0.
      + apply teqb_eq in Z0. assert (teqb (btime a) (btime b) = true) by (apply teqb_eq; congruence). congruence.
      + rewrite <- X in H2. pose proof (tleb_antisym _ _ H1 H2) as W. apply teqb_eq in W. congruence.
  Qed.

  Lemma idleb_key a b : idleb a b = true -> (iid a, ivid a) <> (iid b, ivid b) -> forall t t', kleb (iid a, ivid a, t) (iid b, ivid b, t') = true.
  Proof using.
    clear. unfold PropSpec.idleb, kleb. destruct (String.eqb_spec (iid a) (iid b)) as [->|]; auto.
    destruct (String.eqb_spec (ivid a) (ivid b)) as [->|]; auto; congruence.
  Qed.

  Hypothesis final_key : forall o t, rk (final o t) = (iid o, ivid o, t).
  Variable universe : list I.
  Hypothesis rows_ok : forall os, os <> [] -> incl os universe -> NoDup (map (fun o => (iid o, ivid o)) os) -> forall ts,
    propagate os ts = Ok (sort (fun a b => kleb (rk a) (rk b)) (flat_map (fun o => map (final o) ts) os)).

  (* rows of distinct orbits, each block sorted, orbits in id order: already sorted *)
  Lemma blocks_sorted {X} (leX : X -> X -> bool) (f : I -> list X) (os : list I) :
    (forall o o' x y, In o os -> In o' os -> (iid o, ivid o) <> (iid o', ivid o') -> idleb o o' = true ->
       In x (f o) -> In y (f o') -> leX x y = true) ->
    (forall o, In o os -> StronglySorted (fun a b => leX a b = true) (f o)) ->
    NoDup (map (fun o => (iid o, ivid o)) os) -> StronglySorted (fun a b => idleb a b = true) os ->
    StronglySorted (fun a b => leX a b = true) (flat_map f os).
  Proof using.
    clear. intros Hk Hf Nd S. induction os as [|o os IH]; cbn. constructor.
    inversion Nd as [|? ? N1 N2]; subst. apply StronglySorted_inv in S. destruct S as [S Fo].
    assert (SR : StronglySorted (fun a b => leX a b = true) (flat_map f os)).
    { apply IH; auto. intros o1 o2 x y I1 I2. apply Hk; now right. intros; apply Hf; now right. }
    assert (HO : forall x y, In x (f o) -> In y (flat_map f os) -> leX x y = true).
    { intros x y Ix Iy. apply in_flat_map in Iy. destruct Iy as (o' & Io' & Iy).
      apply (Hk o o'); auto. now left. now right. intros E0. apply N1. rewrite E0. apply (in_map (fun o => (iid o, ivid o))); auto.
      rewrite Forall_forall in Fo. auto. }
    specialize (Hf o (or_introl eq_refl)). clear - SR HO Hf. induction (f o) as [|x l IHl]; cbn; auto.
    apply StronglySorted_inv in Hf. destruct Hf as [Hf Fx]. constructor.
    - apply IHl; auto. intros; apply HO; auto. now right.
    - apply Forall_app. split; auto. apply Forall_forall. intros y Iy. apply HO; auto. now left.
  Qed.
  Lemma sorted_map {X Y} (leX : X -> X -> bool) (leY : Y -> Y -> bool) (f : X -> Y) l :
    (forall a b, In a l -> In b l -> leX a b = true -> leY (f a) (f b) = true) ->
    StronglySorted (fun a b => leX a b = true) l -> StronglySorted (fun a b => leY a b = true) (map f l).
  Proof using.
    clear. intros H S. induction S as [|x l S IH F]; cbn; constructor.
    - apply IH. intros; apply H; auto; now right.
    - apply Forall_forall. intros y Iy. apply in_map_iff in Iy. destruct Iy as (z & <- & Iz). rewrite Forall_forall in F.
      apply H; auto. now left. now right.
  Qed.
  Lemma idleb_sorted os : StronglySorted (fun a b => idleb a b = true) (sort idleb os).
  Proof using.
    clear. apply sort_sorted. intros; apply kleb_total. intros a b c. apply kleb_trans.
  Qed.
  Lemma sorted_nodup os : NoDup (map (fun o => (iid o, ivid o)) os) -> NoDup (map (fun o => (iid o, ivid o)) (sort idleb os)).
  Proof using. clear. intros. eapply Permutation_NoDup; [|eassumption]. apply Permutation_map, sort_perm. Qed.
  Lemma obs_sorted obs : StronglySorted (fun a b => obs_leb btime bcode a b = true) (sort (obs_leb btime bcode) obs).
  Proof using. clear. apply sort_sorted. intros; apply obs_leb_total. intros a b c. apply obs_leb_trans. Qed.

  Lemma rows_blocks os obs : NoDup (map (fun o => (iid o, ivid o)) os) ->
    sort (fun a b => kleb (rk a) (rk b)) (flat_map (fun o => map (final o) (map btime (sort (obs_leb btime bcode) obs))) os)
    = flat_map (fun o => map (final o) (map btime (sort (obs_leb btime bcode) obs))) (sort idleb os).
  Proof using final_key.
    clear rows_ok. intros Nd. set (ts := map btime _).
    rewrite (sort_key_perm rk (flat_map (fun o => map (final o) ts) os) (flat_map (fun o => map (final o) ts) (sort idleb os))).
    - apply sort_sorted_id. apply blocks_sorted.
      + intros o o' x y _ _ N L Ix Iy. apply in_map_iff in Ix, Iy. destruct Ix as (t & <- & _), Iy as (t' & <- & _).
        rewrite !final_key. now apply idleb_key.
      + intros o _. unfold ts. rewrite map_map. apply (sorted_map (obs_leb btime bcode)); [|apply obs_sorted].
        intros a b _ _ L. rewrite !final_key. unfold kleb. rewrite !String.eqb_refl. now apply obs_leb_time.
      + now apply sorted_nodup.
      + apply idleb_sorted.
    - intros x y Ix Iy E0. apply in_flat_map in Ix, Iy. destruct Ix as (a & Ia & Ix), Iy as (b & Ib & Iy).
      apply in_map_iff in Ix, Iy. destruct Ix as (t & <- & _), Iy as (t' & <- & _). rewrite !final_key in E0.
      injection E0 as E1 E2 E3. subst t'. f_equal. eapply NoDup_map_eq; eauto. cbn. congruence.
    - apply Permutation_flat_map_in, sort_perm.
  Qed.

  (* every propagated state meets the observer of its own epoch *)
  Lemma generate_one_ok os obs : os <> [] -> incl os universe -> NoDup (map (fun o => (iid o, ivid o)) os) ->
    generate_one btime bcode propagate observe os obs =
    Ok (flat_map (fun o => map (fun b => observe (final o (btime b)) b) (sort (obs_leb btime bcode) obs)) (sort idleb os)).
  Proof using final_key rows_ok.
    intros Hn Hi Nd. unfold generate_one. destruct os as [|o0 os0] eqn:Eo; [congruence|]. rewrite <- Eo in *. clear Eo o0 os0.
    rewrite rows_ok by auto. cbn [bind]. rewrite rows_blocks by auto.
    set (sobs := sort (obs_leb btime bcode) obs).
    assert (L : length (sort idleb os) = length os) by apply sort_length. rewrite <- L. clear L.
    generalize (sort idleb os) as l. intros l.
    assert (Z0 : zip_opt (flat_map (fun o => map (final o) (map btime sobs)) l) (concat (repeat sobs (length l)))
       = Some (flat_map (fun o => map (fun b => (final o (btime b), b)) sobs) l)).
    { rewrite zip_opt_ok.
      - f_equal. induction l as [|o l IH]; cbn; auto. rewrite combine_app_ by now rewrite !map_length.
        rewrite IH. f_equal. rewrite map_map. apply (combine_map_l_ (final o) btime).
      - rewrite (flat_map_length_const _ (length sobs)) by (intros; now rewrite !map_length).
        induction l; cbn; auto. rewrite app_length. congruence. }
    rewrite Z0. f_equal. rewrite !flat_map_concat_map, concat_map, map_map. f_equal. apply map_ext. intros o. now rewrite map_map.
  Qed.

  Lemma eleb_total x y : eleb ekey x y = true \/ eleb ekey y x = true.
  Proof using.
    clear. unfold eleb. destruct (ekey x) as [k1 c1], (ekey y) as [k2 c2].
    destruct (kleb k1 k2) eqn:A, (kleb k2 k1) eqn:C; cbn; auto. apply str_leb_total.
    destruct (kleb_total k1 k2); congruence.
  Qed.
  Lemma eleb_antisym x y : eleb ekey x y = true -> eleb ekey y x = true -> inhabited (ekey x = ekey y).
  Proof using.
    clear. unfold eleb. destruct (ekey x) as [k1 c1], (ekey y) as [k2 c2].
    destruct (kleb k1 k2) eqn:A, (kleb k2 k1) eqn:C; cbn; try congruence.
    intros L1 L2. rewrite (str_leb_antisym _ _ L1 L2), (kleb_antisym _ _ A C). now constructor.
  Qed.
  Lemma eleb_trans x y z : eleb ekey x y = true -> eleb ekey y z = true -> eleb ekey x z = true.
  Proof using.
    clear. unfold eleb. destruct (ekey x) as [k1 c1], (ekey y) as [k2 c2], (ekey z) as [k3 c3].
    destruct (kleb k1 k2) eqn:A; [|cbn; congruence]. destruct (kleb k2 k3) eqn:C; [|destruct (kleb k3 k2); cbn; congruence].
    rewrite (kleb_trans _ _ _ A C). cbn. destruct (kleb k3 k1) eqn:D; auto.
    rewrite (kleb_trans _ _ _ D A), (kleb_trans _ _ _ C D). apply str_leb_trans.
  Qed.

  Variable utc : Z * Z -> Z * Z.
  Hypothesis observe_key : forall o b, ekey (observe (final o (btime b)) b) = (iid o, ivid o, utc (btime b), bcode b).

  Lemma generate_ephemeris_ok pick mp cs orbits observers : 1 <= cs -> orbits <> [] -> incl orbits universe ->
    NoDup (map (fun o => (iid o, ivid o)) orbits) ->
    (forall a b, In a observers -> In b observers -> tleb (btime a) (btime b) = true -> tleb (utc (btime a)) (utc (btime b)) = true) ->
    (forall a b, In a observers -> In b observers -> utc (btime a) = utc (btime b) -> btime a = btime b) ->
    (forall a b, In a observers -> In b observers -> btime a = btime b -> bcode a = bcode b -> a = b) ->
    generate_ephemeris btime bcode propagate observe ekey to_utc pick mp cs orbits observers =
    Ok (map to_utc (flat_map (fun o => map (fun b => observe (final o (btime b)) b) (sort (obs_leb btime bcode) observers)) (sort idleb orbits))).
  Proof using final_key rows_ok observe_key.
    intros Hc Hn Hi Nd Mono Inj Uniq. unfold generate_ephemeris.
    destruct (Z.ltb_spec 1 mp) as [Hm|Hm].
    2:{ rewrite generate_one_ok by auto. reflexivity. }
    set (ecs := effective_chunk cs (zlen orbits) mp).
    assert (He : 1 <= ecs). { unfold ecs, effective_chunk. destruct (0 <? zlen orbits); lia. }
    destruct (tiles_ok orbits ecs He) as (ocs & -> & T). cbn [bind].
    destruct T as (Co & T2 & T3).
    destruct (window_ok pick mp ocs ltac:(lia)) as (Pw & _).
    set (sobs := sort (obs_leb btime bcode) observers).
    set (blk := fun o => map (fun b => observe (final o (btime b)) b) sobs).
    assert (Hin : forall c, In c ocs -> c <> [] /\ NoDup (map (fun o => (iid o, ivid o)) c)).
    { intros c Ic. split.
      - rewrite Forall_forall in T2. specialize (T2 c Ic). intros ->. unfold zlen in T2. cbn in T2. lia.
      - clear - Ic Co Nd. subst orbits. induction ocs as [|a l IH]; [easy|]. cbn in Nd. rewrite map_app in Nd. destruct Ic as [->|Ic].
        + eapply NoDup_app_l_; eauto. + eapply IH; auto. eapply NoDup_app_r_; eauto. }
    rewrite (mapM_all_ok _ (fun c => flat_map blk (sort idleb c))).
    2:{ intros c Ic. apply (Permutation_in c Pw) in Ic. destruct (Hin c Ic) as [? ?]. apply generate_one_ok; auto.
        intros o Io. apply Hi. rewrite <- Co. apply in_concat. eauto. }
    cbn [bind]. f_equal. f_equal.
    assert (P : Permutation (concat (map (fun c => flat_map blk (sort idleb c)) (fst (window pick mp ocs)))) (flat_map blk (sort idleb orbits))).
    { rewrite <- flat_map_concat_map. rewrite (Permutation_flat_map_in _ _ _ Pw). rewrite <- (Permutation_flat_map_in blk _ _ (sort_perm idleb orbits)).
      rewrite <- Co. clear. induction ocs as [|c l IH]; cbn; auto. rewrite flat_map_app. apply Permutation_app; auto.
      apply Permutation_flat_map_in. symmetry. apply sort_perm. }
    symmetry in P. symmetry.
    rewrite <- (sort_sorted_id (eleb ekey) (flat_map blk (sort idleb orbits))).
    - apply sort_perm_eq; auto.
      + intros; apply eleb_total.
      + intros x y z. apply eleb_trans.
      + intros x y Ix Iy L1 L2. destruct (eleb_antisym x y L1 L2) as [Ek].
        apply in_flat_map in Ix, Iy. destruct Ix as (a & Ia & Ix), Iy as (b & Ib & Iy). apply sort_In in Ia, Ib.
        apply in_map_iff in Ix, Iy. destruct Ix as (o1 & <- & I1), Iy as (o2 & <- & I2). unfold sobs in I1, I2. apply sort_In in I1, I2.
        rewrite !observe_key in Ek. injection Ek as E1 E2 E3 E4.
        assert (a = b) as ->. { eapply NoDup_map_eq; eauto. cbn. congruence. }
        assert (o1 = o2) as ->; auto.
    - apply blocks_sorted.
      + intros o o' x y _ _ N L Ix Iy. apply in_map_iff in Ix, Iy. destruct Ix as (b & <- & _), Iy as (b' & <- & _).
        unfold eleb. rewrite !observe_key.
        rewrite (idleb_key o o' L N). destruct (kleb (iid o', _, _) _) eqn:K2; cbn [andb]; auto.
        exfalso. apply N. apply kleb_antisym in K2. 2: now apply idleb_key. congruence.
      + intros o _. unfold blk. apply (sorted_map (obs_leb btime bcode)); [|apply obs_sorted].
        intros a b Ia Ib L. unfold sobs in Ia, Ib. apply sort_In in Ia, Ib. unfold eleb. rewrite !observe_key.
        unfold kleb. rewrite !String.eqb_refl.
        rewrite (Mono a b) by (auto; now apply obs_leb_time). destruct (tleb (utc (btime b)) (utc (btime a))) eqn:K; cbn [andb]; auto.
        assert (btime a = btime b) as Et. { apply Inj; auto. apply tleb_antisym; auto. apply Mono; auto. now apply obs_leb_time. }
        unfold obs_leb in L. assert (X : teqb (btime a) (btime b) = true) by now apply teqb_eq. now rewrite X in L.
      + now apply sorted_nodup.
      + apply idleb_sorted.
  Qed.
End EphemerisProofs.

(* propagate_orbits followed by the default ephemeris *)
Section Pairing.
  Context {I R B : Type}.
  Variables (iid ivid iorigin : I -> string).
  Variables (oid vid : R -> string) (rtime : R -> Z * Z).
  Variable backend : list I -> list (Z * Z) -> result (list R).
  Variable rescale : R -> R.
  Variable to_origin : string -> R -> R.
  Variable is_code : string -> bool.
  Variable g : I -> Z * Z -> R.
  Variables (btime : B -> Z * Z) (bcode : B -> string).
  Hypothesis Hb : per_orbit backend g.
  Hypothesis g_ids : forall o t, oid (g o t) = iid o /\ vid (g o t) = ivid o.
  Hypothesis rescale_ids : forall r, oid (rescale r) = oid r /\ vid (rescale r) = vid r.
  Hypothesis origin_ids : forall o r, oid (to_origin o r) = oid r /\ vid (to_origin o r) = vid r /\ rtime (to_origin o r) = rtime r.
  Hypothesis g_time : forall o t, rtime (rescale (g o t)) = t.

  Notation serial_propagate := (PropModel.serial_propagate iid iorigin oid vid rtime backend rescale to_origin is_code).
  Notation final_row := (PropSpec.final_row iorigin rescale to_origin g).
  Lemma serial_propagate_ok orbits os ts : one_origin iid iorigin orbits -> Forall (fun o => is_code (iorigin o) = true) orbits ->
    os <> [] -> incl os orbits -> NoDup (map (fun o => (iid o, ivid o)) os) ->
    serial_propagate os ts = Ok (sort (fun a b => kleb (oid a, vid a, rtime a) (oid b, vid b, rtime b))
      (flat_map (fun o => map (final_row o) ts) os)).
  Proof.
    intros Oo Cd Hn Hi Nd. unfold PropModel.serial_propagate.
    rewrite (propagate_ok iid ivid iorigin oid vid rtime backend (fun (vs : list unit) ts => Ok (flat_map (fun _ => ts) vs)) (fun t => (""%string, ""%string, t))
      (fun _ r => r) rescale to_origin is_code g (fun _ t => t) (fun _ => ""%string) (fun _ => ""%string) Hb); auto.
    - intros os' ts'. eexists. split. reflexivity. apply flat_map_perm_pt. intros. now rewrite map_id.
    - lia.
    - discriminate.
    - discriminate.
    - intros i j Ii Ij. apply Oo; auto.
    - rewrite Forall_forall in *. auto.
  Qed.
  Lemma final_row_key o t : (oid (final_row o t), vid (final_row o t), rtime (final_row o t)) = (iid o, ivid o, t).
  Proof.
    unfold PropSpec.final_row. destruct (origin_ids (iorigin o) (rescale (g o t))) as (-> & -> & ->). rewrite g_time.
    destruct (rescale_ids (g o t)) as [-> ->]. destruct (g_ids o t) as [-> ->]. reflexivity.
  Qed.

  Lemma pairing orbits observers : orbits <> [] -> NoDup (map (fun o => (iid o, ivid o)) orbits) ->
    one_origin iid iorigin orbits -> Forall (fun o => is_code (iorigin o) = true) orbits ->
    exists l, generate_one btime bcode serial_propagate pair orbits observers = Ok l /\
      Forall (fun rb => rtime (fst rb) = btime (snd rb)) l /\
      Permutation l (flat_map (fun o => map (fun b => (final_row o (btime b), b)) observers) orbits).
  Proof.
    intros Hn Nd Oo Cd.
    rewrite (generate_one_ok iid ivid oid vid rtime btime bcode serial_propagate pair final_row final_row_key orbits); auto.
    2:{ intros os N2 I2 Nd2 ts. now apply serial_propagate_ok with (orbits := orbits). }
    2: apply incl_refl.
    eexists. split. reflexivity. split.
    - apply Forall_forall. intros [r b] H. apply in_flat_map in H. destruct H as (o & _ & H). apply in_map_iff in H.
      destruct H as (b' & E & _). injection E as <- <-. cbn. pose proof (final_row_key o (btime b')). congruence.
    - rewrite <- (Permutation_flat_map_in _ _ _ (sort_perm (PropSpec.idleb iid ivid) orbits)).
      apply flat_map_perm_pt. intros. apply Permutation_map. symmetry. apply sort_perm.
  Qed.

  Lemma ephemeris_any_schedule {E} (observe : R -> B -> E) (ekey : E -> key * string) (to_utc : E -> E) (utc : Z * Z -> Z * Z) pick mp cs orbits observers :
    (forall o b, ekey (observe (final_row o (btime b)) b) = (iid o, ivid o, utc (btime b), bcode b)) ->
    1 <= cs -> orbits <> [] -> NoDup (map (fun o => (iid o, ivid o)) orbits) ->
    one_origin iid iorigin orbits -> Forall (fun o => is_code (iorigin o) = true) orbits ->
    (forall a b, In a observers -> In b observers -> tltb (btime a) (btime b) = true -> tltb (utc (btime a)) (utc (btime b)) = true) ->
    (forall a b, In a observers -> In b observers -> btime a = btime b -> bcode a = bcode b -> a = b) ->
    generate_ephemeris btime bcode serial_propagate observe ekey to_utc pick mp cs orbits observers =
    Ok (flat_map (fun o => map (fun b => to_utc (observe (final_row o (btime b)) b)) (sort (obs_leb btime bcode) observers)) (sort (PropSpec.idleb iid ivid) orbits)).
  Proof.
    intros Hk Hc Hn Nd Oo Cd Mono Uniq.
    assert (Split : forall a b, tleb a b = true -> tltb a b = true \/ a = b).
    { intros [a1 a2] [b1 b2]. unfold tleb, tltb. cbn. intros. destruct (Z.eq_dec a1 b1), (Z.eq_dec a2 b2); subst; auto; left; lia. }
    assert (Lt : forall a b, tltb a b = true -> tleb a b = true) by (intros [? ?] [? ?]; unfold tleb, tltb; cbn; lia).
    rewrite (generate_ephemeris_ok iid ivid oid vid rtime btime bcode serial_propagate observe ekey to_utc final_row final_row_key orbits) with (utc := utc); auto.
    - rewrite !flat_map_concat_map, concat_map, map_map. do 2 f_equal. apply map_ext. intros o. now rewrite map_map.
    - intros os N2 I2 Nd2 ts. now apply serial_propagate_ok with (orbits := orbits).
    - apply incl_refl.
    - intros a b Ia Ib L. destruct (Split _ _ L) as [S| ->]. apply Lt; auto. destruct (tleb_total (utc (btime b)) (utc (btime b))); auto.
    - intros a b Ia Ib E0. destruct (tleb_total (btime a) (btime b)) as [L|L]; destruct (Split _ _ L) as [S|S]; auto; exfalso.
      + apply Mono in S; auto. rewrite E0 in S. unfold tltb in S. lia.
      + apply Mono in S; auto. rewrite E0 in S. unfold tltb in S. lia.
  Qed.
End Pairing.

Lemma empty_orbits : forall (I R : Type) (iid iorigin : I -> string) (oid vid : R -> string) (rtime : R -> Z * Z)
    backend rescale to_origin is_code pick cs ts r,
  1 <= cs -> backend [] (sort tleb ts) = Ok r ->
  propagate_orbits iid iorigin oid vid rtime backend (fun (vs : list unit) ts => Ok (flat_map (fun _ => ts) vs))
    (fun t => (""%string, ""%string, t)) (fun _ x => x) rescale to_origin is_code pick 1 cs None [] ts = Err AttributeError /\
  propagate_orbits iid iorigin oid vid rtime backend (fun (vs : list unit) ts => Ok (flat_map (fun _ => ts) vs))
    (fun t => (""%string, ""%string, t)) (fun _ x => x) rescale to_origin is_code pick 2 cs None [] ts = Err ValueError.
Proof.
  intros. split.
  - unfold propagate_orbits. cbn [Z.ltb]. change (1 <? 1) with false. cbn iota. rewrite H0. reflexivity.
  - unfold propagate_orbits. change (1 <? 2) with true. cbn iota.
    destruct (tiles_ok (@nil I) cs H) as (ocs & -> & (Co & F & _)). cbn [bind].
    destruct ocs as [|c ocs]. reflexivity. exfalso. inversion F as [|? ? F1 _]; subst. cbn in Co. apply app_eq_nil in Co. destruct Co as [-> _]. unfold zlen in F1. cbn in F1. lia.
Qed.
Lemma ensure_one_row : forall (I R : Type) (iid iorigin : I -> string) (oid : R -> string) to_origin is_code inputs results,
  inputs <> [] -> one_origin iid iorigin inputs -> Forall (fun i => is_code (iorigin i) = true) inputs ->
  (forall r, In r results -> In (oid r) (map iid inputs)) ->
  exists l, ensure_origin iid iorigin oid to_origin is_code inputs results = Ok (Some l) /\
    (forall h : R -> R, (forall r i, In i inputs -> iid i = oid r -> h r = to_origin (iorigin i) r) -> Permutation l (map h results)).
Proof.
  intros. destruct (ensure_ok iid iorigin oid to_origin is_code inputs results) as (l & E & P); auto.
  exists l. split; auto. intros h Hh. rewrite P. match goal with |- Permutation ?a ?b => cut (a = b); [intros ->; reflexivity|] end.
  apply map_ext_in. intros r Ir. apply H2 in Ir. apply in_map_iff in Ir. destruct Ir as (i & Ei & Ii).
  rewrite <- Ei, (origin_of_some iid iorigin inputs i) by auto. symmetry. now apply Hh.
Qed.
Lemma ensure_no_table : forall (I R : Type) (iid iorigin : I -> string) (oid : R -> string) to_origin is_code,
  (forall results, ensure_origin iid iorigin oid to_origin is_code [] results = Ok None) /\
  (forall inputs results, (exists i, In i inputs /\ is_code (iorigin i) = false) ->
     ensure_origin iid iorigin oid to_origin is_code inputs results = Err KeyError).
Proof.
  intros. split. reflexivity. intros inputs results (i & Ii & Ci). unfold ensure_origin.
  assert (X : In (iorigin i) (uniq String.eqb (map iorigin inputs))).
  { apply uniq_In. intros; apply String.eqb_eq. now apply in_map. }
  assert (Y : mapM (ensure_step iid iorigin oid to_origin is_code inputs results) (uniq String.eqb (map iorigin inputs)) = Err KeyError).
  { revert X. generalize (uniq String.eqb (map iorigin inputs)). induction l as [|k l IH]; [easy|]. intros [->|Ik]; cbn.
    - unfold ensure_step at 1. now rewrite Ci.
    - unfold ensure_step at 1. destruct (is_code k); cbn; auto. now rewrite IH. }
  rewrite Y. reflexivity.
Qed.
