(* Impact properties: C63, C64, C109, C110. *)
From Coq Require Import String QArith Lia.
From Verif Require Import Base TimeModel TimeSpec ImpModel ImpSpec ImpProofs.
Open Scope string_scope.
Open Scope Z_scope.
Open Scope list_scope.

Definition ev (o v c : string) (n : Z) : event := mkevent o v c (mkrow 60000 n).
(* C63 refuted: one variant that enters the collision distance twice under a condition that does
   not stop the propagation counts twice *)
Theorem C63_probability_refuted : exists vs es rs r,
  NoDup (map (fun v => (vo_orbit v, vo_variant v)) vs) /\
  (forall e, In e es -> exists v, In v vs /\ vo_orbit v = e_orbit e /\ vo_variant v = e_variant e) /\
  calculate_impact_probabilities "tdb" "tdb" vs es (Some [mkcond "near" "EARTH" false]) = Ok (Some rs) /\
  In r rs /\ (i_prob r == 2)%Q.
Proof.
  exists [mkvorbit "a" "0"], [ev "a" "0" "near" 1; ev "a" "0" "near" 5]. eexists. eexists.
  split; [repeat constructor; auto|].
  split. { intros e He. exists (mkvorbit "a" "0"). cbn in He. destruct He as [<-|[<-|[]]]; cbn; auto. }
  split; [vm_compute; reflexivity|]. split; [cbn; left; reflexivity|reflexivity].
Qed.
Print Assumptions C63_probability_refuted.
(* with at most one event per variant and condition, the probability is the fraction of the
   orbit's variants that impact, and lies in [0, 1] *)
Theorem C63_probability_partial : forall vscale escale vs es conds rs r,
  NoDup (map (fun v => (vo_orbit v, vo_variant v)) vs) ->
  NoDup (map (fun e => (e_orbit e, e_variant e, e_cond e)) es) ->
  (forall e, In e es -> exists v, In v vs /\ vo_orbit v = e_orbit e /\ vo_variant v = e_variant e) ->
  calculate_impact_probabilities vscale escale vs es conds = Ok (Some rs) -> In r rs ->
  exists k n, counts (fun v => vo_orbit v = i_orbit r /\ impacts_under es (i_cond r) v) vs k /\
    counts (fun v => vo_orbit v = i_orbit r) vs n /\ 0 <= k <= n /\ 0 < n /\
    (i_prob r == k # Z.to_pos n)%Q /\ (0 <= i_prob r /\ i_prob r <= 1)%Q.
Proof.
  intros vscale escale vs es conds rs r NV NE SB H Hr.
  destruct (prob_rows _ _ _ _ _ _ H r Hr) as [o [c [Ho [_ ->]]]].
  destruct (prob_row_fields vscale escale vs es o c) as [F1 [F2 [F3 [F4 [F5 _]]]]]. cbv zeta in *.
  rewrite F1, F2. destruct (one_event_each vs es o c NV NE SB) as [k [Ck Ek]].
  pose proof (counts_filter (fun v => vo_orbit v = o) (fun v => String.eqb (vo_orbit v) o) vs (fun x => String.eqb_eq _ _)) as Cn.
  exists k, (Z.of_nat (List.length (filter (fun v => String.eqb (vo_orbit v) o) vs))).
  set (n := Z.of_nat (List.length (filter (fun v => String.eqb (vo_orbit v) o) vs))) in *.
  assert (B : 0 <= k <= n). { split; [eapply counts_nonneg; eauto|]. refine (counts_le _ _ vs k n _ Ck Cn). cbn. intros x [X _]. exact X. }
  assert (P : 0 < n).
  { unfold n. apply in_map_iff in Ho. destruct Ho as [v [E Hv]].
    assert (X : In v (filter (fun v => String.eqb (vo_orbit v) o) vs)) by (apply filter_In; split; auto; apply String.eqb_eq; auto).
    destruct (filter _ vs); [destruct X|cbn [List.length]; lia]. }
  split; [exact Ck|]. split; [exact Cn|]. split; [exact B|]. split; [exact P|].
  rewrite F5, F4, F3, Ek. clearbody n.
  assert (E : (inject_Z k / inject_Z n == k # Z.to_pos n)%Q).
  { destruct n; try lia. cbn. unfold Qdiv, Qmult, Qeq. cbn. lia. }
  split; [exact E|]. rewrite E. unfold Qle. cbn. rewrite Z2Pos.id by lia. lia.
Qed.
Print Assumptions C63_probability_partial.
Example C63_case : option_map (map i_prob) (match
  calculate_impact_probabilities "tdb" "tdb" [mkvorbit "a" "0"; mkvorbit "a" "1"; mkvorbit "b" "0"] [ev "a" "1" "Default" 3] None
  with Ok x => x | Err _ => None end) = Some [1 # 2; 0 # 1]%Q.
Proof. vm_compute. reflexivity. Qed.

(* C109: one row per orbit and condition, in that order, with the number of that orbit's events
   under the condition; the reported times are those of the first and last event and the mean (in
   exact arithmetic) lies between them; all three are missing without events *)
Theorem C109_rows : forall vscale escale vs es conds rs,
  calculate_impact_probabilities vscale escale vs es conds = Ok (Some rs) ->
  map (fun r => (i_orbit r, i_cond r)) rs =
    flat_map (fun o => map (fun c => (o, c_id c)) (match conds with Some l => l | None => default_conditions end)) (uniq String.eqb (map vo_orbit vs)) /\
  forall r, In r rs -> counts (hit (i_orbit r) (i_cond r)) es (i_impacts r) /\
    counts (fun v => vo_orbit v = i_orbit r) vs (i_variants r) /\
    (i_impacts r = 0 -> i_mean r = None /\ i_min r = None /\ i_max r = None) /\
    (0 < i_impacts r -> Forall (fun e => normal (e_time e)) es ->
       exists lo hi m, i_min r = Some lo /\ i_max r = Some hi /\ i_mean r = Some m /\
         (exists e, In e es /\ hit (i_orbit r) (i_cond r) e /\ e_time e = lo) /\
         (exists e, In e es /\ hit (i_orbit r) (i_cond r) e /\ e_time e = hi) /\
         (forall e, In e es -> hit (i_orbit r) (i_cond r) e -> instant lo <= instant (e_time e) <= instant hi) /\
         (mjd lo <= m /\ m <= mjd hi)%Q).
Proof.
  intros vscale escale vs es conds rs H. split.
  - rewrite (prob_complete _ _ _ _ _ _ H). fold (or_default default_conditions conds). generalize (uniq String.eqb (map vo_orbit vs)). clear H.
    induction l as [|o l IH]; auto. cbn [flat_map]. rewrite map_app, map_map, IH. f_equal.
    apply map_ext. intros c. destruct (prob_row_fields vscale escale vs es o (c_id c)) as [F1 [F2 _]]. cbv zeta in *. rewrite F1, F2. auto.
  - intros r Hr. destruct (prob_rows _ _ _ _ _ _ H r Hr) as [o [c [Ho [_ ->]]]].
    pose proof (prob_row_fields vscale escale vs es o c) as F. cbv zeta in F. destruct F as [F1 [F2 [F3 [F4 [F5 [_ F7]]]]]].
    rewrite F1, F2. split; [rewrite F3; apply counts_filter; intros; apply hitb_hit|].
    split; [rewrite F4; apply counts_filter; intros; apply String.eqb_eq|]. split.
    + intros Z0. rewrite F3 in Z0. destruct (filter (hitb o c) es); [exact F7|cbn in Z0; lia].
    + intros Z0 N. apply impact_times; auto. rewrite F3 in Z0. destruct (filter (hitb o c) es) as [|e l] eqn:E; [cbn in Z0; lia|].
      assert (X : In e (filter (hitb o c) es)) by (rewrite E; cbn; auto). apply filter_In in X. destruct X. exists e. split; auto. apply hitb_hit. auto.
Qed.
Print Assumptions C109_rows.
Example C109_case : option_map (map (fun r => (i_orbit r, i_impacts r, i_min r, i_max r))) (match
  calculate_impact_probabilities "tdb" "tdb" [mkvorbit "a" "0"; mkvorbit "a" "1"; mkvorbit "b" "0"] [ev "a" "1" "Default" 9; ev "a" "0" "Default" 3] None
  with Ok x => x | Err _ => None end) = Some [("a", 2, Some (mkrow 60000 3), Some (mkrow 60000 9)); ("b", 0, None, None)].
Proof. vm_compute. reflexivity. Qed.

(* C64 refuted: nothing that detect_collisions finds with its default conditions is ever counted by
   calculate_impact_probabilities with its default conditions *)
Theorem C64_defaults_refuted : forall backend vs vscale escale rs r, sound_backend backend ->
  calculate_impact_probabilities vscale escale vs (detect_collisions backend vs None) None = Ok (Some rs) -> In r rs ->
  i_impacts r = 0 /\ (i_prob r == 0)%Q.
Proof.
  intros backend vs vscale escale rs r SB H Hr.
  destruct (prob_rows _ _ _ _ _ _ H r Hr) as [o [c [Ho [Hc ->]]]]. cbn in Hc. destruct Hc as [<-|[]].
  destruct (prob_row_fields vscale escale vs (detect_collisions backend vs None) o "Default") as [_ [_ [F3 [F4 [F5 _]]]]]. cbv zeta in *.
  assert (E : filter (hitb o "Default") (detect_collisions backend vs None) = []).
  { assert (G : forall l, (forall e, In e l -> e_cond e = "Earth") -> filter (hitb o "Default") l = []).
    { induction l as [|e l IH]; intros HE; auto. cbn. unfold hitb. rewrite (HE e) by (cbn; auto). cbn. rewrite andb_false_r. apply IH. intros. apply HE. cbn. auto. }
    apply G. intros e He. apply SB in He. destruct He as [_ [c [Hc Ec]]]. cbn in Hc. destruct Hc as [<-|[]]. auto. }
  rewrite F5, F3, E. split; auto. cbn. unfold Qdiv. apply Qmult_0_l.
Qed.
Print Assumptions C64_defaults_refuted.
(* calculate_impacts uses the same default as calculate_impact_probabilities: every event counts *)
Theorem C64_defaults_partial : forall backend vs vscale escale rs e conds, sound_backend backend ->
  calculate_impact_probabilities vscale escale vs (calculate_impacts backend vs conds) conds = Ok (Some rs) ->
  In e (calculate_impacts backend vs conds) ->
  exists r, In r rs /\ i_orbit r = e_orbit e /\ i_cond r = e_cond e /\ 0 < i_impacts r.
Proof.
  intros backend vs vscale escale rs e conds SB H He. pose proof (SB _ _ _ He) as [[v [Hv [V1 _]]] [c [Hc C1]]].
  cbn [or_default] in Hc.
  exists (prob_row vscale escale vs (calculate_impacts backend vs conds) (e_orbit e) (c_id c)).
  destruct (prob_row_fields vscale escale vs (calculate_impacts backend vs conds) (e_orbit e) (c_id c)) as [F1 [F2 [F3 _]]]. cbv zeta in *.
  split; [|rewrite F1, F2, F3, C1; split; auto; split; auto].
  - rewrite (prob_complete _ _ _ _ _ _ H). apply in_flat_map. exists (e_orbit e). split.
    + apply uniq_In; [intros; apply String.eqb_eq|]. rewrite <- V1. apply in_map. auto.
    + apply in_map_iff. exists c. auto.
  - assert (X : In e (filter (hitb (e_orbit e) (e_cond e)) (calculate_impacts backend vs conds))).
    { apply filter_In. split; auto. apply hitb_hit. split; auto. }
    destruct (filter (hitb (e_orbit e) (e_cond e)) (calculate_impacts backend vs conds)); [destruct X|cbn [List.length]; lia].
Qed.
Print Assumptions C64_defaults_partial.
Definition all_hit (vs : list vorbit) (cs : list condition) : list event :=
  flat_map (fun v => map (fun c => ev (vo_orbit v) (vo_variant v) (c_id c) 7) cs) vs.
Example C64_case : sound_backend all_hit /\
  (match calculate_impact_probabilities "tdb" "tdb" [mkvorbit "a" "0"] (detect_collisions all_hit [mkvorbit "a" "0"] None) None with
   | Ok (Some [r]) => i_impacts r | _ => -1 end) = 0 /\
  (match calculate_impact_probabilities "tdb" "tdb" [mkvorbit "a" "0"] (calculate_impacts all_hit [mkvorbit "a" "0"] None) None with
   | Ok (Some [r]) => i_impacts r | _ => -1 end) = 1.
Proof.
  split; [|split; vm_compute; reflexivity]. intros vs cs e He. unfold all_hit in He. apply in_flat_map in He. destruct He as [v [Hv He]].
  apply in_map_iff in He. destruct He as [c [<- Hc]]. split; [exists v; auto|exists c; auto].
Qed.

(* C110 refuted: no variants give None instead of a table; and when the events carry another time
   scale than the variants, one orbit with and one without impacts make the call fail *)
Theorem C110_empty_refuted : forall vscale escale es conds,
  calculate_impact_probabilities vscale escale [] es conds = Ok None.
Proof. reflexivity. Qed.
Print Assumptions C110_empty_refuted.
Theorem C110_scales_refuted : exists vs es,
  calculate_impact_probabilities "utc" "tdb" vs es None = Err RuntimeError /\
  is_ok (calculate_impact_probabilities "tdb" "tdb" vs es None) = true.
Proof.
  exists [mkvorbit "a" "0"; mkvorbit "b" "0"], [ev "a" "0" "Default" 3]. split; vm_compute; reflexivity.
Qed.
Print Assumptions C110_scales_refuted.
Theorem C110_total_partial : forall scale vs es conds, vs <> [] -> conds <> Some [] ->
  exists rs, calculate_impact_probabilities scale scale vs es conds = Ok (Some rs).
Proof. intros scale vs es conds NV NC. apply prob_ok; auto. destruct conds as [[|]|]; cbn; try discriminate; exfalso; apply NC; reflexivity. Qed.
Print Assumptions C110_total_partial.
Example C110_case : is_ok (calculate_impact_probabilities "tdb" "tdb" [mkvorbit "a" "0"; mkvorbit "b" "0"] [] None) = true.
Proof. reflexivity. Qed.
