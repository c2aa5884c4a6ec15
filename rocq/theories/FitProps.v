From Coq Require Import Reals String QArith Sorted Permutation.
From Flocq Require Import Core.
From Verif Require Import Base StrOrder TimeRModel FitModel FitRModel FitSpec FitProofs FitRProofs.
Open Scope list_scope.
Open Scope string_scope.

(* C36: every observation keeps exactly one orbit, the best of those that claimed it; nothing else changes *)
Theorem C36_memberships os ms os' ms' : consistent os ms ->
  assign_duplicate_observations os ms = (os', ms') ->
  subseq ms' ms
  /\ (forall m, In m ms -> exists m', In m' ms' /\ m_obs m' = m_obs m)
  /\ (forall m m', In m ms' -> In m' ms' -> m_obs m = m_obs m' -> m_orbit m = m_orbit m')
  /\ (forall m o o', In m ms' -> In o os -> In o' os -> fo_id o = m_orbit m ->
        claims ms (fo_id o') (m_obs m) -> at_least_as_good o o')
  /\ (forall m m', In m ms -> In m' ms' -> m_obs m = m_obs m' -> m_orbit m = m_orbit m' -> In m ms').
Proof. exact (assign_members os ms os' ms'). Qed.
(* C36: an orbit remains exactly when it has a remaining member; no member refers to a dropped orbit *)
Theorem C36_orbits os ms os' ms' : consistent os ms ->
  assign_duplicate_observations os ms = (os', ms') ->
  (forall o, In o os' <-> In o os /\ exists m, In m ms' /\ m_orbit m = fo_id o)
  /\ NoDup (map fo_id os')
  /\ (forall m, In m ms' -> In (m_orbit m) (map fo_id os'))
  /\ StronglySorted at_least_as_good os'.
Proof. exact (assign_orbits os ms os' ms'). Qed.
Definition ex_os := [mkfit "a" 2 1 (1#2); mkfit "b" 3 5 (3#2); mkfit "c" 1 9 (1#9)].
Definition ex_ms := [mkmem "a" "x" None 0; mkmem "a" "y" None 0; mkmem "b" "x" None 0; mkmem "b" "z" None 0; mkmem "b" "w" None 0; mkmem "c" "w" None 0].
Example C36_case : consistent ex_os ex_ms /\
  map fo_id (fst (assign_duplicate_observations ex_os ex_ms)) = ["b"; "a"] /\
  map (fun m => (m_orbit m, m_obs m)) (snd (assign_duplicate_observations ex_os ex_ms)) = [("a","y");("b","x");("b","z");("b","w")].
Proof.
  split; [|split; vm_compute; reflexivity]. split; [repeat constructor; cbn; intuition discriminate|].
  intros m Hm. cbn in Hm. repeat destruct Hm as [<-|Hm]; cbn; tauto.
Qed.

(* C37: with correct counts before, an orbit's count stays correct exactly when it lost nothing *)
Theorem C37_counts_partial os ms os' ms' : consistent os ms ->
  (forall o, In o os -> fo_nobs o = Z.of_nat (List.length (members_of ms (fo_id o)))) ->
  assign_duplicate_observations os ms = (os', ms') ->
  forall o, In o os' ->
    (Z.of_nat (List.length (members_of ms' (fo_id o))) <= fo_nobs o)%Z /\
    (fo_nobs o = Z.of_nat (List.length (members_of ms' (fo_id o))) <->
     forall m, In m ms -> m_orbit m = fo_id o -> In m ms').
Proof. exact (assign_counts os ms os' ms'). Qed.
Theorem C37_counts_refuted : exists os ms os' ms' o,
  consistent os ms /\ (forall o, In o os -> fo_nobs o = Z.of_nat (List.length (members_of ms (fo_id o)))) /\
  assign_duplicate_observations os ms = (os', ms') /\ In o os' /\
  fo_nobs o <> Z.of_nat (List.length (members_of ms' (fo_id o))).
Proof.
  exists ex_os, ex_ms. eexists _, _, (mkfit "a" 2 1 (1#2)). split; [apply C36_case|]. split.
  { intros o Ho. cbn in Ho. repeat destruct Ho as [<-|Ho]; try reflexivity. destruct Ho. }
  split; [vm_compute; reflexivity|]. split; [cbn; auto|]. vm_compute. discriminate.
Qed.
Example C37_case : exists os' ms', assign_duplicate_observations ex_os ex_ms = (os', ms') /\
  exists o, In o os' /\ fo_nobs o = Z.of_nat (List.length (members_of ms' (fo_id o))).
Proof. do 2 eexists. split; [vm_compute; reflexivity|]. exists (mkfit "b" 3 5 (3#2)). split; [cbn; auto|vm_compute; reflexivity]. Qed.

(* C38: one representative per key, the first / last; exactly the members of kept orbits *)
Theorem C38_representatives {A K} (key : A -> K) (id : A -> string) (same : A -> A -> bool) keep_first os ms os' ms' :
  (forall a b, same a b = true <-> key a = key b) ->
  drop_duplicate_orbits id same keep_first os ms = (os', ms') ->
  NoDup (map key os')
  /\ (forall o, In o os -> exists o', In o' os' /\ key o' = key o)
  /\ (forall o, In o os' <-> (if keep_first then first_with key os o else last_with key os o))
  /\ subseq ms' ms
  /\ (forall m, In m ms' <-> In m ms /\ In (m_orbit m) (map id os'))
  /\ (forall i, In i (map id os') -> members_of ms' i = members_of ms i).
Proof. exact (drop_all key id same keep_first os ms os' ms'). Qed.
Definition ex_states := [("o1", 5%Z); ("o2", 7%Z); ("o3", 5%Z)].
Example C38_case :
  map fst (fst (drop_duplicate_orbits fst (fun a b => Z.eqb (snd a) (snd b)) true ex_states [mkmem "o1" "x" None 0; mkmem "o3" "x" None 0])) = ["o1"; "o2"] /\
  map m_orbit (snd (drop_duplicate_orbits fst (fun a b => Z.eqb (snd a) (snd b)) false ex_states [mkmem "o1" "x" None 0; mkmem "o3" "x" None 0])) = ["o3"].
Proof. vm_compute. auto. Qed.

(* C39: the budget leaves min_obs observations and respects a whole-number percentage *)
Theorem C39_budget n min_obs p : (0 <= min_obs <= n)%Z -> (n <= 2 ^ 40)%Z -> (0 <= p <= 100)%Z ->
  exists out, calculate_max_outliers n min_obs (IZR p) = Ok out /\
    (0 <= out)%Z /\ (min_obs <= n - out)%Z /\ (100 * out <= n * p)%Z.
Proof. exact (cmo_whole n min_obs p). Qed.
(* C39: for every percentage, up to the rounding of one product *)
Theorem C39_budget_any n min_obs pct : (0 <= min_obs <= n)%Z -> (n <= 2 ^ 53)%Z -> (0 <= pct <= 100)%R ->
  exists out, calculate_max_outliers n min_obs pct = Ok out /\
    (0 <= out)%Z /\ (min_obs <= n - out)%Z /\ (100 * IZR out <= IZR n * pct * (1 + bpow radix2 (-51)))%R.
Proof. exact (cmo_any n min_obs pct). Qed.
Theorem C39_errors n min_obs pct : (n < min_obs)%Z \/ (pct < 0)%R \/ (100 < pct)%R ->
  calculate_max_outliers n min_obs pct = Err AssertionError.
Proof. exact (cmo_err n min_obs pct). Qed.
Example C39_case : calculate_max_outliers 50 6 58 = Ok 28%Z.
Proof. rewrite cmo_ok; [f_equal; apply budget_58; lia|lia|split; apply IZR_le; lia]. Qed.

(* C96: the budget is not always the largest number the percentage allows, nor always within it *)
Theorem C96_full_budget_refuted : exists n min_obs p out,
  (0 <= min_obs <= n)%Z /\ (0 <= p <= 100)%Z /\ calculate_max_outliers n min_obs (IZR p) = Ok out /\
  (100 * (out + 1) <= n * p)%Z /\ (min_obs <= n - (out + 1))%Z.
Proof. exists 50%Z, 6%Z, 58%Z, 28%Z. split; [lia|]. split; [lia|]. split; [exact C39_case|lia]. Qed.
Theorem C96_over_budget_refuted : exists n min_obs pct out,
  is_f64 pct /\ (0 <= pct <= 100)%R /\ calculate_max_outliers n min_obs pct = Ok out /\
  (IZR n * pct < 100 * IZR out)%R.
Proof.
  exists 5%Z, 0%Z, pct60, 3%Z. destruct budget_60 as (E & L & F & B). repeat apply conj; try tauto.
  - rewrite cmo_ok by (tauto || lia). now rewrite E.
  - Lra.lra.
Qed.
Theorem C96_close_partial n min_obs pct : (0 <= min_obs <= n)%Z -> (n <= 2 ^ 40)%Z -> (0 <= pct <= 100)%R ->
  exists out, calculate_max_outliers n min_obs pct = Ok out /\
   ((IZR n * pct / 100 < IZR out + 1 + / 2)%R \/ out = (n - min_obs)%Z).
Proof. exact (fun H1 H2 H3 => ex_intro _ (budget n min_obs pct) (conj (cmo_ok n min_obs pct (proj2 H1) H3) (budget_lower n min_obs pct H1 H2 H3))). Qed.

(* C40: errors, and what is returned: a worst observation and the other members' observations *)
Theorem C40_worst_partial ms obs :
  match remove_lowest_probability_observation ms obs with
  | Err e => (e = AssertionError /\ (~ (exists id, ms <> [] /\ forall m, In m ms -> m_orbit m = id) \/ exists m, In m ms /\ ~ In (m_obs m) obs)) \/
             (e = IndexError /\ forall m, In m ms -> m_prob m = None)
  | Ok (w, obs') => (exists m, worst_member ms m /\ m_obs m = w) /\ subseq obs' obs /\
      forall o, In o obs' <-> In o obs /\ o <> w /\ In o (map m_obs ms)
  end.
Proof. exact (remove_cases ms obs). Qed.
Theorem C40_members_only_partial ms obs w obs' : remove_lowest_probability_observation ms obs = Ok (w, obs') ->
  (forall o, In o obs -> In o (map m_obs ms)) -> obs' = filter (fun o => negb (String.eqb o w)) obs.
Proof. exact (remove_exact ms obs w obs'). Qed.
Definition ex_members := [mkmem "a" "x" (Some (1#2)) 1; mkmem "a" "y" (Some (1#10)) 2; mkmem "a" "z" (Some (1#10)) 3; mkmem "a" "u" None 9].
Example C40_case : remove_lowest_probability_observation ex_members ["u"; "z"; "y"; "x"] = Ok ("z", ["u"; "y"; "x"]).
Proof. vm_compute. reflexivity. Qed.
(* an observation that is not a member of the orbit is dropped as well *)
Theorem C40_other_observations_refuted : exists ms obs w obs' o,
  remove_lowest_probability_observation ms obs = Ok (w, obs') /\ In o obs /\ o <> w /\ ~ In o obs'.
Proof.
  exists ex_members, ["u"; "z"; "y"; "x"; "free"]. eexists _, _, "free". split; [vm_compute; reflexivity|].
  split; [cbn; tauto|]. split; [discriminate|]. cbn. intuition discriminate.
Qed.

(* C47: observations sorted by time and observatory are each compared with their own prediction *)
Theorem C47_own_prediction_partial {O V P R} (oid : O -> string) (predict : O -> Z * Z -> string -> P) (resid : V -> P -> R)
  chi2 dof parameters ignore orbits obs : NoDup (map oid orbits) -> orbits <> [] ->
  StronglySorted (fun a b => oleb_obs a b = true) obs ->
  (exists b, In b obs /\ ~ In (ob_id b) ignore) ->
  exists os fs ms, evaluate_orbits oid predict resid chi2 dof orbits obs parameters ignore = Ok (fs, ms) /\
    Permutation orbits os /\
    StronglySorted (fun a b => str_leb (oid a) (oid b) = true) os /\
    Forall2 (fun ob m => member_of oid predict resid ignore (fst ob) (snd ob) m) (list_prod os obs) ms /\
    exists used, (forall b, In b used <-> In b obs /\ ~ In (ob_id b) ignore) /\ subseq used obs /\
      Forall2 (orbit_of oid predict resid chi2 dof parameters used) os fs.
Proof. exact (evaluate_own oid predict resid chi2 dof parameters ignore orbits obs). Qed.
Theorem C47_duplicate_ids {O V P R} (oid : O -> string) (predict : O -> Z * Z -> string -> P) (resid : V -> P -> R)
  chi2 dof parameters ignore orbits obs : ~ NoDup (map oid orbits) ->
  evaluate_orbits oid predict resid chi2 dof orbits obs parameters ignore = Err AssertionError.
Proof. exact (evaluate_duplicate oid predict resid chi2 dof parameters ignore orbits obs). Qed.
(* a toy sky: an orbit [o] is at position o * day, residual = observed - predicted *)
Definition toy := evaluate_orbits (O := string * Z) (V := Z) (P := Z) (R := Z) fst (fun o t _ => snd o * fst t)%Z Z.sub
  (fun r => inject_Z (r * r)) (fun _ => 2%Z).
Example C47_case :
  let obs := [mkobs "n1" (1, 0)%Z "500" 3%Z; mkobs "n2" (2, 0)%Z "500" 7%Z; mkobs "bad" (3, 0)%Z "500" 70%Z] in
  toy [("q", 2%Z); ("p", 3%Z)] obs 1 ["bad"] = Ok
   ([mkfo "p" 2 86400000000000 (1 + 0) (Some ((1 + 0) / 3)); mkfo "q" 2 86400000000000 (1 + 9) (Some ((1 + 9) / 3))]%Q,
    [mkfm "p" "n1" 0%Z false; mkfm "p" "n2" 1%Z false; mkfm "p" "bad" 61%Z true;
     mkfm "q" "n1" 1%Z false; mkfm "q" "n2" 3%Z false; mkfm "q" "bad" 64%Z true]).
Proof. vm_compute. reflexivity. Qed.
(* the same observations in another order: a perfect orbit gets non-zero residuals *)
Theorem C47_unsorted_refuted : exists orbits obs fs ms m b o,
  toy orbits obs 0 [] = Ok (fs, ms) /\ NoDup (map fst orbits) /\ NoDup (map ob_id obs) /\
  In o orbits /\ In b obs /\ In m ms /\ fm_orbit m = fst o /\ fm_obs m = ob_id b /\
  fm_resid m <> (ob_value b - snd o * fst (ob_time b))%Z.
Proof.
  set (b1 := mkobs "n1" (1, 0)%Z "500" 3%Z). set (b2 := mkobs "n2" (2, 0)%Z "500" 6%Z).
  exists [("p", 3%Z)], [b2; b1]. eexists _, _, (mkfm "p" "n2" 3%Z false), b2, ("p", 3%Z).
  split; [vm_compute; reflexivity|]. split; [repeat constructor; cbn; intuition discriminate|].
  split; [repeat constructor; cbn; intuition discriminate|]. repeat split; try (cbn; tauto). discriminate.
Qed.

Print Assumptions C36_memberships.
Print Assumptions C36_orbits.
Print Assumptions C37_counts_partial.
Print Assumptions C37_counts_refuted.
Print Assumptions C38_representatives.
Print Assumptions C39_budget.
Print Assumptions C39_budget_any.
Print Assumptions C39_errors.
Print Assumptions C96_full_budget_refuted.
Print Assumptions C96_over_budget_refuted.
Print Assumptions C96_close_partial.
Print Assumptions C40_worst_partial.
Print Assumptions C40_members_only_partial.
Print Assumptions C40_other_observations_refuted.
Print Assumptions C47_own_prediction_partial.
Print Assumptions C47_duplicate_ids.
Print Assumptions C47_unsorted_refuted.
