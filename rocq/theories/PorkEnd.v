From Coq Require Import Reals Lra Psatz.
From Coq Require Import List String Bool ZArith Lia Permutation Sorted.
From Verif Require Import Base ListLemmas SchedModel SchedSpec SchedProofs TimeModel TimeScaleProofs SphModel KepModel KepSpec KepElem FrameProofs UnivModel UnivSpec LightModel FrameModel
  LambertModel LambertGeom LambertRun LambertEnd LambertProps PorkModel PorkSpec PorkProofs PorkMore PorkPlot.
Import ListNotations.
Open Scope string_scope.
Open Scope list_scope.
Open Scope R_scope.
Local Notation instant := PorkSpec.instant.

Section G.
Variables (mu : string -> result R) (o : string) (m : R) (pro : bool) (n : nat) (tol : R).
Hypothesis mu_ok : mu o = Ok m.
Notation rf := (row_for o m pro n tol).
Notation gen pick mp deps arrs := (generate mu pick mp deps arrs o pro n tol).

Lemma row_in : forall pick mp deps arrs s x, gen pick mp deps arrs = Ok s -> In x (s_rows s) ->
  exists d a, In d (t_rows deps) /\ In a (t_rows arrs) /\ x = rf (d, a) /\ rlt (mjdR (b_time d)) (mjdR (b_time a)) = true.
Proof.
  intros pick mp deps arrs s x H I. destruct (generate_rows mu o m pro n tol mu_ok pick mp deps arrs s H) as (P & _). eapply Permutation_in in I; [|exact P]. apply in_map_iff in I. destruct I as ((d & a) & <- & I).
  apply in_flat_map in I. destruct I as (a' & A & I). apply in_map_iff in I. destruct I as (d' & E & I). injection E as <- <-. apply filter_In in I. destruct I as [D L].
  rewrite sort_In in D, A. exists d', a'. auto 10.
Qed.
Lemma table_rows : forall pick mp deps arrs s, gen pick mp deps arrs = Ok s ->
  Permutation (map (fun x => (x_dep x, x_arr x)) (s_rows s)) (filter before (list_prod (t_rows deps) (t_rows arrs))).
Proof.
  intros pick mp deps arrs s H. destruct (generate_rows mu o m pro n tol mu_ok pick mp deps arrs s H) as (P & _). eapply Permutation_trans; [apply Permutation_map, P|]. rewrite map_map. cbn.
  rewrite (map_ext _ (fun p => p)) by (intros [? ?]; reflexivity). rewrite map_id.
  eapply Permutation_trans; [|apply pairs_prod]. apply pairs_perm; apply Permutation_sym, sort_perm.
Qed.
Lemma serial_order : forall pick mp deps arrs s, gen pick mp deps arrs = Ok s -> (mp <= 1)%Z -> Forall (fun b => proper (b_time b)) (t_rows deps) -> Forall (fun b => proper (b_time b)) (t_rows arrs) ->
  StronglySorted (fun x y => instant (b_time (x_arr x)) <= instant (b_time (x_arr y)))%Z (s_rows s) /\
  (NoDup (map (fun b => instant (b_time b)) (t_rows arrs)) -> StronglySorted in_order (s_rows s)).
Proof.
  intros pick mp deps arrs s H M D A. destruct (generate_rows mu o m pro n tol mu_ok pick mp deps arrs s H) as (_ & E & _). rewrite (E M). split.
  - apply pairs_arrivals, sorted_by_time, A.
  - intro N. apply pairs_sorted; [apply sorted_by_time, D|]. apply ss_NoDup_lt; [|apply sorted_by_time, A]. eapply Permutation_NoDup; [apply Permutation_map, sort_perm|exact N].
Qed.
Lemma solved_row : forall pick mp deps arrs s x, gen pick mp deps arrs = Ok s -> In x (s_rows s) ->
  x_vels x = izzo_lambert (b_pos (x_dep x)) (b_pos (x_arr x)) (IZR (instant (b_time (x_arr x)) - instant (b_time (x_dep x))) / 86400000000000) m (mkopt 0 pro true n tol tol) /\ x_origin x = o.
Proof.
  intros pick mp deps arrs s x H I. destruct (row_in _ _ _ _ _ _ H I) as (d & a & _ & _ & -> & _). cbn. split; [|reflexivity]. f_equal.
  unfold flight_time, mjdR, instant, DAY. rewrite minus_IZR, !plus_IZR, !mult_IZR. field.
Qed.
Lemma conic_row : forall pick mp deps arrs s x v1 v2, gen pick mp deps arrs = Ok s -> In x (s_rows s) -> x_vels x = Some (v1, v2) ->
  dot (b_pos (x_dep x)) (b_pos (x_arr x)) <> - (norm (b_pos (x_dep x)) * norm (b_pos (x_arr x))) ->
  momentum (row_of (b_pos (x_arr x)) v2) = momentum (row_of (b_pos (x_dep x)) v1) /\
  energy m (row_of (b_pos (x_arr x)) v2) = energy m (row_of (b_pos (x_dep x)) v1) /\
  eccentricity m (row_of (b_pos (x_arr x)) v2) = eccentricity m (row_of (b_pos (x_dep x)) v1).
Proof.
  intros pick mp deps arrs s x v1 v2 H I V D. destruct (solved_row _ _ _ _ _ _ H I) as [E _]. rewrite V in E. symmetry in E. exact (conserved _ _ _ _ _ _ _ D E).
Qed.
Lemma parallel_two : forall deps arrs c, t_frame deps = t_frame arrs -> all_from c (t_rows deps) -> all_from c (t_rows arrs) ->
  List.length (pairs (sort time_leb (t_rows deps)) (sort time_leb (t_rows arrs))) = 101%nat ->
  exists s, gen (fun _ => 1%nat) 2%Z deps arrs = Ok s /\
  s_rows s = map rf (skipn 100 (pairs (sort time_leb (t_rows deps)) (sort time_leb (t_rows arrs)))) ++ map rf (firstn 100 (pairs (sort time_leb (t_rows deps)) (sort time_leb (t_rows arrs)))).
Proof.
  intros deps arrs c F D A L. destruct (generate_succeeds mu o m pro n tol mu_ok (fun _ => 1%nat) 2%Z deps arrs c F D A) as [s H]. exists s. split; [exact H|].
  unfold generate in H. rewrite F, String.eqb_refl in H. cbn [negb] in H. destruct (origin_of (t_rows deps)); [|discriminate]. destruct (origin_of (t_rows arrs)); [|discriminate].
  destruct (negb _); [discriminate|]. set (ps := pairs _ _) in *. destruct ps as [|p0 pr] eqn:E; [discriminate L|]. rewrite <- E in *. change (1 <? 2)%Z with true in H.
  rewrite two_chunks in H by exact L. cbn [bind] in H. rewrite swapped in H. rewrite (chunks_rows mu o m pro n tol mu_ok) in H. cbn [bind] in H. injection H as <-. cbn [s_rows map concat].
  now rewrite app_nil_r.
Qed.
End G.

(* ---- witnesses ---- *)
Definition body (k : Z) (r : vec) : orb := mkorb "body" (mkrow k 0) r (0, 0, 0) "SUN".
Definition launch : orbits := mkorbits "ecliptic" "tdb" [body 0 (1, 0, 0)].
Definition many : orbits := mkorbits "ecliptic" "tdb" (map (fun k => body (Z.of_nat k + 1) (0, 1, 0)) (seq 0 101)).
Definition gm (m : R) (o : string) : result R := if String.eqb o "SUN" then Ok m else Err ValueError.
Lemma one_departure : forall d l, Forall (fun a => rlt (mjdR (b_time d)) (mjdR (b_time a)) = true) l -> pairs [d] l = map (fun a => (d, a)) l.
Proof. induction 1 as [|a l H F IH]; [reflexivity|]. unfold pairs. cbn [flat_map map filter]. rewrite H. cbn. f_equal. exact IH. Qed.
Lemma body_after : forall i j r q, (i < j)%Z -> rlt (mjdR (b_time (body i r))) (mjdR (b_time (body j q))) = true.
Proof. intros i j r q H. apply rlt_t. unfold mjdR, body. cbn [b_time days nanos]. apply IZR_lt in H. lra. Qed.
Lemma many_sorted : forall k s, StronglySorted (fun x y => time_leb x y = true) (map (fun k => body (Z.of_nat k + 1) (0, 1, 0)) (seq s k)).
Proof.
  induction k as [|k IH]; intro s; cbn [seq map]; [constructor|]. constructor; [apply IH|]. apply Forall_forall. intros y Y. apply in_map_iff in Y. destruct Y as (j & <- & J). apply in_seq in J.
  unfold time_leb, body. cbn [b_time days nanos]. apply orb_true_iff. left. apply Z.ltb_lt. lia.
Qed.
Lemma many_pairs : pairs (sort time_leb (t_rows launch)) (sort time_leb (t_rows many)) = map (fun a => (body 0 (1, 0, 0), a)) (t_rows many).
Proof.
  rewrite (sort_sorted_id time_leb (t_rows many)) by (apply many_sorted). change (sort time_leb (t_rows launch)) with [body 0 (1, 0, 0)]. apply one_departure.
  apply Forall_forall. intros a A. apply in_map_iff in A. destruct A as (j & <- & J). apply body_after. lia.
Qed.
Lemma all_sun : forall l, l <> [] -> (forall b, In b l -> b_origin b = "SUN") -> all_from "SUN" l.
Proof. intros l N H. split; [exact N|]. apply Forall_forall. exact H. Qed.
Lemma launch_sun : all_from "SUN" (t_rows launch).
Proof. apply all_sun; [discriminate|]. intros b [<-|[]]. reflexivity. Qed.
Lemma many_sun : all_from "SUN" (t_rows many).
Proof. apply all_sun; [discriminate|]. intros b B. apply in_map_iff in B. destruct B as (j & <- & _). reflexivity. Qed.
Lemma many_swapped : forall m, exists s, generate (gm m) (fun _ => 1%nat) 2 launch many "SUN" true 35 (/ 10 ^ 10) = Ok s /\
  exists x y r, s_rows s = x :: y :: r /\ b_time (x_arr x) = mkrow 101 0 /\ b_time (x_arr y) = mkrow 1 0.
Proof.
  intro m. destruct (parallel_two (gm m) "SUN" m true 35 (/ 10 ^ 10) eq_refl launch many "SUN" eq_refl launch_sun many_sun) as (s & H & E).
  - rewrite many_pairs, map_length. unfold many. cbn [t_rows]. now rewrite map_length, seq_length.
  - exists s. split; [exact H|]. rewrite many_pairs in E. rewrite E. rewrite skipn_map, firstn_map. unfold many. cbn [t_rows]. rewrite skipn_map, firstn_map.
    change (skipn 100 (seq 0 101)) with [100%nat]. change (firstn 100 (seq 0 101)) with (0%nat :: firstn 99 (seq 1 100)). cbn [map app]. do 3 eexists. split; [reflexivity|]. split; reflexivity.
Qed.
(* for some gravity a one day transfer is solved *)
Lemma one_day : exists m v1 v2, 0 < m /\ izzo_lambert (1, 0, 0) (0, 1, 0) 1 m (mkopt 0 true true 35 (/ 10 ^ 10) (/ 10 ^ 10)) = Some (v1, v2).
Proof.
  destruct quarter as [S D]. assert (Z : 0 < / 10 ^ 10) by (apply Rinv_0_lt_compat, pow_lt; lra).
  pose proof (skew_1 _ _ S) as N1. pose proof (skew_2 _ _ S) as N2. pose proof (skew_c _ _ S) as NC.
  destruct (some_result (1, 0, 0) (0, 1, 0) 1 true true 35 (/ 10 ^ 10) (/ 10 ^ 10) N1 N2 NC ltac:(lra) ltac:(lia) Z ltac:(lra)) as (tof & x & v1 & v2 & TP & _ & SX & _).
  pose proof (s_pos _ _ N1 N2 NC) as SP. exists (tof ^ 2). set (w := velocities (1, 0, 0) (0, 1, 0) (tof ^ 2) true x). exists (fst w), (snd w). split; [nra|].
  assert (T : T_of (1, 0, 0) (0, 1, 0) 1 (tof ^ 2) = T_of (1, 0, 0) (0, 1, 0) tof 1).
  { unfold T_of. replace (2 * tof ^ 2 / semi (1, 0, 0) (0, 1, 0) ^ 3) with (2 * 1 / semi (1, 0, 0) (0, 1, 0) ^ 3 * (tof * tof)) by (field; lra).
    rewrite sqrt_mult_alt; [rewrite sqrt_square by lra; ring|]. apply Rlt_le, Rdiv_lt_0_compat; [lra|]. now apply pow_lt. }
  unfold izzo_lambert. destruct (Req_EM_T (norm (1, 0, 0)) 0); [contradiction|]. destruct (Req_EM_T (norm (0, 1, 0)) 0); [contradiction|]. destruct (Req_EM_T (norm (vminus (0, 1, 0) (1, 0, 0))) 0); [contradiction|].
  destruct (Rlt_dec (tof ^ 2) 0); [nra|]. unfold solution_x in *. rewrite T. cbn [o_prograde o_M o_maxiter o_atol o_rtol o_low_path] in *. rewrite SX. cbn [option_map]. unfold w. now destruct (velocities _ _ _ _ _).
Qed.
