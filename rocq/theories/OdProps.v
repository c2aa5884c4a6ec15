From Coq Require Import Reals String QArith Qabs Lqa Permutation.
From Flocq Require Import Core.
From Verif Require Import Base FitModel FitRModel FitRProofs OdModel OdSpec OdProofs IodProofs SelProofs.
Open Scope string_scope. Open Scope list_scope. Open Scope Z_scope.

(* a worked problem: estimate one number from repeated measurements of it *)
Definition obs_ids : list string := ["a"; "b"; "c"; "d"; "e"; "f"].
Definition hours : list Q := [0; 1; 2; 3; 4; 5]%Q.
Definition toy_chi2 (ys : list Q) (m : Q) : list Q := map (fun y => (y - m) * (y - m))%Q ys.
Definition toy_resid (ys : list Q) (m : Q) : list Q := map (fun y => y - m)%Q ys.
Definition toy_partials (ys : list Q) (p : Q) (_ : Q) (_ : unit) : list Q := map (fun _ => p) ys.
(* one weighted least-squares step *)
Definition toy_correct (m : Q) (_ : unit) (rows : list (Q * Q * Q)) : option Q * unit :=
  let a := fold_right Qplus 0%Q (map (fun '(p, w, b) => p * w * b)%Q rows) in
  let h := fold_right Qplus 0%Q (map (fun '(p, w, b) => p * w * p)%Q rows) in
  (Some (Qred (m + a / h)), tt).
Definition toy_od ys p order thr min_arc max_iter max_out min_obs fuel :=
  od obs_ids hours hours (toy_chi2 ys) order (toy_partials ys p) (map (fun _ => 1%Q) ys) (toy_resid ys) toy_correct (fun d => d) tt 0%Q thr min_arc max_iter max_out min_obs fuel.
(* the same loop with matching rows evaluated at the orbit being corrected *)
Definition toy_od_aligned ys p order thr min_arc max_iter max_out min_obs fuel :=
  od_with obs_ids hours hours (toy_chi2 ys) order toy_correct (fun d => d) tt 0%Q thr min_arc max_iter max_out
    (fun orb out d => aligned_rows obs_ids out (toy_partials ys p orb d) (map (fun _ => 1%Q) ys) (toy_resid ys orb)) min_obs fuel.
Definition argsort (c : list Q) : list nat :=
  map snd (sort (fun p q => Qle_bool (fst p) (fst q)) (combine c (seq 0 (List.length c)))).
Lemma combine_seq_nth {A} (c : list A) : forall k a u, In (u, a) (combine c (seq k (List.length c))) -> (k <= a)%nat /\ nth_error c (a - k) = Some u.
Proof.
  induction c as [|x c IH]; intros k a u; cbn; [tauto|]. intros [[= -> ->]|H].
  - split; auto. now rewrite Nat.sub_diag.
  - apply IH in H as [L E]. split; [lia|]. replace (a - k)%nat with (S (a - S k)) by lia. auto.
Qed.
Lemma argsort_sorts c : sorts (argsort c) c.
Proof.
  unfold argsort. set (lq := fun p q : Q * nat => Qle_bool (fst p) (fst q)). set (l := combine c (seq 0 (List.length c))). split.
  - assert (E : map snd l = seq 0 (List.length c)).
    { unfold l. clear. assert (X : forall k, map snd (combine c (seq k (List.length c))) = seq k (List.length c)); [|apply X].
      induction c; intros k; cbn; auto. now rewrite IHc. }
    rewrite <- E at 1. apply Permutation_map, sort_perm.
  - intros i j a b u v Hi Hj L Hu Hv. rewrite nth_error_map in Hi, Hj.
    destruct (nth_error (sort lq l) i) as [[u' a']|] eqn:Ei; [|discriminate]. destruct (nth_error (sort lq l) j) as [[v' b']|] eqn:Ej; [|discriminate].
    cbn in Hi, Hj. injection Hi as ->. injection Hj as ->.
    assert (A1 : nth_error c a = Some u').
    { apply nth_error_In, sort_In, combine_seq_nth in Ei as [_ E]. now rewrite Nat.sub_0_r in E. }
    assert (A2 : nth_error c b = Some v').
    { apply nth_error_In, sort_In, combine_seq_nth in Ej as [_ E]. now rewrite Nat.sub_0_r in E. }
    rewrite Hu in A1. rewrite Hv in A2. injection A1 as <-. injection A2 as <-.
    destruct (Nat.eq_dec i j) as [->|]; [replace v with u by congruence; lra|].
    assert (S : Sorted.StronglySorted (le lq) (sort lq l)).
    { apply sort_sorted; unfold lq.
      - intros x y. destruct (Qle_bool (fst x) (fst y)) eqn:E; auto. right. apply Qle_bool_iff. apply FitProofs.qleb_false in E. lra.
      - intros x y z H1 H2. apply Qle_bool_iff in H1, H2. apply Qle_bool_iff. lra. }
    pose proof (sorted_nth _ _ S i j _ _ ltac:(lia) Ei Ej) as R. apply Qle_bool_iff in R. exact R.
Qed.

(* C41: what an accepted differential correction satisfies.  [order] is the argsort of the initial
   chi2; max_outliers <= n - min_obs is C39. *)
Theorem C41_acceptance {Orb D P W B} ids et ot (chi2_of : Orb -> list Q) order (partials : Orb -> D -> list P) (sigmas : list W) (resid : Orb -> list B)
  correct bound d0 o0 threshold min_arc max_iter max_outliers min_obs fuel r :
  NoDup ids -> List.length (chi2_of o0) = List.length ids -> sorts order (chi2_of o0) ->
  0 <= max_iter -> 0 <= max_outliers -> 0 <= min_obs -> max_outliers <= Z.of_nat (List.length ids) - min_obs ->
  od ids et ot chi2_of order partials sigmas resid correct bound d0 o0 threshold min_arc max_iter max_outliers min_obs fuel = Ok (Some r) ->
  (* the removed observations: distinct, from the input, at most max_outliers, those of highest initial chi2 *)
  NoDup (r_outliers r) /\ incl (r_outliers r) ids /\ Z.of_nat (List.length (r_outliers r)) <= max_outliers /\
  (forall i j x y u v, nth_error ids i = Some x -> nth_error ids j = Some y -> In x (r_outliers r) -> ~ In y (r_outliers r) ->
    nth_error (chi2_of o0) i = Some u -> nth_error (chi2_of o0) j = Some v -> (v <= u)%Q) /\
  (* the reported numbers are those of the used observations and pass the limits *)
  r_nobs r = Z.of_nat (List.length (used ids (r_outliers r) ids)) /\ min_obs <= r_nobs r /\
  r_chi2 r = add_up (used ids (r_outliers r) (chi2_of (r_orb r))) /\
  (exists q, r_rchi2 r = Fin q /\ (q <= threshold)%Q /\ 2 * r_nobs r - 6 <> 0 /\ (q == r_chi2 r / inject_Z (2 * r_nobs r - 6))%Q) /\
  is_span (used ids (r_outliers r) ot) (r_arc r) /\ (min_arc <= r_arc r)%Q /\
  1 <= r_iter r <= max_iter * (max_outliers + 1).
Proof. intros H1 H2 H3 H4 H5 H6 H7. assert (H8 : max_outliers <= n ids) by (unfold n; lia). exact (od_found ids et ot chi2_of order correct bound d0 o0 threshold min_arc max_iter max_outliers _ H4 H5 min_obs fuel r H1 H3 H2 H7 H8). Qed.
Theorem C41_terminates {Orb D P W B} ids et ot (chi2_of : Orb -> list Q) order (partials : Orb -> D -> list P) (sigmas : list W) (resid : Orb -> list B)
  correct bound d0 o0 threshold min_arc max_iter max_outliers min_obs :
  0 <= max_iter -> 0 <= max_outliers -> exists steps, forall fuel, (steps <= fuel)%nat ->
  od ids et ot chi2_of order partials sigmas resid correct bound d0 o0 threshold min_arc max_iter max_outliers min_obs fuel <> Err StopFuel.
Proof. intros H1 H2. exists (Z.to_nat (max_iter * (max_outliers + 1) + 1)). intros fuel Hf. assert (Hg : Z.of_nat fuel > max_iter * (max_outliers + 1)) by nia. exact (od_terminates ids et ot chi2_of order correct bound d0 o0 threshold min_arc max_iter max_outliers _ H1 H2 min_obs fuel Hg). Qed.
Theorem C41_too_few {Orb D P W B} ids et ot (chi2_of : Orb -> list Q) order (partials : Orb -> D -> list P) (sigmas : list W) (resid : Orb -> list B)
  correct bound d0 o0 threshold min_arc max_iter max_outliers min_obs fuel : Z.of_nat (List.length ids) < min_obs ->
  od ids et ot chi2_of order partials sigmas resid correct bound d0 o0 threshold min_arc max_iter max_outliers min_obs fuel = Ok None.
Proof. exact (od_short ids et ot chi2_of order correct bound d0 o0 threshold min_arc max_iter max_outliers _ min_obs fuel). Qed.
Definition ys_last : list Q := [1; 1; 1; 1; 1; 100]%Q.
Example C41_case : exists r, toy_od ys_last 1 (argsort (toy_chi2 ys_last 0)) 1 3 2 1 4 10 = Ok (Some r) /\
  r_outliers r = ["f"] /\ r_nobs r = 5 /\ (r_chi2 r == 0)%Q /\ (r_arc r == 4)%Q /\ r_iter r = 4.
Proof. eexists. split; [vm_compute; reflexivity|]. vm_compute. repeat split; reflexivity. Qed.

(* C97: chi2 is not bounded by threshold * degrees of freedom when fewer than four observations are
   allowed: the degrees of freedom 2n - 6 are negative *)
Theorem C97_degrees_of_freedom_refuted : exists ids times ys r, NoDup ids /\ List.length ys = List.length ids /\
  od ids times times (toy_chi2 ys) (argsort (toy_chi2 ys 0)) (toy_partials ys 1) (map (fun _ => 1%Q) ys) (toy_resid ys) toy_correct (fun d => d) tt 0%Q 1 1 5 0 2 6 = Ok (Some r) /\
  (r_chi2 r == 200)%Q /\ 2 * r_nobs r - 6 = -2 /\ r_rchi2 r = Fin (- 200 # 2) /\ ~ (r_chi2 r <= 1 * inject_Z (2 * r_nobs r - 6))%Q.
Proof.
  exists ["a"; "b"], [0; 1]%Q, [10; - 10 # 1]%Q. eexists. split; [repeat constructor; cbn; intuition discriminate|]. split; [reflexivity|].
  split; [vm_compute; reflexivity|]. split; [vm_compute; reflexivity|]. split; [reflexivity|]. split; [vm_compute; reflexivity|]. vm_compute. intros C. now apply C.
Qed.
Lemma chi2_within chi2 q t (d : Q) : (0 < d)%Q -> (q <= t)%Q -> (q == chi2 / d)%Q -> (chi2 <= t * d)%Q.
Proof. intros Hd Hq E. assert (E' : (chi2 == q * d)%Q) by (rewrite E; field; lra). rewrite E'. apply Qmult_le_compat_r; lra. Qed.
Theorem C97_degrees_of_freedom_partial {Orb D P W B} ids et ot (chi2_of : Orb -> list Q) order (partials : Orb -> D -> list P) (sigmas : list W) (resid : Orb -> list B)
  correct bound d0 o0 threshold min_arc max_iter max_outliers min_obs fuel r :
  NoDup ids -> List.length (chi2_of o0) = List.length ids -> sorts order (chi2_of o0) ->
  0 <= max_iter -> 0 <= max_outliers -> 4 <= min_obs -> max_outliers <= Z.of_nat (List.length ids) - min_obs ->
  od ids et ot chi2_of order partials sigmas resid correct bound d0 o0 threshold min_arc max_iter max_outliers min_obs fuel = Ok (Some r) ->
  0 < 2 * r_nobs r - 6 /\ (r_chi2 r <= threshold * inject_Z (2 * r_nobs r - 6))%Q.
Proof.
  intros H1 H2 H3 H4 H5 H6 H7 H. apply C41_acceptance in H as (_ & _ & _ & _ & _ & M & _ & (q & _ & L & _ & E) & _); auto; [|lia].
  assert (Hd : 0 < 2 * r_nobs r - 6) by lia. split; auto. apply (chi2_within _ q); auto. change 0%Q with (inject_Z 0). now rewrite <- Zlt_Qlt.
Qed.

(* C98: a negative iteration limit; the loop never ends when every correction is discarded *)
Theorem C98_negative_limit_refuted : exists ids et chi2_of order correct threshold min_arc max_iter max_outliers min_obs, forall fuel,
  od (Orb := unit) (D := unit) ids et et chi2_of order (fun _ _ => [tt]) [tt] (fun _ => [tt]) correct (fun d => d) tt tt threshold min_arc max_iter max_outliers min_obs fuel = Err StopFuel.
Proof.
  exists ["a"], [0%Q], (fun _ => [1%Q]), [0%nat], (fun _ d _ => (None, d)), 1%Q, 0%Q, (-1), 0, 1. intros fuel. unfold od, od_with. cbn.
  apply od_runs_forever; cbn; lia.
Qed.
Theorem C98_limit_partial {Orb D P W B} ids et ot (chi2_of : Orb -> list Q) order (partials : Orb -> D -> list P) (sigmas : list W) (resid : Orb -> list B)
  correct bound d0 o0 threshold min_arc max_iter max_outliers min_obs fuel :
  0 <= max_iter -> 0 <= max_outliers -> Z.of_nat fuel > max_iter * (max_outliers + 1) ->
  od ids et ot chi2_of order partials sigmas resid correct bound d0 o0 threshold min_arc max_iter max_outliers min_obs fuel <> Err StopFuel.
Proof. exact (fun H1 H2 => od_terminates ids et ot chi2_of order correct bound d0 o0 threshold min_arc max_iter max_outliers _ H1 H2 min_obs fuel). Qed.

(* C42: after removing an outlier a row mixes different observations: label every row by its observation *)
Theorem C42_rows_mixed_refuted : exists ids out a b c, NoDup ids /\ In a ids /\ In out ids /\
  In (a, b, c) (normal_rows (Orb := unit) (D := unit) ids (fun _ _ => ids) ids (fun _ => ids) tt tt [out] tt) /\ a <> b /\ b = out.
Proof. exists ["x"; "y"; "z"], "x", "y", "x", "x". split; [repeat constructor; cbn; intuition discriminate|]. cbn. split; [auto|]. split; [auto|]. split; [auto|]. split; [discriminate|auto]. Qed.
(* ... and this makes it miss a perfect fit that the loop with matching rows finds *)
Definition ys_first : list Q := [100; 1; 1; 1; 1; 1]%Q.
Theorem C42_fit_missed_refuted : exists r,
  (forall fuel, (10 <= fuel)%nat -> toy_od ys_first 1 (argsort (toy_chi2 ys_first 0)) 1 3 2 1 4 fuel = Ok None) /\
  toy_od_aligned ys_first 1 (argsort (toy_chi2 ys_first 0)) 1 3 2 1 4 10 = Ok (Some r) /\ r_outliers r = ["a"] /\ r_orb r = 1%Q /\ (r_chi2 r == 0)%Q.
Proof.
  eexists. split; [|split; [vm_compute; reflexivity|vm_compute; repeat split; reflexivity]].
  intros fuel Hf. unfold toy_od, od, od_with. replace (n obs_ids <? 4) with false by reflexivity.
  eapply loop_fuel; [exact Hf|]. vm_compute. reflexivity.
Qed.
(* ... even without outliers: every iteration reuses the residuals of the initial orbit, so when the
   step is not exact (here the derivative is off by a quarter) it oscillates instead of converging *)
Definition ys_all : list Q := [8; 8; 8; 8; 8; 8]%Q.
Theorem C42_stale_residuals_refuted : exists r,
  (forall fuel, (30 <= fuel)%nat -> toy_od ys_all (4 # 3) (argsort (toy_chi2 ys_all 0)) (1 # 1000) 3 20 0 4 fuel = Ok None) /\
  toy_od_aligned ys_all (4 # 3) (argsort (toy_chi2 ys_all 0)) (1 # 1000) 3 20 0 4 30 = Ok (Some r) /\ r_outliers r = [] /\ r_iter r = 4.
Proof.
  eexists. split; [|split; [vm_compute; reflexivity|vm_compute; repeat split; reflexivity]].
  intros fuel Hf. unfold toy_od, od, od_with. replace (n obs_ids <? 4) with false by reflexivity.
  eapply loop_fuel; [exact Hf|]. vm_compute. reflexivity.
Qed.
(* matching rows as long as no observation has been removed and no correction accepted *)
Theorem C42_first_iteration_partial {Orb D P W B} ids (partials : Orb -> D -> list P) (sigmas : list W) (resid : Orb -> list B) o0 d :
  (forall o d, List.length (partials o d) = List.length ids) ->
  normal_rows ids partials sigmas resid o0 o0 [] d = aligned_rows ids [] (partials o0 d) sigmas (resid o0).
Proof. exact (first_rows_aligned ids partials sigmas resid o0 d). Qed.
(* matching rows (with the initial residuals) whenever the removed observations are the last ones *)
Lemma used_prefix {A} (kept out : list string) (l m : list A) : NoDup (kept ++ out) -> List.length l = List.length kept ->
  used (kept ++ out) out (l ++ m) = l.
Proof.
  intros N. revert l. induction kept as [|i kept IH]; intros [|x l] L; cbn in *; try discriminate.
  - unfold used. assert (E : filter (fun p : string * A => if in_dec string_dec (fst p) out then false else true) (combine out m) = []); [|now rewrite E].
    assert (X : forall o (m : list A), incl o out -> filter (fun p : string * A => if in_dec string_dec (fst p) out then false else true) (combine o m) = []).
    { clear. induction o as [|i o IH]; intros [|x m] H; cbn; auto. destruct (in_dec string_dec i out) as [|C]; [apply IH; intros y Hy; apply H; now right|].
      exfalso. apply C, H. now left. }
    apply X, incl_refl.
  - inversion N as [|? ? Hi N']; subst. unfold used in *. cbn. destruct (in_dec string_dec i out) as [C|C].
    + exfalso. apply Hi. apply in_or_app. auto.
    + cbn. f_equal. apply IH; auto.
Qed.
Theorem C42_trailing_outliers_partial {Orb D P W B} kept out (partials : Orb -> D -> list P) (sigmas : list W) (resid : Orb -> list B) o0 orb d :
  NoDup (kept ++ out) -> List.length (partials orb d) = List.length (kept ++ out) -> List.length sigmas = List.length (kept ++ out) -> List.length (resid o0) = List.length (kept ++ out) ->
  normal_rows (kept ++ out) partials sigmas resid o0 orb out d = aligned_rows (kept ++ out) out (partials orb d) sigmas (resid o0).
Proof.
  intros N L1 L2 L3. unfold normal_rows, aligned_rows. rewrite masked_used.
  set (k := List.length kept).
  assert (Sp : forall A (l : list A), List.length l = List.length (kept ++ out) -> exists u v, l = u ++ v /\ List.length u = k).
  { intros A l L. exists (firstn k l), (skipn k l). split; [now rewrite firstn_skipn|]. rewrite firstn_length, L, app_length. unfold k. lia. }
  destruct (Sp _ _ L1) as (p1 & p2 & E1 & K1). destruct (Sp _ _ L2) as (s1 & s2 & E2 & K2). destruct (Sp _ _ L3) as (b1 & b2 & E3 & K3). rewrite E1, E2, E3.
  assert (CA : forall A B (a1 a2 : list A) (c1 c2 : list B), List.length a1 = List.length c1 -> combine (a1 ++ a2) (c1 ++ c2) = combine a1 c1 ++ combine a2 c2).
  { clear. induction a1; intros a2 [|c c1] c2 H; cbn in *; try discriminate; auto. f_equal. apply IHa1. lia. }
  rewrite used_prefix by auto. rewrite (CA _ _ p1 p2 s1 s2), (CA _ _ (combine p1 s1) (combine p2 s2) b1 b2); try congruence.
  2:{ rewrite combine_length. lia. }
  rewrite used_prefix; auto; [|rewrite !combine_length; fold k; lia].
  rewrite <- (app_nil_r p1) at 1. rewrite (CA _ _ p1 [] s1 s2) by lia. cbn. rewrite app_nil_r.
  rewrite <- (app_nil_r (combine p1 s1)) at 1. rewrite CA by (rewrite combine_length; lia). cbn. now rewrite app_nil_r.
Qed.

(* C43: a short linkage always aborts with AssertionError *)
Theorem C43_short_linkage_refuted {Orb} ids times (chi2_of : Orb -> list Q) argsort gauss threshold min_arc k min_obs pct select :
  Z.of_nat (List.length ids) < min_obs ->
  iod ids times chi2_of argsort gauss threshold min_arc k (calculate_max_outliers (Z.of_nat (List.length ids)) min_obs pct) select min_obs = Err AssertionError.
Proof. exact (fun H => eq_trans (f_equal (fun b => iod ids times chi2_of argsort gauss threshold min_arc k b select min_obs) (cmo_err _ _ pct (or_introl H))) eq_refl). Qed.
(* with enough observations a linkage without a usable triple gives an empty result *)
Theorem C43_no_triple_partial {Orb} near ids times (chi2_of : Orb -> list Q) argsort gauss threshold min_arc k min_obs pct m :
  (List.length ids < 3)%nat -> min_obs <= Z.of_nat (List.length ids) -> (0 <= pct <= 100)%R ->
  iod ids times chi2_of argsort gauss threshold min_arc k (calculate_max_outliers (Z.of_nat (List.length ids)) min_obs pct) (select_observations near ids times m) min_obs = Ok None.
Proof.
  intros H1 H2 H3. rewrite (cmo_ok _ _ _ H2 H3). rewrite select_short by auto. unfold iod. cbn [bind]. rewrite firstn_nil. cbn. now rewrite andb_false_r.
Qed.
Example C43_case : iod (Orb := unit) ["a"] [0%Q] (fun _ => [0%Q]) argsort (fun _ => [tt]) 1 0 0 (calculate_max_outliers 1 6 0) (Ok []) 6 = Err AssertionError.
Proof. apply (C43_short_linkage_refuted ["a"]). cbn. lia. Qed.

(* C44: an accepted initial orbit *)
Theorem C44_acceptance {Orb} ids times (chi2_of : Orb -> list Q) argsort gauss threshold min_arc max_outliers budget triples min_obs r :
  NoDup ids -> (forall o, List.length (chi2_of o) = List.length ids) -> (forall c, sorts (argsort c) c) ->
  Z.of_nat max_outliers <= Z.of_nat (List.length ids) - min_obs ->
  iod ids times chi2_of argsort gauss threshold min_arc max_outliers budget (Ok triples) min_obs = Ok (Some r) ->
  In (ir_triple r) triples /\ In (ir_orb r) (gauss (ir_triple r)) /\
  NoDup (ir_out r) /\ incl (ir_out r) ids /\ (forall i, In i (ir_out r) -> ~ In i (ir_triple r)) /\
  (List.length (ir_out r) <= max_outliers)%nat /\ min_obs <= Z.of_nat (List.length (used ids (ir_out r) ids)) /\
  (ir_chi2 r == add_up (used ids (ir_out r) (chi2_of (ir_orb r))))%Q /\
  (exists q, ir_rchi2 r = Fin q /\ (q <= threshold)%Q) /\
  (ir_out r <> [] -> (exists q, ir_rchi2 r = Fin q /\ (q == ir_chi2 r / inject_Z (2 * Z.of_nat (List.length (used ids (ir_out r) ids)) - 6))%Q) /\
     exists a, is_span (used ids (ir_out r) times) a /\ (min_arc <= a)%Q) /\
  ((forall o c, In c (chi2_of o) -> (0 <= c)%Q) -> 4 <= min_obs ->
     (ir_chi2 r <= threshold * inject_Z (2 * Z.of_nat (List.length (used ids (ir_out r) ids)) - 6))%Q).
Proof. exact (fun H1 H2 H3 H4 H => iod_found ids times chi2_of argsort gauss threshold min_arc max_outliers H1 H2 H3 budget triples min_obs r H H4). Qed.
Definition eight : list string := ["a"; "b"; "c"; "d"; "e"; "f"; "g"; "h"].
Definition eight_t : list Q := [0; 1; 2; 3; 4; 5; 6; 7]%Q.
Definition iod_toy (orbs : list (list Q)) thr min_arc := iod eight eight_t (fun c : list Q => if Nat.eqb (List.length c) 8 then c else eight_t) argsort (fun _ => orbs) thr min_arc 1 (Ok 1) (Ok [["b"; "c"; "d"]]) 6.
Definition one_bad : list Q := [1; 1; 1; 1; 1; 1; 1; 1000]%Q.
Example C44_case : exists r, iod_toy [one_bad] 10 5 = Ok (Some r) /\ ir_out r = ["h"] /\ ir_num r = 7 /\ (ir_chi2 r == 7)%Q /\ ir_arc r = Some 6%Q.
Proof. eexists. split; [vm_compute; reflexivity|]. vm_compute. repeat split; reflexivity. Qed.

(* C99: the reported num_obs and arc_length may be left over from another candidate, and the minimum
   arc is not required when nothing is removed *)
Theorem C99_num_obs_refuted : exists orbs r, iod_toy orbs 10 5 = Ok (Some r) /\ ir_out r = [] /\ ir_num r = 7 /\ List.length (used eight (ir_out r) eight) = 8%nat.
Proof. exists [one_bad; [1; 1; 1; 1; 1; 1; 1; 1]%Q]. eexists. split; [vm_compute; reflexivity|]. vm_compute. repeat split; reflexivity. Qed.
Theorem C99_arc_length_refuted : exists orbs r a, iod_toy orbs 10 5 = Ok (Some r) /\ ir_out r = ["f"] /\ is_span (used eight (ir_out r) eight_t) a /\ a = 7%Q /\ ir_arc r = Some 6%Q.
Proof.
  exists [[1; 1; 1; 1; 1; 1000; 1; 1]%Q; [1; 1; 1; 1; 1; 1; 1000; 1001]%Q]. eexists. exists 7%Q.
  split; [vm_compute; reflexivity|]. split; [reflexivity|]. split; [|split; reflexivity].
  exists 0%Q, 7%Q. cbn. split; [auto|]. split; [auto 10|]. split; [reflexivity|]. intros z H. repeat (destruct H as [<-|H]; [lra|]). destruct H.
Qed.
Theorem C99_short_arc_refuted : exists orbs r, iod_toy orbs 10 100 = Ok (Some r) /\ ir_out r = [] /\ ir_arc r = Some 7%Q /\ (7 < 100)%Q.
Proof. exists [[1; 1; 1; 1; 1; 1; 1; 1]%Q]. eexists. split; [vm_compute; reflexivity|]. vm_compute. repeat split; reflexivity. Qed.
(* with one candidate orbit per triple the reported numbers are right *)
Theorem C99_single_candidate_partial {Orb} ids times (chi2_of : Orb -> list Q) argsort gauss threshold min_arc max_outliers budget triples min_obs r :
  NoDup ids -> (forall o, List.length (chi2_of o) = List.length ids) -> (forall c, sorts (argsort c) c) ->
  (forall t, (List.length (gauss t) <= 1)%nat) ->
  iod ids times chi2_of argsort gauss threshold min_arc max_outliers budget (Ok triples) min_obs = Ok (Some r) ->
  ir_num r = Z.of_nat (List.length (used ids (ir_out r) ids)) /\ (exists a, ir_arc r = Some a /\ is_span (used ids (ir_out r) times) a) /\
  (exists q, ir_rchi2 r = Fin q /\ (q == ir_chi2 r / inject_Z (2 * ir_num r - 6))%Q).
Proof. exact (iod_single ids times chi2_of argsort gauss threshold min_arc max_outliers budget triples min_obs r). Qed.

(* C45: what select_observations returns *)
Theorem C45_usable near ids times m ts t : List.length times = List.length ids ->
  select_observations near ids times m = Ok ts -> In t ts -> usable ids times t.
Proof. exact (select_usable near ids times m ts t). Qed.
Theorem C45_short near ids times m : (List.length ids < 3)%nat -> select_observations near ids times m = Ok [].
Proof. exact (select_short near ids times m). Qed.
Theorem C45_unknown_method near ids times m : (3 <= List.length ids)%nat ->
  (m = OtherMethod -> select_observations near ids times m = Err ValueError) /\ (m <> OtherMethod -> exists ts, select_observations near ids times m = Ok ts).
Proof. exact (fun H => conj (fun E => eq_trans (f_equal (select_observations near ids times) E) (select_unknown near ids times H)) (select_known near ids times m)). Qed.
Theorem C45_combinations near ids times : List.length times = List.length ids -> (3 <= List.length ids)%nat ->
  exists cs, select_observations near ids times Combinations = Ok (map (pick ids) cs) /\ NoDup cs /\
    (forall c, In c cs <-> exists i j k x y z, c = [i; j; k] /\ (i < j < k)%nat /\ nth_error times i = Some x /\ nth_error times j = Some y /\ nth_error times k = Some z /\
       ~ (x == y)%Q /\ ~ (y == z)%Q /\ ~ (x == z)%Q) /\
    (forall p q c d, (p < q)%nat -> nth_error cs p = Some c -> nth_error cs q = Some d -> preferred times c d).
Proof. exact (select_combinations near ids times). Qed.
Theorem C45_first_and_last near ids times ts t : List.length times = List.length ids ->
  select_observations near ids times FirstMiddleLast = Ok ts -> In t ts ->
  ts = [t] /\ exists a b c x y z, t = [a; b; c] /\ observed ids times a x /\ observed ids times b y /\ observed ids times c z /\
    (x < y /\ y < z)%Q /\ forall w, In w times -> (x <= w /\ w <= z)%Q.
Proof. exact (select_ends near ids times ts t). Qed.
Example C45_case : select_observations (fun _ _ => 2%nat) ["p"; "q"; "r"; "s"] [3; 1; 2; 3]%Q Combinations = Ok [["q"; "r"; "s"]; ["p"; "q"; "r"]] /\
  select_observations (fun _ _ => 1%nat) ["p"; "q"; "r"; "s"] [3; 1; 2; 3]%Q FirstMiddleLast = Ok [["q"; "r"; "p"]].
Proof. vm_compute. split; reflexivity. Qed.

(* C46: least squares *)
Theorem C46_never_worse {Orb} (rms : Orb -> Q) update mult eps max_iterations fuel o pert r k :
  least_squares rms update mult eps max_iterations fuel o pert = Ok (r, k) ->
  0 <= k /\ (0 < k -> (inject_Z (k - 1) < max_iterations)%Q) /\
  forall u, r = Some u -> (rms u <= rms o)%Q /\ (u = o \/ (rms u < rms o)%Q).
Proof. intros H. destruct (ls_spec rms update mult eps max_iterations fuel o pert 0 r k (Z.le_refl 0) H) as (K1 & K2 & K3). split; [exact K1|split; [exact K2|]]. intros u ->. exact K3. Qed.
Theorem C46_terminates {Orb} (rms : Orb -> Q) update mult eps max_iterations o pert : (forall o p, update o p <> Err StopFuel) ->
  exists steps, forall fuel, (steps <= fuel)%nat -> least_squares rms update mult eps max_iterations fuel o pert <> Err StopFuel.
Proof.
  intros H. exists (Z.to_nat (Qround.Qceiling max_iterations)). intros fuel L. apply ls_fuel; auto; [lia|].
  eapply Qle_trans; [apply Qround.Qle_ceiling|]. rewrite <- Zle_Qle. lia.
Qed.
Example C46_case : least_squares (fun m : Q => m * m)%Q (fun m p => Ok (Qred (m / 2))) (1 # 10) (1 # 1000) 4 10 8%Q 1%Q = Ok (Some (1 # 2)%Q, 4).
Proof. vm_compute. reflexivity. Qed.

(* C100: None does not signal "no improvement": the unimproved input orbit is returned when the step
   can still be reduced until the iteration limit, or when the change is below the tolerance *)
Theorem C100_unimproved_refuted : exists (update : Q -> Q -> result Q), (forall o p u, update o p = Ok u -> (o * o < u * u)%Q) /\
  least_squares (fun m : Q => m * m)%Q update (1 # 10) (1 # 1000) 4 10 8%Q 1%Q = Ok (Some 8%Q, 4) /\
  least_squares (fun m : Q => m * m)%Q update (1 # 10) (1 # 1000) 4 10 8%Q (1 # 10 ^ 13) = Ok (None, 1).
Proof.
  exists (fun o _ => if Qle_bool 0 o then Ok (o + 1)%Q else Ok (o - 1)%Q). split; [|split; vm_compute; reflexivity].
  intros o p u. destruct (Qle_bool 0 o) eqn:E; intros [= <-]; [apply Qle_bool_iff in E|apply FitProofs.qleb_false in E]; nra.
Qed.
Theorem C100_none_partial {Orb} (rms : Orb -> Q) update mult eps max_iterations fuel o pert k :
  least_squares rms update mult eps max_iterations fuel o pert = Ok (None, k) ->
  k = 1 /\ exists u, update o pert = Ok u /\ (rms o <= rms u)%Q /\ (pert <= 1 # 10 ^ 12)%Q.
Proof. exact (fun H => proj2 (proj2 (proj2 (ls_spec rms update mult eps max_iterations fuel o pert 0 None k (Z.le_refl 0) H)))). Qed.

Print Assumptions C41_acceptance.
Print Assumptions C41_terminates.
Print Assumptions C41_too_few.
Print Assumptions C97_degrees_of_freedom_refuted.
Print Assumptions C97_degrees_of_freedom_partial.
Print Assumptions C98_negative_limit_refuted.
Print Assumptions C98_limit_partial.
Print Assumptions C42_rows_mixed_refuted.
Print Assumptions C42_fit_missed_refuted.
Print Assumptions C42_stale_residuals_refuted.
Print Assumptions C42_first_iteration_partial.
Print Assumptions C42_trailing_outliers_partial.
Print Assumptions C43_short_linkage_refuted.
Print Assumptions C43_no_triple_partial.
Print Assumptions C44_acceptance.
Print Assumptions C99_num_obs_refuted.
Print Assumptions C99_arc_length_refuted.
Print Assumptions C99_short_arc_refuted.
Print Assumptions C99_single_candidate_partial.
Print Assumptions C45_usable.
Print Assumptions C45_short.
Print Assumptions C45_unknown_method.
Print Assumptions C45_combinations.
Print Assumptions C45_first_and_last.
Print Assumptions C46_never_worse.
Print Assumptions C46_terminates.
Print Assumptions C100_unimproved_refuted.
Print Assumptions C100_none_partial.
