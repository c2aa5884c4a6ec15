(* Properties C21, C23-C26, C32, C88, C89: chunking, scheduling and parallel drivers. *)
From Coq Require Import Lia ZArith Permutation.
From Verif Require Import Base SchedModel SchedSpec SchedProofs.
Open Scope Z_scope.
Open Scope list_scope.

(* ---- C32 ---- *)
Theorem C32_chunks_tile : forall A (l : list A) cs, 1 <= cs ->
  exists chunks, iterate_chunks l cs = Ok chunks /\ tiles cs l chunks.
Proof. exact @tiles_ok. Qed.
Print Assumptions C32_chunks_tile.

Theorem C32_chunk_indices : forall A (l : list A) cs, 1 <= cs -> exists ixs chunks,
  iterate_chunk_indices l cs = Ok ixs /\ iterate_chunks l cs = Ok chunks /\
  chunks = map (fun p => slice l (fst p) (snd p)) ixs /\
  Forall (fun p => 0 <= fst p < snd p /\ snd p <= zlen l) ixs.
Proof. exact @indices_ok. Qed.
Print Assumptions C32_chunk_indices.

(* batches have one fixed size whatever the input length *)
Theorem C32_fixed_batches : forall A (pad : A) l cs, 1 <= cs -> exists chunks,
  process_in_chunks pad l cs = Ok chunks /\ Forall (fun c => zlen c = cs) chunks.
Proof.
  intros A pad l cs H. destruct (process_padded pad l cs H) as (ch & E & P). exists ch. split. exact E.
  apply padded_lengths in P. revert P. apply Forall_impl. unfold zlen. intros a. lia.
Qed.
Print Assumptions C32_fixed_batches.

(* padding never reaches the results and no row is lost *)
Theorem C32_padded_results : forall A B (pad : A) (f : A -> B) l cs, 1 <= cs -> padded_eval pad f l cs = Ok (map f l).
Proof. exact @padded_eval_ok. Qed.
Print Assumptions C32_padded_results.

Theorem C32_checked_results : forall A B (bi : A -> bool) (f : A -> B) (bo : B -> bool) cs pad l, 1 <= cs ->
  checked_eval bi f bo cs pad l
  = if (existsb bi l || existsb bo (map f l))%bool then Err RuntimeError else Ok (map f l).
Proof. exact @checked_eval_ok. Qed.
Print Assumptions C32_checked_results.

Theorem C32_zero_chunk_size : forall A (l : list A), iterate_chunks l 0 = Err ValueError /\
  forall cs, cs < 0 -> iterate_chunks l cs = Ok [].
Proof.
  intros A l. split. reflexivity. intros cs H. unfold iterate_chunks, range0.
  destruct (Z.eqb_spec cs 0); [lia|]. destruct (Z.ltb_spec cs 0); [reflexivity|lia].
Qed.
Print Assumptions C32_zero_chunk_size.

Example C32_case :
  iterate_chunks [1;2;3;4;5] 2 = Ok [[1;2];[3;4];[5]] /\
  iterate_chunk_indices [1;2;3;4;5] 2 = Ok [(0,2);(2,4);(4,5)] /\
  process_in_chunks 0 [1;2;3;4;5] 2 = Ok [[1;2];[3;4];[5;0]] /\
  padded_eval 0 (fun x => x + 10) [1;2;3;4;5] 2 = Ok [11;12;13;14;15] /\
  checked_eval (fun x => x =? 0) (fun x => x + 10) (fun x => x =? 7) 2 0 [1;2;3;4;5] = Ok [11;12;13;14;15].
Proof. repeat split. Qed.

(* ---- C21 ---- *)
(* any number of processes, any chunk size, any completion order: the same table, orbit-major *)
Theorem C21_propagate_2body : forall (O T S C : Type) bad_orbit (prop2 : O -> T -> S) bad_state (cov : O -> C) is_nan nan
    (jac : O -> T -> C -> C) pad,
  (forall o t c, is_nan c = true -> jac o t c = nan) ->
  forall pick max_processes chunk_size os ts, 1 <= chunk_size ->
  (~ two_body_bad bad_orbit prop2 bad_state os ts ->
     propagate_2body bad_orbit prop2 bad_state cov is_nan nan jac pad pick max_processes chunk_size os ts
     = Ok (two_body_table prop2 cov jac os ts)) /\
  (two_body_bad bad_orbit prop2 bad_state os ts ->
     propagate_2body bad_orbit prop2 bad_state cov is_nan nan jac pad pick max_processes chunk_size os ts = Err RuntimeError).
Proof. intros. eapply propagate_2body_ok; eassumption. Qed.
Print Assumptions C21_propagate_2body.

Theorem C21_row_order : forall (O T S C : Type) (prop2 : O -> T -> S) (cov : O -> C) (jac : O -> T -> C -> C) os ts i j o t,
  nth_error os i = Some o -> nth_error ts j = Some t ->
  nth_error (two_body_table prop2 cov jac os ts) (i * length ts + j) = Some (two_body_row prop2 cov jac o t).
Proof. intros. now apply two_body_table_nth. Qed.
Print Assumptions C21_row_order.

Theorem C21_ephemeris_2body : forall (O B E C M : Type) (eph : O -> B -> E) bad_eph (cov : O -> C) is_nan nan
    (jac : O -> B -> C -> C) has_hg (mag : O -> B -> result (option M)) mag' pad,
  (forall o b c, is_nan c = true -> jac o b c = nan) -> (forall o b, mag o b = Ok (mag' o b)) ->
  forall pick predict_mags max_processes chunk_size os bs, 1 <= chunk_size -> length os = length bs ->
  (~ eph_bad eph bad_eph (combine os bs) ->
     generate_ephemeris_2body eph bad_eph cov is_nan nan jac has_hg mag pad pick predict_mags max_processes chunk_size os bs
     = Ok (map (fun p => eph_row eph cov jac has_hg mag' predict_mags (fst p) (snd p)) (combine os bs))) /\
  (eph_bad eph bad_eph (combine os bs) ->
     generate_ephemeris_2body eph bad_eph cov is_nan nan jac has_hg mag pad pick predict_mags max_processes chunk_size os bs
     = Err RuntimeError).
Proof. intros. eapply generate_ephemeris_ok; eassumption. Qed.
Print Assumptions C21_ephemeris_2body.
(* orbits and observers of different lengths are rejected, serially and in parallel *)
Theorem C21_ephemeris_lengths : forall (O B E C M : Type) (eph : O -> B -> E) bad_eph (cov : O -> C) is_nan nan
    (jac : O -> B -> C -> C) has_hg (mag : O -> B -> result (option M)) pad pick predict_mags max_processes chunk_size os bs,
  length os <> length bs ->
  generate_ephemeris_2body eph bad_eph cov is_nan nan jac has_hg mag pad pick predict_mags max_processes chunk_size os bs = Err AssertionError.
Proof. intros. unfold generate_ephemeris_2body. destruct (Nat.eqb_spec (length os) (length bs)); [contradiction|reflexivity]. Qed.
Print Assumptions C21_ephemeris_lengths.

(* orbits 1 and 2 (covariances 0 = missing, 5), three epochs, workers finishing last-first *)
Example C21_case :
  let run mp := propagate_2body (fun _ => false) (fun o t => 100 * o + t) (fun s => s <? 0) (fun o => if o =? 1 then 0 else 5)
     (fun c => c =? 0) 0 (fun o t c => if c =? 0 then 0 else c + t) (0, 0) (fun _ => 1%nat) mp 1 [1;2] [7;8;9] in
  run 1 = run 4 /\ run 1 = Ok [mktrow 1 7 107 0; mktrow 1 8 108 0; mktrow 1 9 109 0;
                               mktrow 2 7 207 12; mktrow 2 8 208 13; mktrow 2 9 209 14] /\
  fst (window (fun _ => 1%nat) 4 [(0,[1]); (1,[2])]) = [(1,[2]); (0,[1])].
Proof. repeat split. Qed.
Example C21_ephemeris_case :
  let run mp := generate_ephemeris_2body (fun o b => o * 10 + b) (fun e => e <? 0) (fun o => o) (fun c => c =? 0) 0
     (fun o b c => if c =? 0 then 0 else c + b) (fun o => o =? 2) (fun o b => Ok (Some (o + b))) (0, 0) (fun _ => 1%nat)
     true mp 1 [0;2;3] [5;6;7] in
  run 1 = run 4 /\ run 1 = Ok [mkerow 5 0 None; mkerow 26 8 (Some 8); mkerow 37 10 None].
Proof. repeat split. Qed.

(* ---- C23 ---- *)
(* every submitted task is collected exactly once and at most ceil(1.5 P) are ever in flight *)
Theorem C23_task_window : forall A (pick : nat -> nat) P (tasks : list A), 1 <= P ->
  Permutation (fst (window pick P tasks)) tasks /\
  length (snd (window pick P tasks)) = length tasks /\
  Forall (fun n => Z.of_nat n <= (3 * P + 1) / 2) (snd (window pick P tasks)).
Proof. intros. now apply window_ok. Qed.
Print Assumptions C23_task_window.
Theorem C23_submit_all : forall A (pick : nat -> nat) (tasks : list A), Permutation (submit_all pick tasks) tasks.
Proof. intros. apply submit_all_ok. Qed.
Print Assumptions C23_submit_all.
Example C23_case : window (fun k => k) 2 [10;20;30;40;50] = ([10;30;50;40;20], [1;2;3;3;3]%nat).
Proof. reflexivity. Qed.

(* ---- C24 ---- *)
(* the default configuration behaves as the instance, and still the table depends on timing *)
Theorem C24_events_order_refuted : exists (detect : unit -> list Z -> result (list Z)) pick pick' orbits,
  detect_collisions detect tt pick tt 2 1 orbits <> detect_collisions detect tt pick' tt 2 1 orbits /\
  detect_collisions detect tt pick tt 2 1 orbits <> detect_collisions detect tt pick tt 1 1 orbits /\
  (forall l, detect tt l = Ok l).
Proof.
  exists (fun _ l => Ok l), (fun _ => 1%nat), (fun _ => 0%nat), [1;2]. split; [|split]; try reflexivity; vm_compute; discriminate.
Qed.
Print Assumptions C24_events_order_refuted.

Theorem C24_events_permutation_partial : forall (Cfg Orb Ev : Type) (detect : Cfg -> list Orb -> result (list Ev)) default
    (g : Orb -> list Ev),
  (forall l, detect default l = Ok (flat_map g l)) ->
  forall pick max_processes cs orbits, 1 <= cs -> orbits <> [] ->
  exists r, detect_collisions detect default pick default max_processes cs orbits = Ok r /\ Permutation r (flat_map g orbits).
Proof.
  intros Cfg Orb Ev detect default g H pick mp cs orbits Hc Hn. unfold detect_collisions. destruct (1 <? mp).
  - assert (F : existsb (fun _ : Orb => false) orbits = false) by (clear; induction orbits; auto).
    apply (par_collisions_perm _ (fun _ => false) g RuntimeError); auto.
    intros l. rewrite H. now replace (existsb (fun _ : Orb => false) l) with false by (clear; induction l; auto).
  - rewrite H. eauto.
Qed.
Print Assumptions C24_events_permutation_partial.
Example C24_case : detect_collisions (fun (_ : unit) l => Ok (flat_map (fun x => [x; 10 * x]) l)) tt (fun _ => 1%nat) tt 3 2 [1;2;3]
  = Ok [3;30;1;10;2;20].
Proof. reflexivity. Qed.

(* ---- C89 ---- *)
(* settings of the propagator instance are ignored by the parallel run *)
Theorem C89_propagator_settings_refuted : exists (detect : Z -> list Z -> result (list Z)) default self orbits,
  (forall cfg l, detect cfg l = Ok (flat_map (fun x => if x <? cfg then [x] else []) l)) /\
  forall pick, detect_collisions detect default pick self 1 1 orbits = Ok [3] /\
               detect_collisions detect default pick self 2 1 orbits = Ok [].
Proof.
  exists (fun cfg l => Ok (flat_map (fun x => if x <? cfg then [x] else []) l)), 0, 5, [3]. split. reflexivity.
  intros pick. split. reflexivity. unfold detect_collisions, par_collisions. cbn iota.
  change (1 <? 2) with true. cbn iota. change (iterate_chunks [3] 1) with (Ok [[3]]). cbn [bind].
  assert (submit_all pick [[3]] = [[3]]) as -> by (apply Permutation_length_1_inv, Permutation_sym, submit_all_ok).
  reflexivity.
Qed.
Print Assumptions C89_propagator_settings_refuted.

(* ---- C25 ---- *)
Theorem C25_moid_order_refuted : exists (moid_row : Z -> Z -> result (Z * Z)) pick pick' orbits ps,
  perturber_moids moid_row pick 2 1 orbits ps <> perturber_moids moid_row pick' 2 1 orbits ps /\
  perturber_moids moid_row pick 2 1 orbits ps <> perturber_moids moid_row pick 1 1 orbits ps.
Proof.
  exists (fun p o => Ok (p, o)), (fun _ => 1%nat), (fun _ => 0%nat), [1;2], [3]. split; vm_compute; discriminate.
Qed.
Print Assumptions C25_moid_order_refuted.

(* serially the rows are perturber-major; in parallel the same rows in some order *)
Theorem C25_moid_rows_partial : forall (Orb P R : Type) (moid_row : P -> Orb -> result R) pick cs orbits ps rows, 1 <= cs ->
  mapM (fun x => moid_row (fst x) (snd x)) (list_prod ps orbits) = Ok rows ->
  (forall mp, mp <= 1 -> perturber_moids moid_row pick mp cs orbits ps = Ok rows) /\
  (forall mp, exists r, perturber_moids moid_row pick mp cs orbits ps = Ok r /\ Permutation r rows).
Proof.
  intros Orb P R f pick cs orbits ps rows Hc H. split.
  - intros mp Hm. rewrite moid_serial by auto. exact H.
  - intros mp. now apply moid_parallel.
Qed.
Print Assumptions C25_moid_rows_partial.
Example C25_case : perturber_moids (fun p o : Z => Ok (p, o)) (fun _ => 1%nat) 2 2 [1;2;3] [7;8]
  = Ok [(7,3);(8,1);(8,2);(8,3);(7,1);(7,2)].
Proof. reflexivity. Qed.

(* ---- C26 ---- *)
Theorem C26_od_order_refuted : exists (fit : Z -> result (list Z)) pick pick' ids,
  od_batch fit pick 2 1 ids <> od_batch fit pick' 2 1 ids /\ od_batch fit pick 2 1 ids <> od_batch fit pick 1 1 ids.
Proof. exists (fun i => Ok [i]), (fun _ => 1%nat), (fun _ => 0%nat), [1;2]. split; vm_compute; discriminate. Qed.
Print Assumptions C26_od_order_refuted.

(* two linkages fitted to the same state: which one survives depends on timing *)
Theorem C26_iod_survivor_refuted : exists (fit : Z -> result (list (Z * Z))) pick pick' ids,
  let same a b := snd a =? snd b in let id_leb a b := fst a <=? fst b in
  iod_batch fit same id_leb pick 2 1 ids = Ok [(1, 0)] /\ iod_batch fit same id_leb pick' 2 1 ids = Ok [(2, 0)].
Proof. exists (fun i => Ok [(i, 0)]), (fun _ => 0%nat), (fun _ => 1%nat), [1;2]. split; reflexivity. Qed.
Print Assumptions C26_iod_survivor_refuted.

Theorem C26_od_permutation_partial : forall (I R : Type) (fit : I -> result (list R)) (g : I -> list R) pick P cs (ids : list I),
  (forall i, fit i = Ok (g i)) -> 1 <= cs ->
  exists r, od_batch fit pick P cs ids = Ok r /\ Permutation r (flat_map g ids) /\ (P <= 1 -> r = flat_map g ids).
Proof. intros. now apply od_batch_ok. Qed.
Print Assumptions C26_od_permutation_partial.

Theorem C26_iod_partial : forall (I R : Type) (fit : I -> result (list R)) (g : I -> list R) same leb pick P cs (ids : list I),
  (forall i, fit i = Ok (g i)) -> 1 <= cs ->
  (forall x y, leb x y = true \/ leb y x = true) -> (forall x y z, leb x y = true -> leb y z = true -> leb x z = true) ->
  (forall x y, In x (flat_map g ids) -> In y (flat_map g ids) -> leb x y = true -> leb y x = true -> x = y) ->
  all_different same (flat_map g ids) ->
  iod_batch fit same leb pick P cs ids = Ok (sort leb (flat_map g ids)).
Proof. intros. now apply iod_batch_ok. Qed.
Print Assumptions C26_iod_partial.
Example C26_case : iod_batch (fun i => Ok [(i, 10 * i)]) (fun a b => snd a =? snd b) (fun a b => fst a <=? fst b)
    (fun _ => 1%nat) 2 1 [3;1;2] = Ok [(1,10);(2,20);(3,30)] /\
  all_different (fun a b : Z * Z => snd a =? snd b) (flat_map (fun i => [(i, 10 * i)]) [3;1;2]).
Proof. split. reflexivity. cbn. repeat constructor. Qed.

(* ---- C88 ---- *)
(* propagation: an error is raised exactly when some row is non-finite and names such a row *)
Theorem C88_propagation_error_row : forall rows, exists r, propagation_report rows = Ok r /\
  match r with
  | Some (NumericalError i) => row_is (fun x => non_finite (fst x) \/ non_finite (snd x)) rows i
  | Some RowIndexError => False
  | None => Forall (fun x => ~ non_finite (fst x) /\ ~ non_finite (snd x)) rows
  end.
Proof. exact propagation_report_ok. Qed.
Print Assumptions C88_propagation_error_row.
Example C88_case : propagation_report [([true],[true]); ([true],[true;false]); ([false],[false])] = Ok (Some (NumericalError 2)).
Proof. reflexivity. Qed.

(* ephemeris: the wrong row is named, or an IndexError escapes *)
Theorem C88_ephemeris_index_error_refuted : exists rows row k,
  Forall (fun r => length r = 6%nat) rows /\ nth_error rows k = Some row /\ non_finite row /\
  (forall j r, nth_error rows j = Some r -> non_finite r -> j = k) /\
  ephemeris_report rows = Ok (Some RowIndexError).
Proof. exact ephemeris_report_refuted. Qed.
Print Assumptions C88_ephemeris_index_error_refuted.
Theorem C88_ephemeris_wrong_row_refuted : exists rows k i row,
  Forall (fun r => length r = 6%nat) rows /\
  (forall j r, nth_error rows j = Some r -> non_finite r -> j = k) /\
  ephemeris_report rows = Ok (Some (NumericalError i)) /\ nth_error rows (Z.to_nat i) = Some row /\ ~ non_finite row.
Proof. exact ephemeris_report_wrong_row. Qed.
Print Assumptions C88_ephemeris_wrong_row_refuted.
Theorem C88_ephemeris_detects_partial : forall rows, exists r, ephemeris_report rows = Ok r /\
  (r = None <-> Forall (fun x => ~ non_finite x) rows).
Proof. exact ephemeris_report_detects. Qed.
Print Assumptions C88_ephemeris_detects_partial.
