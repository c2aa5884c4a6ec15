(* Covariance and variant properties: C51-C55 and C103-C108. *)
From Coq Require Import Reals String QArith Lra Lia.
From Verif Require Import Base TimeModel ResModel CovModel SigmaModel CovSpec CovProofs.
Open Scope R_scope.
Open Scope list_scope.

Definition count (n : nat) : list nat := seq 1 n.

(* C51 refuted: reading a lower triangle zeroes every entry just below the diagonal, so the result
   is not even symmetric.  The values 1, ..., 21 are the lower triangle of a symmetric matrix. *)
Theorem C51_lower_refuted : exists v f, List.length v = 21%nat /\ lower_to_full 0%nat v = Ok f /\
  f 1%nat 0%nat <> f 0%nat 1%nat /\ nth_error v (lower_position 1 0) <> Some (f 1%nat 0%nat).
Proof.
  eexists (count 21), _. split; [reflexivity|]. split; [reflexivity|]. split; [|]; vm_compute; discriminate.
Qed.
Print Assumptions C51_lower_refuted.
Theorem C51_lower_partial : forall A (zero : A) v f, lower_to_full zero v = Ok f ->
  List.length v = 21%nat /\ forall i j, (i < 6)%nat -> (j < 6)%nat ->
    ((i <= j)%nat -> nth_error v (lower_position j i) = Some (f i j)) /\
    ((j + 1 < i)%nat -> nth_error v (lower_position i j) = Some (f i j)) /\
    (i = (j + 1)%nat -> f i j = zero).
Proof. intros A. exact lower_ok. Qed.
Print Assumptions C51_lower_partial.
Example C51_case : exists f, lower_to_full 0%nat (count 21) = Ok f /\ f 0%nat 1%nat = 2%nat /\ f 2%nat 0%nat = 4%nat /\ f 5%nat 5%nat = 21%nat.
Proof. eexists. repeat split. Qed.

(* C108: upper triangles of 21 entries, and of 28 entries with an extra (non-gravitational)
   parameter whose column is dropped, give the symmetric matrix with exactly those entries *)
Theorem C108_upper : forall A (zero : A) v,
  (List.length v = 21%nat -> exists f, upper_to_full zero v = Ok f) /\
  (List.length v <> 21%nat -> upper_to_full zero v = Err AssertionError) /\
  forall f, upper_to_full zero v = Ok f -> forall i j, (i < 6)%nat -> (j < 6)%nat ->
    f i j = f j i /\ ((i <= j)%nat -> nth_error v (upper_position 6 i j) = Some (f i j)).
Proof.
  intros A zero v. split; [|split].
  - intros L. unfold upper_to_full. rewrite L. cbn [Nat.eqb negb]. eauto.
  - apply upper_err.
  - intros f H. exact (proj2 (upper_ok zero v f H)).
Qed.
Print Assumptions C108_upper.
Theorem C108_oef : forall A (zero : A) v f, oef_covariance zero v = Ok (Some f) ->
  exists n, (n = 6%nat /\ List.length v = 21%nat \/ n = 7%nat /\ List.length v = 28%nat) /\
  forall i j, (i < 6)%nat -> (j < 6)%nat ->
    f i j = f j i /\ ((i <= j)%nat -> nth_error v (upper_position n i j) = Some (f i j)).
Proof. intros A. exact oef_ok. Qed.
Print Assumptions C108_oef.
Example C108_case : exists f, oef_covariance 0%nat (count 28) = Ok (Some f) /\ f 0%nat 5%nat = 6%nat /\ f 1%nat 1%nat = 8%nat /\ f 5%nat 1%nat = 12%nat.
Proof. eexists. repeat split. Qed.

(* C107 refuted: a missing sigma in one dimension makes the matrix asymmetric: the whole column,
   including entries between two other dimensions' rows, becomes NaN, the row stays zero *)
Theorem C107_missing_sigma_refuted : exists s m a b, sigmas_to_covariance s = m /\
  nth_error m 0 = Some a /\ nth_error m 1 = Some b /\
  nth_error a 1 = Some None /\ nth_error b 0 <> Some None.
Proof.
  eexists [Some 2%Q; None], _, _, _. split; [reflexivity|]. split; [reflexivity|]. split; [reflexivity|].
  split; [reflexivity|]. cbn. discriminate.
Qed.
Print Assumptions C107_missing_sigma_refuted.
Theorem C107_missing_sigma_partial : forall s i j x, (i < List.length s)%nat -> nth_error s j = Some (Some x) ->
  exists r y, nth_error (sigmas_to_covariance s) i = Some r /\ nth_error r j = Some (Some y) /\
    (i = j -> (y == x * x)%Q) /\ (i <> j -> (y == 0)%Q).
Proof.
  intros s i j x Hi Hj. destruct (sigmas_entry s i j (Some x) Hi Hj) as [r [H1 H2]]. cbn in H2.
  exists r. unfold identity in H2. destruct (Nat.eqb_spec j i) as [->|N].
  - eexists. split; [exact H1|]. split; [exact H2|]. split; [intros _; ring|congruence].
  - eexists. split; [exact H1|]. split; [exact H2|]. split; [congruence|intros _; ring].
Qed.
Print Assumptions C107_missing_sigma_partial.
Example C107_case : sigmas_to_covariance [Some 2%Q; Some 3%Q] = [[Some 4%Q; Some 0%Q]; [Some 0%Q; Some 9%Q]].
Proof. reflexivity. Qed.

(* C52: sigma points reproduce mean and covariance for every alpha <> 0, beta, kappa <> -D *)
Theorem C52_sigma_points : forall D alpha beta kappa mean C L,
  alpha <> 0 -> INR D + kappa <> 0 ->
  let scale := alpha * alpha * (INR D + kappa) in
  root D (fun i j => scale * C i j) L ->
  let pts := sigma_points D mean L in
  List.length pts = (2 * D + 1)%nat /\
  rsum (weights D alpha kappa) = 1 /\
  (forall j, weighted_mean pts (weights D alpha kappa) j = mean j) /\
  same_matrix D (weighted_covariance mean pts (weights_cov D alpha beta kappa)) C.
Proof.
  intros D alpha beta kappa mean C L Ha Hk scale HR pts.
  pose proof (lambda_pos D alpha kappa Ha Hk) as NZ.
  split; [apply points_length|]. split; [apply weights_sum; auto|]. split; [intros; apply sigma_mean; auto|].
  apply sigma_cov; auto. unfold scale in HR.
  replace (INR D + lambda_ D alpha kappa) with (alpha * alpha * (INR D + kappa)); auto. unfold lambda_. ring.
Qed.
Print Assumptions C52_sigma_points.
(* the default parameters (alpha 1, beta 0, kappa 0) in two dimensions, covariance 8 * identity *)
Definition diag2 (d : R) : mat := fun i j => if Nat.eqb i j then d else 0.
Lemma diag2_root : forall d, root 2 (fun i j => 1 * 1 * (INR 2 + 0) * diag2 (2 * d * d) i j) (diag2 (2 * d)).
Proof.
  intros d. split.
  - intros i j _ _. unfold diag2. rewrite (Nat.eqb_sym i j). auto.
  - intros i j Hi Hj. unfold product, diag2. cbn.
    destruct i as [|[|i]]; [| |lia]; (destruct j as [|[|j]]; [| |lia]); cbn; ring.
Qed.
Example C52_case : root 2 (fun i j => 1 * 1 * (INR 2 + 0) * diag2 8 i j) (diag2 4) /\ (1 : R) <> 0 /\ INR 2 + 0 <> 0 /\
  nth_error (sigma_points 2 (fun _ => 1) (diag2 4)) 1 <> nth_error (sigma_points 2 (fun _ => 1) (diag2 4)) 0.
Proof.
  split; [|split; [lra|split; [cbn; lra|]]].
  - pose proof (diag2_root 2) as H. replace (2 * 2 * 2) with 8 in H by lra. replace (2 * 2) with 4 in H by lra. exact H.
  - cbn. intros E. injection E as E. apply (f_equal (fun f => f 0%nat)) in E. cbn in E. lra.
Qed.

(* ---- collapsing ---- *)
Definition at_ns (n : Z) : row := mkrow 60000 n.
Definition orb (id : string) (n : Z) (code : string) (v : R) : orow := mkorow id (at_ns n) code (fun _ => v) None.
Definition var (id : string) (n : Z) (code : string) (v w : R) : vrow := mkvrow id (at_ns n) code (fun _ => v) w.

(* C53 refuted: two epochs of one orbit within the same millisecond are pooled *)
Theorem C53_same_millisecond_refuted : exists os vs o c M,
  collapse "tdb" "tdb" os vs = Ok [c] /\ os = [o] /\ o_cov c = Some M /\
  M 0%nat 0%nat <> spread (o_vals o) (map pair_of (filter (belongs o) vs)) 0 0.
Proof.
  eexists [orb "a" 0 "SUN" 0], [var "a" 0 "SUN" (-1) (1/2); var "a" 0 "SUN" 1 (1/2); var "a" 1000 "SUN" 9 (1/2); var "a" 1000 "SUN" 11 (1/2)], _, _, _.
  split; [cbv beta iota zeta delta [collapse String.eqb Ascii.eqb Bool.eqb negb map]; reflexivity|].
  split; [reflexivity|]. split; [reflexivity|].
  rewrite collapse_spread. cbn. lra.
Qed.
Print Assumptions C53_same_millisecond_refuted.
(* the rest of the property: input order, and exactly the orbit's own variants when no other epoch
   of the same orbit shares the millisecond *)
Theorem C53_own_variants_partial : forall oscale vscale os vs cs, collapse oscale vscale os vs = Ok cs ->
  List.length cs = List.length os /\
  forall k o c, nth_error os k = Some o -> nth_error cs k = Some c ->
    o_id c = o_id o /\ o_time c = o_time o /\ o_code c = o_code o /\ o_vals c = o_vals o /\
    ((forall v, In v vs -> v_id v = o_id o -> days (v_time v) = days (o_time o) -> millis (v_time v) = millis (o_time o) ->
        nanos (v_time v) = nanos (o_time o)) ->
     exists M, o_cov c = Some M /\ forall i j, M i j = spread (o_vals o) (map pair_of (filter (belongs o) vs)) i j).
Proof. exact collapse_own. Qed.
Print Assumptions C53_own_variants_partial.
(* creating sigma-point variants and collapsing them again gives back every orbit, its covariance
   included, in input order *)
Theorem C53_round_trip_partial : forall sqrtm draws poor D n alpha beta kappa seed scale os,
  INR D + lambda_ D alpha kappa <> 0 -> os <> [] ->
  (forall o, In o os -> exists C, o_cov o = Some C /\
     root D (fun i j => (INR D + lambda_ D alpha kappa) * C i j) (sqrtm (fun i j => (INR D + lambda_ D alpha kappa) * C i j))) ->
  NoDup (map key_of os) ->
  exists vs cs, create_variants sqrtm draws poor D "sigma-point" n alpha beta kappa seed (map cin_of os) = Ok vs /\
    List.length vs = ((2 * D + 1) * List.length os)%nat /\
    collapse scale scale os (to_vrows os vs) = Ok cs /\
    Forall2 (fun o c => o_id c = o_id o /\ o_time c = o_time o /\ o_code c = o_code o /\ o_vals c = o_vals o /\
               exists C C', o_cov o = Some C /\ o_cov c = Some C' /\ same_matrix D C' C) os cs.
Proof. exact round_trip. Qed.
Print Assumptions C53_round_trip_partial.
Example C53_case : INR 2 + lambda_ 2 1 0 <> 0 /\
  NoDup (map key_of [mkorow "a" (at_ns 0) "SUN" (fun _ => 1) (Some (diag2 8)); mkorow "a" (at_ns 1000000) "SUN" (fun _ => 3) (Some (diag2 18))]) /\
  (forall d, root 2 (fun i j => (INR 2 + lambda_ 2 1 0) * diag2 (2 * d * d) i j) (diag2 (2 * d))).
Proof.
  split; [unfold lambda_; cbn; lra|]. split.
  - repeat constructor; cbn; intros [H|[]] || intros []. discriminate H.
  - intros d. destruct (diag2_root d) as [H1 H2]. split; [exact H1|]. intros i j Hi Hj. rewrite H2 by auto. unfold lambda_. cbn [INR]. ring.
Qed.

(* C54 refuted: simultaneous ephemerides of one orbit from two observatories are pooled *)
Theorem C54_observatories_refuted : exists os vs o c M,
  collapse "utc" "utc" os vs = Ok [c] /\ os = [o] /\ o_cov c = Some M /\
  M 0%nat 0%nat <> spread (o_vals o) (map pair_of (filter (code_belongs o) vs)) 0 0.
Proof.
  eexists [orb "a" 0 "500" 0], [var "a" 0 "500" (-1) (1/2); var "a" 0 "500" 1 (1/2); var "a" 0 "W84" 9 (1/2); var "a" 0 "W84" 11 (1/2)], _, _, _.
  split; [cbv beta iota zeta delta [collapse String.eqb Ascii.eqb Bool.eqb negb map]; reflexivity|].
  split; [reflexivity|]. split; [reflexivity|].
  rewrite collapse_spread. cbn. lra.
Qed.
Print Assumptions C54_observatories_refuted.
Theorem C54_observatories_partial : forall oscale vscale os vs cs, collapse oscale vscale os vs = Ok cs ->
  forall k o c, nth_error os k = Some o -> nth_error cs k = Some c ->
    (forall v, In v vs -> v_id v = o_id o -> days (v_time v) = days (o_time o) -> millis (v_time v) = millis (o_time o) ->
        nanos (v_time v) = nanos (o_time o) /\ v_code v = o_code o) ->
     exists M, o_cov c = Some M /\ forall i j, M i j = spread (o_vals o) (map pair_of (filter (code_belongs o) vs)) i j.
Proof. exact collapse_code. Qed.
Print Assumptions C54_observatories_partial.
Example C54_case : exists c M, collapse "utc" "utc" [orb "a" 0 "500" 0] [var "a" 0 "500" (-1) (1/2); var "b" 0 "W84" 1 (1/2); var "a" 0 "500" 1 (1/2)] = Ok [c] /\
  o_cov c = Some M /\ M 0%nat 0%nat = 1.
Proof.
  eexists _, _. split; [cbv beta iota zeta delta [collapse String.eqb Ascii.eqb Bool.eqb negb map]; reflexivity|].
  split; [reflexivity|]. rewrite collapse_spread. cbn. lra.
Qed.

(* C104 refuted: an orbit with no variants at all is given an all-zero covariance (perfect
   knowledge) and not a missing one *)
Theorem C104_no_variants_refuted : forall oscale vscale os vs cs k o c, collapse oscale vscale os vs = Ok cs ->
  nth_error os k = Some o -> nth_error cs k = Some c ->
  (forall v, In v vs -> v_id v <> o_id o) ->
  exists M, o_cov c = Some M /\ forall i j, M i j = 0.
Proof. exact collapse_none. Qed.
Print Assumptions C104_no_variants_refuted.
(* a variance of zero otherwise means that no variant differs (positive weights) *)
Theorem C104_no_variants_partial : forall oscale vscale os vs cs k o c i, collapse oscale vscale os vs = Ok cs ->
  nth_error os k = Some o -> nth_error cs k = Some c ->
  (forall v, In v vs -> v_id v = o_id o -> 0 < v_wcov v) ->
  (exists v, In v vs /\ v_id v = o_id o /\ v_time v = o_time o /\ v_vals v i <> o_vals o i) ->
  exists M, o_cov c = Some M /\ 0 < M i i.
Proof.
  intros oscale vscale os vs cs k o c i H Ho Hc HW [v [Hv [E1 [E2 E3]]]]. apply collapse_ok in H. destruct H as [_ [_ ->]].
  rewrite nth_error_map, Ho in Hc. injection Hc as <-. cbn [o_cov collapse_row]. eexists. split; [reflexivity|].
  rewrite collapse_spread. apply spread_pos.
  - intros w s Hs. apply in_map_iff in Hs. destruct Hs as [x [Ex Hx]]. injection Ex as <- <-. apply filter_In in Hx. destruct Hx as [Hx Kx].
    apply HW; auto. unfold same_key in Kx. apply andb_prop in Kx. destruct Kx as [Kx _]. apply andb_prop in Kx. destruct Kx as [Kx _].
    apply String.eqb_eq in Kx. auto.
  - exists (v_wcov v), (v_vals v). split; auto. apply in_map_iff. exists v. split; auto. apply filter_In. split; auto.
    unfold same_key. rewrite E1, E2, String.eqb_refl, !Z.eqb_refl. auto.
Qed.
Print Assumptions C104_no_variants_partial.
Example C104_case : exists c M, collapse "utc" "utc" [orb "a" 0 "500" 0] [var "b" 0 "500" 1 1] = Ok [c] /\ o_cov c = Some M /\ M 0%nat 0%nat = 0.
Proof.
  eexists _, _. split; [cbv beta iota zeta delta [collapse String.eqb Ascii.eqb Bool.eqb negb map]; reflexivity|]. split; [reflexivity|]. rewrite collapse_spread. cbn. lra.
Qed.

(* C105 refuted: the variance of a longitude (column 1, degrees) is computed from plain differences,
   so an ephemeris near 0/360 gets a variance of (hundreds of degrees)^2 *)
Definition lon_spread (o : orow) (vs : list vrow) (x : R) : Prop :=
  exists ds, Forall2 (fun v d => short_way (o_vals o 1%nat) (v_vals v 1%nat) d) vs ds /\
    x = rsum (map (fun wd => v_wcov (fst wd) * snd wd * snd wd) (combine vs ds)).
Theorem C105_longitude_refuted : exists o vs c M,
  collapse "utc" "utc" [o] vs = Ok [c] /\ o_cov c = Some M /\
  lon_spread o (filter (belongs o) vs) 1 /\ M 1%nat 1%nat = 64441.
Proof.
  eexists (orb "a" 0 "500" 0), [var "a" 0 "500" 359 (1/2); var "a" 0 "500" 1 (1/2)], _, _.
  split; [cbv beta iota zeta delta [collapse String.eqb Ascii.eqb Bool.eqb negb map]; reflexivity|].
  split; [reflexivity|]. split; [|rewrite collapse_spread; cbn; lra].
  exists [-1; 1]. split; [|cbn; lra]. cbn. repeat constructor; cbn; try lra; [exists (-1)%Z|exists 0%Z]; cbn; lra.
Qed.
Print Assumptions C105_longitude_refuted.
Theorem C105_longitude_partial : forall oscale vscale os vs cs k o c, collapse oscale vscale os vs = Ok cs ->
  nth_error os k = Some o -> nth_error cs k = Some c ->
  (forall v, In v vs -> v_id v = o_id o -> days (v_time v) = days (o_time o) -> millis (v_time v) = millis (o_time o) ->
      nanos (v_time v) = nanos (o_time o) /\ -180 <= v_vals v 1%nat - o_vals o 1%nat <= 180) ->
  exists M, o_cov c = Some M /\ lon_spread o (filter (belongs o) vs) (M 1%nat 1%nat).
Proof.
  intros oscale vscale os vs cs k o c H Ho Hc HV. destruct (collapse_own _ _ _ _ _ H) as [_ R1].
  destruct (R1 k o c Ho Hc) as [_ [_ [_ [_ R2]]]]. destruct R2 as [M [M1 M2]]; [intros; apply HV; auto|].
  exists M. split; auto. exists (map (fun v => v_vals v 1%nat - o_vals o 1%nat) (filter (belongs o) vs)). rewrite M2. clear M2 M1. split.
  - assert (F : forall v, In v (filter (belongs o) vs) -> -180 <= v_vals v 1%nat - o_vals o 1%nat <= 180).
    { intros v Hv. apply filter_In in Hv. destruct Hv as [Hv K]. apply belongs_key in K. unfold same_key in K.
      apply andb_prop in K. destruct K as [K K3]. apply andb_prop in K. destruct K as [K1 K2].
      apply String.eqb_eq in K1. apply Z.eqb_eq in K2, K3. apply HV; auto. }
    induction (filter (belongs o) vs) as [|v l IH]; cbn [map]; constructor; [|apply IH; intros; apply F; cbn; auto].
    split; [apply F; cbn; auto|]. exists 0%Z. cbn. lra.
  - induction (filter (belongs o) vs) as [|v l IH]; cbn; auto. rewrite IH. auto.
Qed.
Print Assumptions C105_longitude_partial.
Example C105_case : exists c M, collapse "utc" "utc" [orb "a" 0 "500" 10] [var "a" 0 "500" 8 (1/2); var "a" 0 "500" 12 (1/2)] = Ok [c] /\
  o_cov c = Some M /\ M 1%nat 1%nat = 4.
Proof.
  eexists _, _. split; [cbv beta iota zeta delta [collapse String.eqb Ascii.eqb Bool.eqb negb map]; reflexivity|]. split; [reflexivity|]. rewrite collapse_spread. cbn. lra.
Qed.

(* C106 refuted: collapsing sigma points by object divides the covariance by the sum of the
   covariance weights, 2 - alpha^2 + beta *)
Theorem C106_by_object_refuted : exists mean C L,
  root 2 (fun i j => (INR 2 + lambda_ 2 1 0) * C i j) L /\
  let out := collapse_group (sigma_points 2 mean L) (weights 2 1 0) (weights_cov 2 1 2 0) in
  C 0%nat 0%nat = 6 /\ snd out 0%nat 0%nat = 2.
Proof.
  exists (fun _ => 0), (diag2 6), (fun i j => if Nat.eqb i j then sqrt 12 else 0).
  assert (RT : root 2 (fun i j => (INR 2 + lambda_ 2 1 0) * diag2 6 i j) (fun i j => if Nat.eqb i j then sqrt 12 else 0)).
  { split; [intros i j _ _; rewrite (Nat.eqb_sym i j); auto|]. intros i j Hi Hj. unfold product, diag2, lambda_. cbn [INR total].
    pose proof (sqrt_sqrt 12 ltac:(lra)).
    destruct i as [|[|i]]; [| |lia]; (destruct j as [|[|j]]; [| |lia]); cbn; lra. }
  split; [exact RT|]. split; [reflexivity|].
  destruct (group_sigma 2 1 2 0 (fun _ => 0) (diag2 6) _ ltac:(unfold lambda_; cbn; lra) ltac:(lra) RT) as [_ G].
  cbv zeta in G. rewrite G by lia. cbn. lra.
Qed.
Print Assumptions C106_by_object_refuted.
Theorem C106_by_object_partial : forall D alpha beta kappa mean C L,
  INR D + lambda_ D alpha kappa <> 0 -> 2 - alpha * alpha + beta <> 0 ->
  root D (fun i j => (INR D + lambda_ D alpha kappa) * C i j) L ->
  let out := collapse_group (sigma_points D mean L) (weights D alpha kappa) (weights_cov D alpha beta kappa) in
  (forall j, fst out j = mean j) /\
  same_matrix D (snd out) (fun i j => C i j / (2 - alpha * alpha + beta)) /\
  (beta = alpha * alpha - 1 -> same_matrix D (snd out) C).
Proof.
  intros D alpha beta kappa mean C L NZ NS RT out. destruct (group_sigma D alpha beta kappa mean C L NZ NS RT) as [G1 G2].
  split; [exact G1|]. split; [exact G2|]. intros E i j Hi Hj. unfold out. cbv zeta in G2. rewrite G2 by auto. rewrite E. replace (2 - alpha * alpha + (alpha * alpha - 1)) with 1 by ring. field.
Qed.
Print Assumptions C106_by_object_partial.
Example C106_case : INR 2 + lambda_ 2 1 0 <> 0 /\ 2 - 1 * 1 + 0 <> 0 /\ (0 : R) = 1 * 1 - 1 /\
  root 2 (fun i j => (INR 2 + lambda_ 2 1 0) * diag2 8 i j) (diag2 4).
Proof.
  split; [unfold lambda_; cbn; lra|]. split; [lra|]. split; [lra|].
  destruct (diag2_root 2) as [H1 H2]. replace (2 * 2 * 2) with 8 in H2 by lra. replace (2 * 2) with 4 in * by lra.
  split; [exact H1|]. intros i j Hi Hj. rewrite H2 by auto. unfold lambda_. cbn [INR]. ring.
Qed.

(* C55 refuted: with "auto", a covariance the sigma points do not reproduce to 1e-12 is sampled
   with fresh entropy although a seed was given.  The two runs agree on everything the seed fixes. *)
Definition one_dim : cin := mkcin (fun _ => 0) (fun _ _ => 1) false false false.
Theorem C55_seed_refuted : exists sqrtm poor draws draws' cs,
  (forall s n m c, draws (Some s) n m c = draws' (Some s) n m c) /\
  create_variants sqrtm draws poor 1 "auto" 2 1 0 0 (Some 42%Z) cs <> create_variants sqrtm draws' poor 1 "auto" 2 1 0 0 (Some 42%Z) cs.
Proof.
  exists (fun m => m), (fun _ _ _ _ => true), (fun _ _ _ _ => [(fun _ => 0); (fun _ => 0)]),
    (fun s _ _ _ => match s with Some _ => [(fun _ => 0); (fun _ => 0)] | None => [(fun _ => 1); (fun _ => 1)] end), [one_dim].
  split; [reflexivity|]. cbn. intros E. injection E as E. apply (f_equal (fun f => f 0%nat)) in E. cbn in E. lra.
Qed.
Print Assumptions C55_seed_refuted.
Theorem C55_seed_partial : forall sqrtm poor draws draws' s,
  (forall n m c, draws (Some s) n m c = draws' (Some s) n m c) ->
  forall D method n alpha beta kappa cs, method <> "auto"%string ->
  create_variants sqrtm draws poor D method n alpha beta kappa (Some s) cs =
  create_variants sqrtm draws' poor D method n alpha beta kappa (Some s) cs.
Proof. exact seed_fixed. Qed.
Print Assumptions C55_seed_partial.
Example C55_case : exists vs, create_variants (fun m => m) (fun _ _ _ _ => [(fun _ => 5); (fun _ => 6)]) (fun _ _ _ _ => true)
  1 "monte-carlo" 2 1 0 0 (Some 42%Z) [one_dim] = Ok vs /\ map index vs = [0%nat; 0%nat] /\ map (fun v => sample v 0%nat) vs = [5; 6].
Proof. eexists. cbn. repeat split. Qed.

(* C103 refuted: a single Monte Carlo sample cannot be drawn *)
Theorem C103_one_sample_refuted : forall sqrtm draws poor D alpha beta kappa seed c,
  c_cov_nan c = false -> c_mean_nan c = false -> c_cov_all_nan c = false ->
  create_variants sqrtm draws poor D "monte-carlo" 1 alpha beta kappa seed [c] = Err IndexError.
Proof.
  intros. unfold create_variants. cbn [forallb]. rewrite H1. cbn [andb List.length seq combine mapM snd].
  unfold sample_one. rewrite H, H0. reflexivity.
Qed.
Print Assumptions C103_one_sample_refuted.
Theorem C103_one_sample_partial : forall sqrtm draws poor D n alpha beta kappa seed cs,
  (2 <= n)%Z -> cs <> [] ->
  (forall m c, List.length (draws seed n m c) = Z.to_nat n) ->
  (forall c, In c cs -> c_cov_nan c = false /\ c_mean_nan c = false /\ c_cov_all_nan c = false) ->
  exists vs, create_variants sqrtm draws poor D "monte-carlo" n alpha beta kappa seed cs = Ok vs /\
    List.length vs = (Z.to_nat n * List.length cs)%nat.
Proof.
  intros sqrtm draws poor D n alpha beta kappa seed cs Hn NE HL HC.
  destruct (monte_carlo_ok sqrtm poor draws seed D n alpha beta kappa cs Hn NE HC) as [vs E].
  exists vs. split; auto. eapply monte_carlo_count; eauto.
Qed.
Print Assumptions C103_one_sample_partial.
Example C103_case : exists vs, create_variants (fun m => m) (fun _ _ _ _ => [(fun _ => 5); (fun _ => 6)]) (fun _ _ _ _ => true)
  1 "monte-carlo" 2 1 0 0 None [one_dim; one_dim] = Ok vs /\ map index vs = [0%nat; 0%nat; 1%nat; 1%nat].
Proof. eexists. cbn. repeat split. Qed.
