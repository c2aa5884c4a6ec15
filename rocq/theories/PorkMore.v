From Coq Require Import Reals Lra Psatz.
From Coq Require Import List String Bool ZArith Lia Permutation Sorted.
From Verif Require Import Base ListLemmas SchedModel SchedSpec SchedProofs TimeModel SphModel SphSpec SphProofs KepModel LightModel FrameModel LambertModel LambertGeom PorkModel PorkSpec PorkProofs.
Import ListNotations.
Open Scope string_scope.
Open Scope list_scope.
Open Scope R_scope.

(* ---- order ---- *)
Lemma leb_instant : forall a b, proper (b_time a) -> proper (b_time b) -> time_leb a b = true -> (instant (b_time a) <= instant (b_time b))%Z.
Proof.
  intros a b A B H. unfold time_leb in H. unfold proper, instant in *. apply orb_true_iff in H. destruct H as [H|H]; [apply Z.ltb_lt in H; lia|].
  apply andb_true_iff in H. destruct H as [H1 H2]. apply Z.eqb_eq in H1. apply Z.leb_le in H2. lia.
Qed.
Lemma time_total : forall x y, time_leb x y = true \/ time_leb y x = true.
Proof.
  intros x y. unfold time_leb. destruct (Z.ltb_spec (days (b_time x)) (days (b_time y))); [left; reflexivity|].
  destruct (Z.ltb_spec (days (b_time y)) (days (b_time x))); [right; reflexivity|]. assert (E : days (b_time x) = days (b_time y)) by lia. rewrite E, Z.eqb_refl. cbn.
  destruct (Z.leb_spec (nanos (b_time x)) (nanos (b_time y))); [left; reflexivity|right]. apply Z.leb_le. lia.
Qed.
Lemma time_trans : forall x y z, time_leb x y = true -> time_leb y z = true -> time_leb x z = true.
Proof.
  intros x y z. unfold time_leb. rewrite !orb_true_iff, !andb_true_iff, !Z.ltb_lt, !Z.eqb_eq, !Z.leb_le. lia.
Qed.
Definition time_le (a b : orb) : Prop := (instant (b_time a) <= instant (b_time b))%Z.
Lemma sorted_by_time : forall l, Forall (fun b => proper (b_time b)) l -> StronglySorted time_le (sort time_leb l).
Proof.
  intros l P. assert (P' : Forall (fun b => proper (b_time b)) (sort time_leb l)) by (eapply Permutation_Forall; [apply sort_perm|exact P]).
  pose proof (sort_sorted time_leb time_total time_trans l) as S. revert S P'. generalize (sort time_leb l). clear l P.
  induction 1 as [|x r S IH F]; intro P; [constructor|]. inversion P; subst. constructor; [auto|]. rewrite Forall_forall in *.
  intros y Y. apply leb_instant; auto. apply F. exact Y.
Qed.
Lemma ss_app {A} (R : A -> A -> Prop) l m : StronglySorted R l -> StronglySorted R m -> (forall x y, In x l -> In y m -> R x y) -> StronglySorted R (l ++ m).
Proof.
  intros L M H. induction L as [|x r S IH F]; [exact M|]. cbn. constructor.
  - apply IH. intros. apply H; [right|]; assumption.
  - apply Forall_app. split; [exact F|]. apply Forall_forall. intros y Y. apply H; [left; reflexivity|exact Y].
Qed.
Lemma ss_map {A B} (R : B -> B -> Prop) (f : A -> B) l : StronglySorted (fun x y => R (f x) (f y)) l -> StronglySorted R (map f l).
Proof. induction 1 as [|x r S IH F]; cbn; constructor; auto. now rewrite Forall_map. Qed.
Lemma ss_filter {A} (R : A -> A -> Prop) p l : StronglySorted R l -> StronglySorted R (filter p l).
Proof. induction 1 as [|x r S IH F]; cbn; [constructor|]. destruct (p x); [|exact IH]. constructor; [exact IH|]. apply Forall_forall. intros y Y. apply filter_In in Y. rewrite Forall_forall in F. apply F, Y. Qed.
Lemma ss_impl {A} (R Q : A -> A -> Prop) l : (forall x y, R x y -> Q x y) -> StronglySorted R l -> StronglySorted Q l.
Proof. intros H. induction 1 as [|x r S IH F]; constructor; auto. eapply Forall_impl; [|exact F]. auto. Qed.
Lemma ss_NoDup_lt : forall l, NoDup (map (fun b => instant (b_time b)) l) -> StronglySorted time_le l -> StronglySorted (fun a b => instant (b_time a) < instant (b_time b))%Z l.
Proof.
  intros l N S. induction S as [|x r S IH F]; [constructor|]. inversion N as [|? ? NI N']; subst. constructor; [auto|]. rewrite Forall_forall in *. intros y Y.
  specialize (F y Y). unfold time_le in F. assert (instant (b_time x) <> instant (b_time y)); [|lia]. intro E. apply NI. rewrite E. apply in_map_iff. exists y. auto.
Qed.
Section O.
Variables (o : string) (m : R) (pro : bool) (n : nat) (tol : R).
Notation rf := (row_for o m pro n tol).
Lemma pairs_sorted : forall ds ass, StronglySorted time_le ds -> StronglySorted (fun a b => instant (b_time a) < instant (b_time b))%Z ass ->
  StronglySorted in_order (map rf (pairs ds ass)).
Proof.
  intros ds ass D. induction 1 as [|a r S IH F]; [constructor|]. unfold pairs. cbn [flat_map]. rewrite map_app. apply ss_app; [|exact IH|].
  - rewrite map_map. apply ss_map. apply ss_filter. eapply ss_impl; [|exact D]. intros x y H. right. cbn. split; [reflexivity|exact H].
  - intros x y X Y. rewrite map_map in X. apply in_map_iff in X. destruct X as (d & <- & _). apply in_map_iff in Y. destruct Y as ((d2, a2) & <- & Y).
    apply in_flat_map in Y. destruct Y as (a3 & A3 & Y). apply in_map_iff in Y. destruct Y as (d3 & E & _). injection E as <- <-. left. cbn.
    rewrite Forall_forall in F. apply F. exact A3.
Qed.
Lemma pairs_arrivals : forall ds ass, StronglySorted time_le ass ->
  StronglySorted (fun x y => instant (b_time (x_arr x)) <= instant (b_time (x_arr y)))%Z (map rf (pairs ds ass)).
Proof.
  intros ds ass. induction 1 as [|a r S IH F]; [constructor|]. unfold pairs. cbn [flat_map]. rewrite map_app. apply ss_app; [|exact IH|].
  - rewrite map_map. apply ss_map. cbn. induction (filter _ ds); constructor; auto. apply Forall_forall. intros. lia.
  - intros x y X Y. rewrite map_map in X. apply in_map_iff in X. destruct X as (d & <- & _). apply in_map_iff in Y. destruct Y as ((d2, a2) & <- & Y).
    apply in_flat_map in Y. destruct Y as (a3 & A3 & Y). apply in_map_iff in Y. destruct Y as (d3 & E & _). injection E as <- <-. cbn.
    rewrite Forall_forall in F. apply F. exact A3.
Qed.
End O.

(* two chunks finishing in the opposite order *)
Lemma two_chunks {A} (ps : list A) : List.length ps = 101%nat -> iterate_chunks ps 100 = Ok [firstn 100 ps; skipn 100 ps].
Proof.
  intro L. unfold iterate_chunks, range0, zlen. rewrite L.
  replace (Z.to_nat ((Z.of_nat 101 + 100 - 1) / 100)) with 2%nat by reflexivity. change (100 =? 0)%Z with false. change (100 <? 0)%Z with false. cbn [bind seq map].
  assert (S0 : slice ps (Z.of_nat 0 * 100) (Z.of_nat 0 * 100 + 100) = firstn 100 ps).
  2: assert (S1 : slice ps (Z.of_nat 1 * 100) (Z.of_nat 1 * 100 + 100) = skipn 100 ps).
  3: rewrite S0, S1; reflexivity.
  all: unfold slice.
  - change (Z.of_nat 0 * 100)%Z with 0%Z. change (Z.to_nat (0 + 100 - 0)) with 100%nat. reflexivity.
  - change (Z.of_nat 1 * 100)%Z with 100%Z. change (Z.to_nat (100 + 100 - 100)) with 100%nat. change (Z.to_nat 100) with 100%nat. apply firstn_all2. rewrite skipn_length. lia.
Qed.
Lemma swapped {A} (a b : A) : window_gt (fun _ => 1%nat) 2 [a; b] = [b; a].
Proof. reflexivity. Qed.

(* ---- direction of departure ---- *)
Lemma norm_scale : forall k v, norm (scale k v) = Rabs k * norm v.
Proof.
  intros k [[x y] z]. unfold norm, scale, dot. replace (k * x * (k * x) + k * y * (k * y) + k * z * (k * z)) with (Rsqr k * (x * x + y * y + z * z)) by (unfold Rsqr; ring).
  rewrite sqrt_mult_alt by (unfold Rsqr; nra). now rewrite sqrt_Rsqr_abs.
Qed.
Lemma scale_scale : forall a b v, scale a (scale b v) = scale (a * b) v.
Proof. intros a b [[x y] z]. unfold scale. repeat (f_equal; try ring). Qed.
Lemma norm_nn : forall v, 0 <= norm v.
Proof. intro v. unfold norm. apply sqrt_pos. Qed.
Lemma direction_scaled : forall f k v, 0 < k -> departure_direction f (scale k v) = departure_direction f v.
Proof.
  intros f k v K. unfold departure_direction. rewrite norm_scale, Rabs_right by lra. destruct (Req_EM_T (norm v) 0) as [Z|Z].
  - rewrite Z. destruct (Req_EM_T (k * 0) 0); [reflexivity|lra].
  - destruct (Req_EM_T (k * norm v) 0) as [Z2|Z2]; [exfalso; apply Rmult_integral in Z2; lra|]. rewrite scale_scale.
    replace (/ (k * norm v) * k) with (/ norm v) by (field; lra). reflexivity.
Qed.
Lemma trig1 : cos obliquity * cos obliquity + sin obliquity * sin obliquity = 1.
Proof. pose proof (sin2_cos2 obliquity). unfold Rsqr in *. lra. Qed.
Definition dir_of (s : row6) : vec := let c := spherical_to_cartesian s in (c_0 c, c_1 c, c_2 c).
Lemma sph_of_unit : forall x y z, x * x + y * y + z * z = 1 ->
  let s := cartesian_to_spherical (mk6 x y z 0 0 0) in c_0 s = 1 /\ spherical_ranges s /\ dir_of s = (x, y, z).
Proof.
  intros x y z H s. split; [|split].
  - unfold s, cartesian_to_spherical. cbn [c_0]. replace (x ^ 2 + y ^ 2 + z ^ 2) with 1 by (rewrite <- H; ring). apply sqrt_1.
  - apply spherical_in_range.
  - unfold dir_of. destruct (spherical_back_position (mk6 x y z 0 0 0)) as (A & B & C). cbn [c_0 c_1 c_2] in *. fold s in A, B, C. rewrite A, B, C. reflexivity.
Qed.
Lemma unit_norm : forall v, norm v <> 0 -> let '(x, y, z) := scale (/ norm v) v in x * x + y * y + z * z = 1.
Proof.
  intros v N. pose proof (unit_1 v N) as U. unfold unit_of in U. destruct (scale (/ norm v) v) as [[x y] z]. exact U.
Qed.
Lemma direction_eq : forall v, norm v <> 0 -> exists s, departure_direction "equatorial" v = Ok (Some s) /\ c_0 s = 1 /\ spherical_ranges s /\ scale (norm v) (dir_of s) = v.
Proof.
  intros v N. unfold departure_direction. destruct (Req_EM_T (norm v) 0) as [|_]; [contradiction|]. pose proof (unit_norm v N) as U.
  assert (B : scale (norm v) (scale (/ norm v) v) = v) by (symmetry; apply unit_back; exact N).
  destruct (scale (/ norm v) v) as [[x y] z] eqn:E. cbn [to_equatorial bind String.eqb]. eexists. split; [reflexivity|].
  destruct (sph_of_unit x y z U) as (A & R & D). split; [exact A|split; [exact R|]]. rewrite D. exact B.
Qed.
Lemma direction_ec : forall v, norm v <> 0 -> exists s, departure_direction "ecliptic" v = Ok (Some s) /\ c_0 s = 1 /\ spherical_ranges s /\ scale (norm v) (in_ecliptic obliquity (dir_of s)) = v.
Proof.
  intros v N. unfold departure_direction. destruct (Req_EM_T (norm v) 0) as [|_]; [contradiction|]. pose proof (unit_norm v N) as U.
  assert (B : scale (norm v) (scale (/ norm v) v) = v) by (symmetry; apply unit_back; exact N).
  destruct (scale (/ norm v) v) as [[x y] z] eqn:E. pose proof trig1 as T. cbn [to_equatorial bind String.eqb Ascii.eqb Bool.eqb]. eexists. split; [reflexivity|].
  destruct (sph_of_unit x (cos obliquity * y - sin obliquity * z) (sin obliquity * y + cos obliquity * z)) as (A & R & D).
  { transitivity (x * x + (y * y + z * z) * (cos obliquity * cos obliquity + sin obliquity * sin obliquity)); [ring|rewrite T; lra]. }
  split; [exact A|split; [exact R|]]. rewrite D. unfold in_ecliptic. transitivity (scale (norm v) (x, y, z)); [|exact B]. f_equal. f_equal; [f_equal|].
  - transitivity (y * (cos obliquity * cos obliquity + sin obliquity * sin obliquity)); [ring|rewrite T; ring].
  - transitivity (z * (cos obliquity * cos obliquity + sin obliquity * sin obliquity)); [ring|rewrite T; ring].
Qed.

(* ---- epochs ---- *)
Lemma arange_spec : forall a b h, 0 < h -> exists ts, arange a b h = Ok ts /\
  (forall k t, nth_error ts k = Some t -> t = a + INR k * h /\ a <= t < b) /\
  b <= a + INR (List.length ts) * h.
Proof.
  intros a b h H. destruct (Rle_dec b a) as [L|L].
  - exists []. split; [|split; [intros [|k] t K; discriminate K|cbn; lra]]. unfold arange. destruct (Req_EM_T h 0); [lra|].
    assert (Q : 0 <= - ((b - a) / h)). { replace (- ((b - a) / h)) with ((a - b) / h) by (field; lra). apply Rmult_le_pos; [lra|]. left. now apply Rinv_0_lt_compat. }
    assert (Z : (0 <= Int_part (- ((b - a) / h)))%Z). { destruct (base_Int_part (- ((b - a) / h))) as [_ I]. assert (-1 < IZR (Int_part (- ((b - a) / h)))) by lra. apply lt_IZR in H0. lia. }
    replace (Z.to_nat (- Int_part (- ((b - a) / h)))) with 0%nat by lia. reflexivity.
  - unfold arange. destruct (Req_EM_T h 0); [exfalso; lra|]. eexists. set (q := (b - a) / h). set (N := Z.to_nat (- Int_part (- q))).
    assert (QP : 0 < q) by (unfold q; apply Rdiv_lt_0_compat; lra). destruct (base_Int_part (- q)) as [I1 I2].
    assert (ZP : (0 < - Int_part (- q))%Z). { apply lt_IZR. rewrite opp_IZR. lra. }
    assert (NE : INR N = - IZR (Int_part (- q))). { unfold N. rewrite INR_IZR_INZ, Z2Nat.id by lia. apply opp_IZR. }
    assert (BE : b = a + q * h) by (unfold q; field; lra). split; [reflexivity|]. split.
    + intros k t K. rewrite nth_error_map in K. fold q in K. fold N in K. destruct (nth_error (seq 0 N) k) as [j|] eqn:E; [|discriminate]. cbn in K. injection K as <-.
      assert (KL : (k < N)%nat). { rewrite <- (seq_length N 0). apply nth_error_Some. congruence. }
      apply nth_error_nth with (d := 0%nat) in E. rewrite seq_nth in E by exact KL. cbn in E. subst j. split; [reflexivity|].
      assert (INR k + 1 <= INR N) by (rewrite <- S_INR; apply le_INR; lia). pose proof (pos_INR k). rewrite BE. split; [nra|]. assert (INR k < q) by lra. nra.
    + rewrite map_length, seq_length. fold q. fold N. rewrite BE, NE. assert (q <= - IZR (Int_part (- q))) by lra. nra.
Qed.

(* ---- colours ---- *)
Lemma byte_range : forall x, (0 <= byte x <= 255)%Z.
Proof. intro x. unfold byte. lia. Qed.
Lemma byte_255 : byte 255 = 255%Z.
Proof.
  unfold byte, rle. destruct (Rle_dec 0 255); [|lra]. replace (Int_part 255) with 255%Z; [reflexivity|]. symmetry. destruct (base_Int_part 255) as [A B].
  assert (IZR (Int_part 255) < 256) by lra. assert (254 < IZR (Int_part 255)) by lra. apply lt_IZR in H, H0. lia.
Qed.
Lemma byte_below : forall x, 0 <= x < 255 -> (byte x <= 254)%Z.
Proof.
  intros x X. unfold byte, rle. destruct (Rle_dec 0 x); [|lra]. destruct (base_Int_part x) as [A B]. assert (IZR (Int_part x) < 255) by lra. apply lt_IZR in H. lia.
Qed.
Lemma red_levels : (byte (255 * (3 / 10 + 7 / 10 * Rpower (1 / 7) (8 / 10))) <= 254)%Z /\ byte (255 * (3 / 10 + 7 / 10 * Rpower 1 (8 / 10))) = 255%Z.
Proof.
  split.
  - assert (R7 : 0 < Rpower (1 / 7) (8 / 10) < 1).
    { split; [apply exp_pos|]. unfold Rpower. apply Rlt_le_trans with (exp 0); [apply exp_increasing|rewrite exp_0; lra]. assert (ln (1 / 7) < 0); [|lra]. rewrite <- ln_1. apply ln_increasing; lra. }
    apply byte_below. lra.
  - assert (R1 : Rpower 1 (8 / 10) = 1) by (unfold Rpower; rewrite ln_1, Rmult_0_r; apply exp_0). rewrite R1.
    replace (255 * (3 / 10 + 7 / 10 * 1)) with 255 by lra. apply byte_255.
Qed.
Lemma level_red : forall i p, (INR i / (INR 8 - 1)) = p -> p <> 0 -> exists g b a, saturated_level (255, 0, 0)%Z 8 i (8 / 10) (1 / 10) = (p, (byte (255 * (3 / 10 + 7 / 10 * Rpower p (8 / 10))), g, b), a).
Proof. intros i p E N. unfold saturated_level. rewrite E. destruct (Req_EM_T p 0); [contradiction|]. do 3 eexists. reflexivity. Qed.
Lemma darkest_not_last : exists l p1 c1 a1 p7 c7 a7, saturated (255, 0, 0)%Z 8 (8 / 10) (1 / 10) = Ok l /\
  nth_error l 1 = Some (p1, c1, a1) /\ nth_error l 7 = Some (p7, c7, a7) /\ p1 < p7 /\ (fst (fst c1) < fst (fst c7))%Z.
Proof.
  destruct (level_red 1 (1 / 7)) as (g1 & b1 & a1 & E1); [cbn; lra|lra|]. destruct (level_red 7 1) as (g7 & b7 & a7 & E7); [cbn; lra|lra|].
  exists (map (fun i => saturated_level (255, 0, 0)%Z 8 i (8 / 10) (1 / 10)) (seq 0 8)). do 6 eexists. split; [reflexivity|]. cbn [seq map nth_error].
  rewrite E1, E7. split; [reflexivity|]. split; [reflexivity|]. destruct red_levels. split; [lra|]. cbn [fst]. lia.
Qed.
Lemma colour_levels : forall rgb n hi lo l, saturated rgb n hi lo = Ok l -> (2 <= n)%nat ->
  List.length l = n /\ forall i p c a, nth_error l i = Some (p, c, a) ->
    p = INR i / INR (n - 1) /\ 0 <= p <= 1 /\ a = lo + (hi - lo) * p /\
    (0 <= fst (fst c) <= 255 /\ 0 <= snd (fst c) <= 255 /\ 0 <= snd c <= 255)%Z.
Proof.
  intros rgb n hi lo l H N. assert (E : l = map (fun i => saturated_level rgb n i hi lo) (seq 0 n)) by (destruct n as [|[|n]]; [lia|lia|]; injection H as <-; reflexivity).
  subst l. rewrite map_length, seq_length. split; [reflexivity|]. intros i p c a I. rewrite nth_error_map in I. destruct (nth_error (seq 0 n) i) as [j|] eqn:J; [|discriminate].
  cbn [option_map] in I. assert (IL : (i < n)%nat). { rewrite <- (seq_length n 0). apply nth_error_Some. congruence. }
  apply nth_error_nth with (d := 0%nat) in J. rewrite seq_nth in J by exact IL. cbn in J. subst j. unfold saturated_level in I. destruct rgb as [[r g] b]. injection I as <- <- <-.
  rewrite minus_INR by lia. change (INR 1) with 1. assert (IN : INR i + 1 <= INR n) by (rewrite <- S_INR; apply le_INR; lia). pose proof (pos_INR i).
  assert (2 <= INR n) by (change 2 with (INR 2); apply le_INR; lia).
  split; [reflexivity|]. split; [split|split; [reflexivity|]].
  - apply Rmult_le_pos; [lra|]. left. apply Rinv_0_lt_compat. lra.
  - apply Rmult_le_reg_r with (INR n - 1); [lra|]. unfold Rdiv. rewrite Rmult_assoc, Rinv_l by lra. lra.
  - cbn [fst snd]. repeat split; destruct Req_EM_T; apply byte_range.
Qed.
