(* Proofs about the statistics of one group of variants. *)
From Coq Require Import Reals Lra Lia ZArith String List Bool Sorted Permutation.
From Verif Require Import Base ListLemmas StrOrder SphModel SphSpec SphProofs KepModel KepProofs SigmaModel CollModel CollSpec CollProofs.
Import ListNotations.
Open Scope string_scope.
Open Scope list_scope.
Open Scope R_scope.

Lemma all_some_iff : forall l w, all_some l = Some w <-> l = map Some w.
Proof.
  induction l as [|[x|] l IH]; intro w; cbn.
  - destruct w; split; try discriminate; auto.
  - destruct (all_some l) as [xs|] eqn:E.
    + assert (L : l = map Some xs) by (apply IH; reflexivity). split; [intro H; injection H as <-; cbn; rewrite <- L; reflexivity|]. intro H. destruct w as [|y w]; [discriminate|]. cbn in H. injection H as -> HL. f_equal. f_equal. apply IH in HL. congruence.
    + split; [discriminate|]. intro H. destruct w as [|y w]; [discriminate|]. cbn in H. injection H as _ HL. apply IH in HL. discriminate.
  - destruct w; split; discriminate.
Qed.
Lemma equal_alike : forall g, equal_weights g = alike g.
Proof. intro g. unfold equal_weights, alike. apply map_ext. intro a. unfold Rdiv. ring. Qed.
Lemma normalised_fractions : forall w, rsum w <> 0 -> normalised w = map (fun x => x / total w) w.
Proof. intros w H. unfold normalised. destruct (Req_EM_T (rsum w) 0); [congruence|]. rewrite rsum_total. reflexivity. Qed.
Lemma slow_fractions : forall g, g <> [] -> fractions (map e_w g) (alike g) (fst (slow_weights g)) /\ fractions (map e_wc g) (fst (slow_weights g)) (snd (slow_weights g)).
Proof.
  intros g N. unfold slow_weights. cbn [fst snd].
  assert (A : fractions (map e_w g) (alike g) match all_some (map e_w g) with Some w => normalised w | None => equal_weights g end).
  { destruct (all_some (map e_w g)) as [w|] eqn:E.
    - pose proof (all_some_length _ _ E) as L. rewrite map_length in L. apply all_some_iff in E. destruct (Req_EM_T (rsum w) 0) as [Z|Z].
      + right. split; [|rewrite (normalised_zero g w Z L); apply equal_alike]. intros xs X. assert (xs = w) as ->; [|rewrite <- rsum_total; exact Z]. rewrite E in X. clear -X. revert xs X. induction w as [|a w IH]; intros [|b xs] X; try discriminate; [reflexivity|]. cbn in X. injection X as -> X. f_equal. apply IH. exact X.
      + left. exists w. rewrite <- rsum_total. repeat split; auto. rewrite rsum_total. apply normalised_fractions. exact Z.
    - right. split; [|apply equal_alike]. intros xs X. apply all_some_iff in X. congruence. }
  split; [exact A|]. set (wm := match all_some (map e_w g) with Some w => normalised w | None => equal_weights g end) in *.
  destruct (all_some (map e_wc g)) as [w|] eqn:E.
  - apply all_some_iff in E. unfold normalised_or. destruct (Req_EM_T (rsum w) 0) as [Z|Z].
    + right. split; [|reflexivity]. intros xs X. apply all_some_iff in X. apply all_some_iff in E. rewrite E in X. injection X as <-. rewrite <- rsum_total. exact Z.
    + left. exists w. rewrite rsum_total in *. auto.
  - right. split; [|reflexivity]. intros xs X. apply all_some_iff in X. congruence.
Qed.
Lemma sound_fast : forall g, g <> [] -> sound_cov g -> fast_weights g = slow_weights g.
Proof. intros g N S. apply fast_slow; [exact N|]. intros w W. apply all_some_iff in W. rewrite rsum_total. apply S. exact W. Qed.

(* ---- circular means ---- *)
Lemma turn_rad : forall x (k : Z), radians (x + 360 * IZR k) = radians x + 2 * IZR k * PI.
Proof. intros. unfold radians. field. Qed.
Lemma sin_turn : forall x (k : Z), sin (radians (x + 360 * IZR k)) = sin (radians x).
Proof. intros. rewrite turn_rad. apply same_sin. exists k. ring. Qed.
Lemma cos_turn : forall x (k : Z), cos (radians (x + 360 * IZR k)) = cos (radians x).
Proof. intros. rewrite turn_rad. apply same_cos. exists k. ring. Qed.
Definition lon_sin (w lon : list R) := total (map (fun p => fst p * sin (radians (snd p))) (combine w lon)).
Definition lon_cos (w lon : list R) := total (map (fun p => fst p * cos (radians (snd p))) (combine w lon)).
Lemma circular_eq : forall w lon, circular_mean w lon = pymod (degrees (atan2 (lon_sin w lon) (lon_cos w lon)) + 360) 360.
Proof. intros. unfold circular_mean. rewrite !rsum_total. reflexivity. Qed.
Lemma circular_range : forall w lon, 0 <= circular_mean w lon < 360.
Proof. intros. rewrite circular_eq. apply pymod_spec. lra. Qed.
Lemma polar_dec : forall s c, (s = 0 /\ c = 0) \/ (c <> 0 \/ s <> 0).
Proof. intros s c. destruct (Req_EM_T s 0), (Req_EM_T c 0); auto. Qed.
Lemma circular_direction : forall w lon, cancelling w lon \/ direction w lon (circular_mean w lon).
Proof.
  intros w lon. unfold cancelling, direction. fold (lon_sin w lon) (lon_cos w lon). destruct (polar_dec (lon_sin w lon) (lon_cos w lon)) as [H|H]; [left; exact H|right]. split; [apply circular_range|].
  exists (sqrt (lon_cos w lon ^ 2 + lon_sin w lon ^ 2)). rewrite circular_eq. destruct (pymod_spec (degrees (atan2 (lon_sin w lon) (lon_cos w lon)) + 360) 360) as [_ (k & E)]; [lra|].
  assert (E2 : pymod (degrees (atan2 (lon_sin w lon) (lon_cos w lon)) + 360) 360 = degrees (atan2 (lon_sin w lon) (lon_cos w lon)) + 360 * IZR (k + 1)) by (rewrite plus_IZR, E; ring).
  rewrite E2, sin_turn, cos_turn, radians_degrees. split; [apply sqrt_lt_R0, hypot_pos; exact H|].
  destruct (atan2_polar _ _ H) as (P1 & P2). split; [exact (eq_sym P2) || exact P2|exact (eq_sym P1) || exact P1].
Qed.
Lemma direction_unique : forall w lon a b, direction w lon a -> direction w lon b -> a = b.
Proof.
  intros w lon a b (A & r & Rp & S1 & C1) (B & q & Qp & S2 & C2).
  assert (E : r ^ 2 = q ^ 2). { replace (r ^ 2) with ((r * sin (radians a)) ^ 2 + (r * cos (radians a)) ^ 2). 2:{ pose proof (sin2_cos2 (radians a)) as T. unfold Rsqr in T. replace ((r * sin (radians a)) ^ 2 + (r * cos (radians a)) ^ 2) with (r ^ 2 * (sin (radians a) * sin (radians a) + cos (radians a) * cos (radians a))) by ring. rewrite T. ring. }
    replace (q ^ 2) with ((q * sin (radians b)) ^ 2 + (q * cos (radians b)) ^ 2). 2:{ pose proof (sin2_cos2 (radians b)) as T. unfold Rsqr in T. replace ((q * sin (radians b)) ^ 2 + (q * cos (radians b)) ^ 2) with (q ^ 2 * (sin (radians b) * sin (radians b) + cos (radians b) * cos (radians b))) by ring. rewrite T. ring. }
    congruence. }
  assert (r = q) as -> by (apply Rpow_eq_pos; assumption).
  assert (radians a = radians b).
  { apply angle_unique_turn; unfold turn, radians.
    - pose proof PI_RGT_0. assert (0 < PI / 180) by lra. split; [apply Rmult_le_pos; lra|]. replace (2 * PI) with (360 * (PI / 180)) by field. apply Rmult_lt_compat_r; lra.
    - pose proof PI_RGT_0. assert (0 < PI / 180) by lra. split; [apply Rmult_le_pos; lra|]. replace (2 * PI) with (360 * (PI / 180)) by field. apply Rmult_lt_compat_r; lra.
    - fold (radians a) (radians b). apply Rmult_eq_reg_l with q; lra.
    - fold (radians a) (radians b). apply Rmult_eq_reg_l with q; lra. }
  rewrite <- (degrees_radians a), <- (degrees_radians b). congruence.
Qed.

Lemma pymod_unique : forall x y (k : Z), 0 <= y < 360 -> y = x + IZR k * 360 -> pymod x 360 = y.
Proof.
  intros x y k Y E. destruct (pymod_spec x 360) as [A (j & B)]; [lra|]. assert (D : IZR (j - k) * 360 = pymod x 360 - y) by (rewrite minus_IZR; lra).
  assert (j - k = 0)%Z. { apply one_IZR_lt1. split; nra. } rewrite H in D. lra.
Qed.
Lemma pymod_turn : forall x (k : Z), pymod (x + 360 * IZR k) 360 = pymod x 360.
Proof. intros x k. destruct (pymod_spec x 360) as [A (j & B)]; [lra|]. apply (pymod_unique _ _ (j - k)); [exact A|]. rewrite minus_IZR, B. ring. Qed.

(* ---- the statistics ---- *)
Definition offset (m : R) (v : nat -> R) : R := pymod (v 1%nat - m + 180) 360 - 180.
Lemma offset_short : forall m v, short_offset (v 1%nat) m (offset m v).
Proof.
  intros m v. unfold short_offset, offset. destruct (pymod_spec (v 1%nat - m + 180) 360) as [A (k & B)]; [lra|]. split; [lra|]. exists (- k)%Z. rewrite B, opp_IZR. ring.
Qed.
Lemma short_unique : forall x m d e, short_offset x m d -> short_offset x m e -> d = e.
Proof.
  intros x m d e (D & k & K) (E & j & J). assert (H : IZR (j - k) * 360 = d - e) by (rewrite minus_IZR; lra). assert (j - k = 0)%Z by (apply one_IZR_lt1; split; nra). rewrite H0 in H. lra.
Qed.
Lemma combine_map_right : forall {A B C} (f : B -> C) (l : list A) (m : list B), combine l (map f m) = map (fun p => (fst p, f (snd p))) (combine l m).
Proof. intros A B C f l. induction l as [|a l IH]; intros [|b m]; cbn; try reflexivity. rewrite IH. reflexivity. Qed.
Lemma moments_stat : forall w g a, g <> [] -> fractions (map e_w g) (alike g) (fst w) -> fractions (map e_wc g) (fst w) (snd w) ->
  forall mag ab lt, statistics g (mkcrow (e_orbit a) (e_object a) (e_day a) (e_nanos a) (e_code a) (fst (moments w (map e_vals g))) (snd (moments w (map e_vals g))) mag ab lt).
Proof.
  intros w g a N F1 F2 mag ab lt. set (m := circular_mean (fst w) (map (fun v => v 1%nat) (map e_vals g))).
  exists (fst w), (snd w), (map (fun v => offset m (e_vals v)) g). cbn [g_mean g_cov]. split; [exact F1|]. split; [exact F2|].
  assert (ML : fst (moments w (map e_vals g)) 1%nat = m) by reflexivity. rewrite ML.
  assert (LM : map (fun v => v 1%nat) (map e_vals g) = map (fun v => e_vals v 1%nat) g) by (rewrite map_map; reflexivity).
  split; [apply circular_range|]. split; [unfold m; rewrite LM; apply circular_direction|]. split.
  { intros j J. unfold moments. cbn [fst]. destruct (Nat.eqb_spec j 1) as [->|_]; [congruence|]. unfold weighted_mean. rewrite rsum_total. f_equal. rewrite !combine_map_right, !map_map. apply map_ext. intros [x v]. cbn [fst snd]. unfold wrap_lon. destruct (Nat.eqb_spec j 1); [congruence|reflexivity]. }
  split.
  { clearbody m. clear. induction g as [|v g IH]; cbn; [constructor|]. constructor; [apply offset_short|exact IH]. }
  intros i j. set (mean := fst (moments w (map e_vals g))) in *.
  transitivity (rsum (map (fun ws => fst ws * (snd ws i - mean i) * (snd ws j - mean j)) (combine (snd w) (map (wrap_lon m) (map e_vals g))))); [reflexivity|].
  rewrite rsum_total. f_equal. clearbody mean.
  assert (CB : forall (l : list R) (h : list erow), combine l (combine h (map (fun v => offset m (e_vals v)) h)) = map (fun p => (fst p, (snd p, offset m (e_vals (snd p))))) (combine l h)).
  { induction l as [|x l IH]; intros [|v h]; cbn; try reflexivity. rewrite IH. reflexivity. }
  rewrite CB, !combine_map_right, !map_map. apply map_ext. intros [x v]. cbn [fst snd].
  assert (D : forall q, wrap_lon m (e_vals v) q - mean q = (if Nat.eqb q 1 then offset m (e_vals v) else e_vals v q - mean q)).
  { intro q. unfold wrap_lon. destruct (Nat.eqb_spec q 1) as [->|_]; [rewrite ML; unfold offset; ring|reflexivity]. }
  unfold deviation. cbn [fst snd g_mean]. rewrite !D. reflexivity.
Qed.

(* ---- turning ---- *)
Lemma total_app : forall l m, total (l ++ m) = total l + total m.
Proof. induction l as [|x l IH]; intro m; cbn; [ring|]. rewrite IH. ring. Qed.
Lemma total_scale : forall {A} k (f : A -> R) l, total (map (fun x => k * f x) l) = k * total (map f l).
Proof. intros A k f l. induction l as [|x l IH]; cbn; [ring|]. rewrite IH. ring. Qed.
Lemma total_plus : forall {A} (f g : A -> R) l, total (map (fun x => f x + g x) l) = total (map f l) + total (map g l).
Proof. intros A f g l. induction l as [|x l IH]; cbn; [ring|]. rewrite IH. ring. Qed.
Lemma radians_plus : forall x y, radians (x + y) = radians x + radians y.
Proof. intros. unfold radians. ring. Qed.
Lemma lon_sin_turn : forall w lon d, lon_sin w (map (fun l => l + d) lon) = cos (radians d) * lon_sin w lon + sin (radians d) * lon_cos w lon.
Proof.
  intros. unfold lon_sin, lon_cos. rewrite combine_map_right, map_map, <- !total_scale, <- total_plus. f_equal. apply map_ext. intros [x l]. cbn [fst snd]. rewrite radians_plus, sin_plus. ring.
Qed.
Lemma lon_cos_turn : forall w lon d, lon_cos w (map (fun l => l + d) lon) = cos (radians d) * lon_cos w lon - sin (radians d) * lon_sin w lon.
Proof.
  intros. unfold lon_sin, lon_cos. rewrite combine_map_right, map_map. unfold Rminus. rewrite Ropp_mult_distr_l, <- !total_scale, <- total_plus. f_equal. apply map_ext. intros [x l]. cbn [fst snd]. rewrite radians_plus, cos_plus. ring.
Qed.
Lemma direction_turn : forall w lon m d, direction w lon m -> direction w (map (fun l => l + d) lon) (pymod (m + d) 360).
Proof.
  intros w lon m d (M & r & Rp & S & C). destruct (pymod_spec (m + d) 360) as [A (k & B)]; [lra|]. split; [exact A|]. exists r. split; [exact Rp|].
  fold (lon_sin w (map (fun l => l + d) lon)) (lon_cos w (map (fun l => l + d) lon)). fold (lon_sin w lon) in S. fold (lon_cos w lon) in C.
  rewrite lon_sin_turn, lon_cos_turn, S, C. replace (pymod (m + d) 360) with (m + d + 360 * IZR k) by (rewrite B; ring). rewrite sin_turn, cos_turn, radians_plus, sin_plus, cos_plus. split; ring.
Qed.
Lemma circular_turn : forall w lon d, ~ cancelling w lon -> circular_mean w (map (fun l => l + d) lon) = pymod (circular_mean w lon + d) 360.
Proof.
  intros w lon d N. destruct (circular_direction w lon) as [C|D]; [contradiction|]. pose proof (direction_turn w lon _ d D) as D2.
  destruct (circular_direction w (map (fun l => l + d) lon)) as [C|D3]; [|exact (direction_unique _ _ _ _ D3 D2)].
  exfalso. destruct D2 as (_ & r & Rp & S & Cc). destruct C as [C1 C2]. rewrite C1 in S. rewrite C2 in Cc. pose proof (sin2_cos2 (radians (pymod (circular_mean w lon + d) 360))) as T. unfold Rsqr in T.
  assert (sin (radians (pymod (circular_mean w lon + d) 360)) = 0) by (apply Rmult_eq_reg_l with r; lra). assert (cos (radians (pymod (circular_mean w lon + d) 360)) = 0) by (apply Rmult_eq_reg_l with r; lra). rewrite H, H0 in T. lra.
Qed.

(* ---- longitudes within a window ---- *)
Lemma direction_window : forall w lon a h m, List.length w = List.length lon -> 0 <= h < 90 -> Forall (fun x => 0 <= x) w -> 0 < total w ->
  Forall (fun l => exists t k, - h <= t <= h /\ l = a + t + 360 * IZR k) lon -> direction w lon m ->
  exists t k, - h <= t <= h /\ m = a + t + 360 * IZR k.
Proof.
  intros w lon a h m L H W T F (M & r & Rp & S & C). fold (lon_sin w lon) in S. fold (lon_cos w lon) in C.
  pose proof PI_RGT_0 as PP. assert (P : 0 < PI / 180) by lra.
  assert (HR : 0 <= radians h < PI / 2). { unfold radians. split; [apply Rmult_le_pos; lra|]. replace (PI / 2) with (90 * (PI / 180)) by field. apply Rmult_lt_compat_r; lra. }
  (* the sums as seen from a *)
  assert (Q : forall b, cos (radians b) * lon_sin w lon - sin (radians b) * lon_cos w lon = lon_sin w (map (fun l => l + (- b)) lon) /\ cos (radians b) * lon_cos w lon + sin (radians b) * lon_sin w lon = lon_cos w (map (fun l => l + (- b)) lon)).
  { intro b. rewrite lon_sin_turn, lon_cos_turn. replace (radians (- b)) with (- radians b) by (unfold radians; ring). rewrite sin_neg, cos_neg. split; ring. }
  assert (RQ : forall b, lon_sin w (map (fun l => l + (- b)) lon) = r * sin (radians (m - b)) /\ lon_cos w (map (fun l => l + (- b)) lon) = r * cos (radians (m - b))).
  { intro b. destruct (Q b) as [Q1 Q2]. rewrite <- Q1, <- Q2, S, C. replace (radians (m - b)) with (radians m - radians b) by (unfold radians; ring). rewrite sin_minus, cos_minus. split; ring. }
  assert (SG : forall (f : R -> R) w lon, List.length w = List.length lon -> Forall (fun x => 0 <= x) w -> (forall l, In l lon -> 0 <= f l) -> 0 <= total (map (fun p => fst p * f (snd p)) (combine w lon))).
  { clear. intros f w. induction w as [|x w IH]; intros [|l lon] L W Fl; cbn; try lra. inversion W; subst. assert (0 <= total (map (fun p => fst p * f (snd p)) (combine w lon))) by (apply IH; [cbn in L; lia|assumption|intros; apply Fl; right; assumption]). assert (0 <= f l) by (apply Fl; left; reflexivity). pose proof (Rmult_le_pos x (f l)). lra. }
  assert (CP : 0 < lon_cos w (map (fun l => l + (- a)) lon)).
  { assert (SP : forall (f : R -> R) e w lon, List.length w = List.length lon -> Forall (fun x => 0 <= x) w -> (forall l, In l lon -> e <= f l) -> e * total w <= total (map (fun p => fst p * f (snd p)) (combine w lon))).
    { clear. intros f e w. induction w as [|x w IH]; intros [|l lon] L W Fl; cbn; try lra; [discriminate|]. inversion W; subst. assert (e * total w <= total (map (fun p => fst p * f (snd p)) (combine w lon))) by (apply IH; [cbn in L; lia|assumption|intros; apply Fl; right; assumption]). assert (e <= f l) by (apply Fl; left; reflexivity). assert (x * e <= x * f l) by (apply Rmult_le_compat_l; lra). lra. }
    unfold lon_cos. rewrite combine_map_right, map_map. cbn [fst snd]. assert (CH : 0 < cos (radians h)) by (apply cos_gt_0; lra).
    eapply Rlt_le_trans; [apply Rmult_lt_0_compat; [exact CH|exact T]|]. apply (SP (fun l => cos (radians (l + - a))) (cos (radians h)) w lon L W). intros l Hl. rewrite Forall_forall in F. destruct (F l Hl) as (t & k & Ht & ->).
    replace (a + t + 360 * IZR k + - a) with (t + 360 * IZR k) by ring. rewrite cos_turn. destruct (Rle_dec 0 t) as [T0|T0].
    - apply cos_decr_1; unfold radians in *; try nra.
    - rewrite <- (cos_neg (radians t)). replace (- radians t) with (radians (- t)) by (unfold radians; ring). apply cos_decr_1; unfold radians in *; try nra. }
  (* the offset of m from a *)
  set (t := pymod (m - a + 180) 360 - 180). destruct (pymod_spec (m - a + 180) 360) as [A (k & B)]; [lra|]. assert (ET : m - a = t + 360 * IZR (- k)) by (unfold t; rewrite B, opp_IZR; ring).
  assert (TR : -180 <= t < 180) by (unfold t; lra). clearbody t. exists t, (- k)%Z. split; [|lra].
  destruct (RQ a) as [_ RC]. rewrite RC, ET, cos_turn in CP. assert (CT : 0 < cos (radians t)) by (apply Rmult_lt_reg_l with r; lra).
  assert (T90 : -90 < t < 90).
  { split; apply Rnot_le_lt; intro X.
    - assert (cos (radians t) <= 0); [|lra]. rewrite <- cos_neg. apply cos_le_0; unfold radians; nra.
    - assert (cos (radians t) <= 0); [|lra]. apply cos_le_0; unfold radians; nra. }
  split; apply Rnot_lt_le; intro X.
  - (* t < -h: sin (m - (a - h)) < 0 but the sum is >= 0 *)
    destruct (RQ (a - h)) as [RS _]. assert (0 <= lon_sin w (map (fun l => l + - (a - h)) lon)).
    { unfold lon_sin. rewrite combine_map_right, map_map. cbn [fst snd]. apply (SG (fun l => sin (radians (l + - (a - h)))) w lon L W). intros l Hl. rewrite Forall_forall in F. destruct (F l Hl) as (u & j & Hu & ->).
      replace (a + u + 360 * IZR j + - (a - h)) with (u + h + 360 * IZR j) by ring. rewrite sin_turn. apply sin_ge_0; unfold radians; nra. }
    rewrite RS in H0. replace (m - (a - h)) with (t + h + 360 * IZR (- k)) in H0 by lra. rewrite sin_turn in H0. assert (sin (radians (t + h)) < 0). { assert (0 < sin (- radians (t + h))) by (apply sin_gt_0; unfold radians; nra). rewrite sin_neg in H1. lra. } nra.
  - destruct (RQ (a + h)) as [RS _]. assert (0 <= - lon_sin w (map (fun l => l + - (a + h)) lon)).
    { unfold lon_sin. rewrite combine_map_right, map_map. cbn [fst snd]. assert (G := SG (fun l => - sin (radians (l + - (a + h)))) w lon L W). cbn beta in G.
      assert (E : total (map (fun p => fst p * - sin (radians (snd p + - (a + h)))) (combine w lon)) = - total (map (fun p => fst p * sin (radians (snd p + - (a + h)))) (combine w lon))).
      { clear. induction (combine w lon) as [|p l IH]; cbn; [ring|]. rewrite IH. ring. }
      rewrite <- E. apply G. intros l Hl. rewrite Forall_forall in F. destruct (F l Hl) as (u & j & Hu & ->).
      replace (a + u + 360 * IZR j + - (a + h)) with (- (h - u) + 360 * IZR j) by ring. rewrite sin_turn. replace (radians (- (h - u))) with (- radians (h - u)) by (unfold radians; ring). rewrite sin_neg. assert (0 <= sin (radians (h - u))) by (apply sin_ge_0; unfold radians; nra). lra. }
    rewrite RS in H0. replace (m - (a + h)) with (t - h + 360 * IZR (- k)) in H0 by lra. rewrite sin_turn in H0. assert (0 < sin (radians (t - h))) by (apply sin_gt_0; unfold radians; nra). nra.
Qed.
