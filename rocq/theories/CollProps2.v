(* Properties of the longitudes and magnitudes of a collapsed ephemeris. *)
From Coq Require Import Reals Lra Lia ZArith String List Bool Sorted Permutation.
From Verif Require Import Base ListLemmas StrOrder SphModel SphSpec SphProofs KepModel KepProofs SigmaModel CollModel CollSpec CollProofs CollStat CollBase CollProps.
Import ListNotations.
Open Scope string_scope.
Open Scope list_scope.
Open Scope R_scope.

Lemma map_some_inj : forall (a b : list R), map Some a = map Some b -> a = b.
Proof. induction a as [|x a IH]; intros [|y b] H; try discriminate; [reflexivity|]. cbn in H. injection H as -> H. f_equal. apply IH. exact H. Qed.
Lemma fractions_unique : forall ws f w w', fractions ws f w -> fractions ws f w' -> w = w'.
Proof.
  intros ws f w w' [(xs & E & Z & ->)|[N ->]] [(ys & E' & Z' & ->)|[N' ->]]; try reflexivity.
  - rewrite E in E'. apply map_some_inj in E'. subst. reflexivity.
  - exfalso. apply Z. apply N'. exact E.
  - exfalso. apply Z'. apply N. exact E'.
Qed.
Lemma fst_weights : forall rows g, g <> [] -> fst (weights_for rows g) = fst (slow_weights g).
Proof.
  intros rows g N. unfold weights_for. destruct (uniform (groups rows)); [|reflexivity]. unfold fast_weights, slow_weights. cbn [fst]. destruct (all_some (map e_w g)); [reflexivity|]. apply normalised_one, equal_sum. exact N.
Qed.
Lemma weights_fractions : forall rows g, g <> [] -> fractions (map e_w g) (alike g) (fst (weights_for rows g)).
Proof. intros. rewrite fst_weights by assumption. apply slow_fractions. assumption. Qed.
Lemma out_row : forall c mode chunk rows out r, modelled mode -> collapse_by_object_id c mode chunk rows = Ok out -> In r out ->
  let g := variants_of (about_out r) rows in g <> [] /\ In g (groups rows) /\
  g_mean r = fst (moments (weights_for rows g) (map e_vals g)) /\ g_cov r = snd (moments (weights_for rows g) (map e_vals g)) /\ g_mag r = present_mean (fst (weights_for rows g)) (map e_mag g).
Proof.
  intros c mode chunk rows out r _ H R. destruct (in_out c mode chunk rows out r H R) as (b & P & N & B & (Q1 & Q2 & Q3 & Q4 & Q5) & _). cbn zeta. rewrite Q2, Q3, Q4, Q5. destruct (base_row _ _ _ P B) as (NE & G & E). repeat split; try assumption;
  destruct (variants_of (about_out b) rows) as [|a g]; try congruence; cbn [collapse_rows] in E; injection E as <-; reflexivity.
Qed.

(* C214: turning all longitudes by d turns the mean by d and changes nothing else *)
Theorem C214_turn_partial : forall c mode n m d rows out out' r r' w, modelled mode -> collapse_by_object_id c mode n rows = Ok out -> collapse_by_object_id c mode m (map (turned d) rows) = Ok out' ->
  In r out -> In r' out' -> about_out r = about_out r' ->
  fractions (map e_w (variants_of (about_out r) rows)) (alike (variants_of (about_out r) rows)) w -> ~ cancelling w (map (fun v => e_vals v 1%nat) (variants_of (about_out r) rows)) ->
  (exists k : Z, g_mean r' 1%nat = g_mean r 1%nat + d + 360 * IZR k) /\ (forall j, j <> 1%nat -> g_mean r' j = g_mean r j) /\ forall i j, g_cov r' i j = g_cov r i j.
Proof.
  intros c mode n m d rows out out' r r' w M H H' R R' A F NC. destruct (out_row _ _ _ _ _ _ M H R) as (N & _ & E1 & E2 & _). destruct (out_row _ _ _ _ _ _ M H' R') as (N' & _ & E1' & E2' & _).
  assert (KP : forall q, about_row (turned d q) = about_row q) by reflexivity. rewrite <- A in *. rewrite (keep_variants _ KP) in *. set (g := variants_of (about_out r) rows) in *.
  assert (WW : weights_for (map (turned d) rows) (map (turned d) g) = weights_for rows g).
  { unfold weights_for. rewrite (keep_groups _ KP), keep_uniform. assert (M1 : map e_w (map (turned d) g) = map e_w g) by (rewrite map_map; reflexivity). assert (M2 : map e_wc (map (turned d) g) = map e_wc g) by (rewrite map_map; reflexivity).
    assert (M3 : equal_weights (map (turned d) g) = equal_weights g) by (apply equal_same; apply map_length). destruct (uniform (groups rows)); unfold fast_weights, slow_weights; rewrite M1, M2, M3; reflexivity. }
  rewrite WW in *. pose proof (weights_fractions rows g N) as F2. rewrite (fractions_unique _ _ _ _ F F2) in NC. clear F F2 w. set (w := weights_for rows g) in *.
  set (m0 := circular_mean (fst w) (map (fun v => v 1%nat) (map e_vals g))). set (m1 := circular_mean (fst w) (map (fun v => v 1%nat) (map e_vals (map (turned d) g)))).
  assert (ML : m1 = pymod (m0 + d) 360).
  { unfold m1, m0. rewrite !map_map. cbn [e_vals turned Nat.eqb]. rewrite <- (map_map (fun v => e_vals v 1%nat) (fun l => l + d)). rewrite <- circular_turn; [reflexivity|exact NC]. }
  destruct (pymod_spec (m0 + d) 360) as [_ (k & K)]; [lra|]. rewrite <- ML in K.
  assert (E1a : forall j, g_mean r j = if Nat.eqb j 1 then m0 else weighted_mean (map (wrap_lon m0) (map e_vals g)) (fst w) j) by (intro j; rewrite E1; reflexivity).
  assert (E1b : forall j, g_mean r' j = if Nat.eqb j 1 then m1 else weighted_mean (map (wrap_lon m1) (map e_vals (map (turned d) g))) (fst w) j) by (intro j; rewrite E1'; reflexivity).
  assert (MJ : forall j, j <> 1%nat -> g_mean r' j = g_mean r j).
  { intros j J. rewrite E1a, E1b. destruct (Nat.eqb_spec j 1); [congruence|]. unfold weighted_mean. rewrite !map_map, !combine_map_right, !map_map. f_equal. apply map_ext. intros [x v]. cbn [fst snd]. unfold wrap_lon. cbn [e_vals turned]. destruct (Nat.eqb_spec j 1); [congruence|reflexivity]. }
  split; [exists k; rewrite E1a, E1b; cbn [Nat.eqb]; rewrite K; ring|]. split; [exact MJ|]. intros i j. rewrite E2, E2'. unfold moments. cbn [snd]. fold m0 m1. unfold weighted_covariance. rewrite !map_map, !combine_map_right, !map_map. f_equal. apply map_ext. intros [x v]. cbn [fst snd].
  assert (D : forall q, wrap_lon m1 (e_vals (turned d v)) q - g_mean r' q = wrap_lon m0 (e_vals v) q - g_mean r q).
  { intro q. destruct (Nat.eqb_spec q 1) as [->|Q].
    - rewrite E1a, E1b. cbn [Nat.eqb]. unfold wrap_lon. cbn [Nat.eqb e_vals turned]. replace (e_vals v 1%nat + d - m1 + 180) with (e_vals v 1%nat - m0 + 180 + 360 * IZR (- k)) by (rewrite K, opp_IZR; ring). rewrite pymod_turn. ring.
    - rewrite (MJ q Q). unfold wrap_lon. cbn [e_vals turned]. destruct (Nat.eqb_spec q 1); [congruence|reflexivity]. }
  pose proof (D i) as Di. pose proof (D j) as Dj. rewrite E1a, E1b in Di. rewrite E1a, E1b in Dj. rewrite !map_map in Di. rewrite !map_map in Dj. 
  match goal with |- x * ?a * ?b = x * ?a' * ?b' => assert (H1 : a = a') by exact Di; assert (H2 : b = b') by exact Dj; rewrite H1, H2; reflexivity end.
Qed.
Print Assumptions C214_turn_partial.
Lemma window_not_cancelling : forall w lon a h, List.length w = List.length lon -> 0 <= h < 90 -> Forall (fun x => 0 <= x) w -> 0 < total w ->
  Forall (fun l => exists t k, - h <= t <= h /\ l = a + t + 360 * IZR k) lon -> ~ cancelling w lon.
Proof.
  intros w lon a h L H W T F [S C]. fold (lon_sin w lon) in S. fold (lon_cos w lon) in C. pose proof PI_RGT_0 as PP. assert (P : 0 < PI / 180) by lra.
  assert (HR : 0 <= radians h < PI / 2). { unfold radians. split; [apply Rmult_le_pos; lra|]. replace (PI / 2) with (90 * (PI / 180)) by field. apply Rmult_lt_compat_r; lra. }
  pose proof (lon_cos_turn w lon (- a)) as E. rewrite S, C in E. 
  assert (SP : forall (f : R -> R) e w lon, List.length w = List.length lon -> Forall (fun x => 0 <= x) w -> (forall l, In l lon -> e <= f l) -> e * total w <= total (map (fun p => fst p * f (snd p)) (combine w lon))).
  { clear. intros f e w. induction w as [|x w IH]; intros [|l lon] L W Fl; cbn; try lra; [discriminate|]. inversion W; subst. assert (e * total w <= total (map (fun p => fst p * f (snd p)) (combine w lon))) by (apply IH; [cbn in L; lia|assumption|intros; apply Fl; right; assumption]). assert (e <= f l) by (apply Fl; left; reflexivity). assert (x * e <= x * f l) by (apply Rmult_le_compat_l; lra). lra. }
  assert (CH : 0 < cos (radians h)) by (apply cos_gt_0; lra). pose proof (Rmult_lt_0_compat _ _ CH T) as CT.
  assert (LE : cos (radians h) * total w <= lon_cos w (map (fun l => l + - a) lon)); [|lra].
  unfold lon_cos. rewrite combine_map_right, map_map. cbn [fst snd]. apply (SP (fun l => cos (radians (l + - a))) (cos (radians h)) w lon L W). intros l Hl. rewrite Forall_forall in F. destruct (F l Hl) as (t & k & Ht & ->).
  replace (a + t + 360 * IZR k + - a) with (t + 360 * IZR k) by ring. rewrite cos_turn. destruct (Rle_dec 0 t) as [T0|T0].
  - apply cos_decr_1; unfold radians in *; try nra.
  - rewrite <- (cos_neg (radians t)). replace (- radians t) with (radians (- t)) by (unfold radians; ring). apply cos_decr_1; unfold radians in *; try nra.
Qed.
Lemma fractions_sum : forall g w, g <> [] -> fractions (map e_w g) (alike g) w -> total w = 1 /\ List.length w = List.length g.
Proof.
  intros g w N [(xs & E & Z & ->)|[_ ->]].
  - split; [|rewrite map_length, <- (map_length e_w g), E, map_length; reflexivity].
    assert (Q : total (map (fun x => x / total xs) xs) = / total xs * total (map (fun x => x) xs)) by (rewrite <- total_scale; f_equal; apply map_ext; intro; unfold Rdiv; ring). rewrite Q, map_id. field. exact Z.
  - rewrite <- equal_alike. rewrite <- rsum_total, equal_sum by exact N. split; [reflexivity|unfold equal_weights; apply map_length].
Qed.
(* C214: with no negative weight, longitudes within h < 90 degrees of a have their mean there, also across 0 *)
Theorem C214_window : forall c mode n rows out r w a h, modelled mode -> collapse_by_object_id c mode n rows = Ok out -> In r out ->
  fractions (map e_w (variants_of (about_out r) rows)) (alike (variants_of (about_out r) rows)) w -> Forall (fun x => 0 <= x) w -> 0 <= h < 90 ->
  (forall v, In v (variants_of (about_out r) rows) -> exists t k, - h <= t <= h /\ e_vals v 1%nat = a + t + 360 * IZR k) ->
  0 <= g_mean r 1%nat < 360 /\ exists t k, - h <= t <= h /\ g_mean r 1%nat = a + t + 360 * IZR k.
Proof.
  intros c mode n rows out r w a h M H R F W HH L. destruct (out_row _ _ _ _ _ _ M H R) as (N & _ & E1 & _). set (g := variants_of (about_out r) rows) in *. pose proof (weights_fractions rows g N) as F2.
  destruct (fractions_sum g w N F) as [T LW]. pose proof (fractions_unique _ _ _ _ F2 F) as FW.
  assert (EM : g_mean r 1%nat = circular_mean w (map (fun v => e_vals v 1%nat) g)) by (rewrite E1; unfold moments; cbn [fst Nat.eqb]; rewrite FW, map_map; reflexivity). rewrite EM. split; [apply circular_range|].
  assert (LL : List.length w = List.length (map (fun v => e_vals v 1%nat) g)) by (rewrite map_length; exact LW).
  assert (FL : Forall (fun l => exists t k, - h <= t <= h /\ l = a + t + 360 * IZR k) (map (fun v => e_vals v 1%nat) g)) by (apply Forall_forall; intros l Hl; apply in_map_iff in Hl as (v & <- & V); apply L; exact V).
  destruct (circular_direction w (map (fun v => e_vals v 1%nat) g)) as [C|D].
  - exfalso. exact (window_not_cancelling _ _ a h LL HH W ltac:(lra) FL C).
  - exact (direction_window _ _ a h _ LL HH W ltac:(lra) FL D).
Qed.
Print Assumptions C214_window.
Lemma mean_lon : forall w g r, collapse_rows w g = Some r -> g_mean r 1%nat = circular_mean (fst (w g)) (map (fun v => e_vals v 1%nat) g).
Proof. intros w [|a g] r E; [discriminate|]. cbn [collapse_rows] in E. assert (E2 := f_equal (fun o => match o with Some q => g_mean q 1%nat | None => 0 end) E). cbn beta iota in E2. rewrite <- E2. cbn [g_mean moments fst Nat.eqb]. rewrite map_map. reflexivity. Qed.
(* longitudes 10 and 190 degrees: the mean stays at 0 whichever way the sky is turned *)
Theorem C214_turn_refuted : exists rows r r', (forall c, collapse_by_object_id c "none" 1 rows = Ok [r]) /\ (forall c, collapse_by_object_id c "none" 1 (map (turned 10) rows) = Ok [r']) /\
  about_out r = about_out r' /\ ~ exists k : Z, g_mean r' 1%nat = g_mean r 1%nat + 10 + 360 * IZR k.
Proof.
  set (rows := [plain "o" (Some "a") 1 0 10; plain "o" (Some "a") 1 0 190]). exists rows.
  destruct (collapse_rows fast_weights rows) as [r|] eqn:R1; [|discriminate]. destruct (collapse_rows fast_weights (map (turned 10) rows)) as [r'|] eqn:R2; [|discriminate]. exists r, r'.
  assert (W : forall x y, fst (fast_weights [plain "o" (Some "a") 1 0 x; plain "o" (Some "a") 1 0 y]) = [1/2; 1/2]). { intros. unfold fast_weights. cbn -[normalised]. apply normalised_one. cbn. lra. }
  assert (Z : forall x, circular_mean [1/2; 1/2] [x; x + 180] = 0).
  { intro x. rewrite circular_eq. assert (R : radians (x + 180) = radians x + PI) by (unfold radians; field). unfold lon_sin, lon_cos. cbn [combine map fst snd total]. rewrite R, neg_sin, neg_cos. replace (1 / 2 * sin (radians x) + (1 / 2 * - sin (radians x) + 0)) with 0 by ring. replace (1 / 2 * cos (radians x) + (1 / 2 * - cos (radians x) + 0)) with 0 by ring.
    assert (A0 : atan2 0 0 = 0). { unfold atan2. repeat match goal with |- context [if ?b then _ else _] => destruct b end; try lra. } rewrite A0. unfold degrees. apply (pymod_unique _ _ (-1)); [lra|]. rewrite Rmult_0_l. ring. }
  assert (M1 : g_mean r 1%nat = 0). { rewrite (mean_lon _ _ _ R1). unfold rows. rewrite (W 10 190). cbn [map e_vals plain Nat.eqb]. replace 190 with (10 + 180) by ring. apply Z. }
  assert (M2 : g_mean r' 1%nat = 0).
  { rewrite (mean_lon _ _ _ R2). assert (Q : fst (fast_weights (map (turned 10) rows)) = [1/2; 1/2]) by (unfold fast_weights; cbn -[normalised]; apply normalised_one; cbn; lra). 
    rewrite Q. cbn [map rows e_vals plain turned Nat.eqb]. replace (190 + 10) with (10 + 10 + 180) by ring. apply Z. }
  split; [|split; [|split]].
  - intro c. transitivity (Ok (somes [collapse_rows fast_weights rows]) : result (list crow)); [reflexivity|]. rewrite R1. reflexivity.
  - intro c. transitivity (Ok (somes [collapse_rows fast_weights (map (turned 10) rows)]) : result (list crow)); [reflexivity|]. rewrite R2. reflexivity.
  - unfold rows in R1 at 1, R2 at 1. cbn [map collapse_rows] in R1, R2. injection R1 as <-. injection R2 as <-. reflexivity.
  - intros (k & K). rewrite M1, M2 in K. assert (-1 < k < 0)%Z; [|lia]. split; apply lt_IZR; lra.
Qed.
Print Assumptions C214_turn_refuted.
(* three variants around longitude 0 *)
Example C214_case : let g := [plain "o" (Some "a") 1 0 358; plain "o" (Some "a") 1 0 1; plain "o" (Some "a") 1 0 4] in
  variants_of (Some "a", 1%Z, 0%Z, "500") g = g /\ fractions (map e_w g) (alike g) [/3; /3; /3] /\ Forall (fun x => 0 <= x) [/3; /3; /3] /\
  (forall v, In v g -> exists t k, - 3 <= t <= 3 /\ e_vals v 1%nat = 1 + t + 360 * IZR k) /\ ~ cancelling [/3; /3; /3] (map (fun v => e_vals v 1%nat) g).
Proof.
  intro g. assert (W : Forall (fun x => 0 <= x) [/3; /3; /3]) by (repeat constructor; lra).
  assert (L : forall v, In v g -> exists t k, - 3 <= t <= 3 /\ e_vals v 1%nat = 1 + t + 360 * IZR k).
  { intros v V. cbn in V. destruct V as [<-|[<-|[<-|[]]]]; cbn; [exists (-3), 1%Z|exists 0, 0%Z|exists 3, 0%Z]; lra. }
  split; [reflexivity|]. split; [right; split; [intros [|x xs] X; discriminate|cbn; repeat f_equal; lra]|]. split; [exact W|]. split; [exact L|].
  apply window_not_cancelling with 1 3; [reflexivity|lra|exact W|cbn; lra|]. apply Forall_forall. intros l Hl. apply in_map_iff in Hl as (v & <- & V). apply L. exact V.
Qed.

(* C216: magnitudes *)
Lemma present_spec : forall w xs, (forall m, present_mean w xs = Some m <-> average_present w xs m) /\
  (present_mean w xs = None <-> total (map fst (filter present (combine w xs))) <= 0).
Proof.
  intros w xs. unfold present_mean, average_present. cbv zeta. set (p := combine w xs). clearbody p.
  assert (E1 : rsum (map (fun q : R * option R => match snd q with Some _ => fst q | None => 0 end) p) = total (map fst (filter present p))).
  { induction p as [|[x [y|]] p IH]; cbn; try reflexivity; rewrite IH; ring || reflexivity. }
  assert (E2 : rsum (map (fun q : R * option R => match snd q with Some x => fst q * x | None => 0 end) p) = total (map (fun q => fst q * value_of (snd q)) (filter present p))).
  { clear E1. induction p as [|[x [y|]] p IH]; cbn; try reflexivity; rewrite IH; ring || reflexivity. }
  rewrite E1, E2. destruct (Rlt_dec 0 (total (map fst (filter present p)))) as [L|L].
  - split; [intro m; split; [intro H; injection H as <-; auto|intros [_ ->]; reflexivity]|split; [discriminate|lra]].
  - split; [intro m; split; [discriminate|intros [C _]; contradiction]|split; [lra|reflexivity]].
Qed.
Theorem C216_mean : forall c mode n rows out r w, modelled mode -> collapse_by_object_id c mode n rows = Ok out -> In r out ->
  fractions (map e_w (variants_of (about_out r) rows)) (alike (variants_of (about_out r) rows)) w ->
  (forall m, g_mag r = Some m <-> average_present w (map e_mag (variants_of (about_out r) rows)) m) /\
  (g_mag r = None <-> total (map fst (filter present (combine w (map e_mag (variants_of (about_out r) rows))))) <= 0).
Proof.
  intros c mode n rows out r w M H R F. destruct (out_row _ _ _ _ _ _ M H R) as (N & _ & _ & _ & E). rewrite E, (fractions_unique _ _ _ _ F (weights_fractions rows _ N)). apply present_spec.
Qed.
Print Assumptions C216_mean.
Theorem C216_range_partial : forall c mode n rows out r w m lo hi, modelled mode -> collapse_by_object_id c mode n rows = Ok out -> In r out ->
  fractions (map e_w (variants_of (about_out r) rows)) (alike (variants_of (about_out r) rows)) w -> Forall (fun x => 0 <= x) w ->
  (forall v x, In v (variants_of (about_out r) rows) -> e_mag v = Some x -> lo <= x <= hi) -> g_mag r = Some m -> lo <= m <= hi.
Proof.
  intros c mode n rows out r w m lo hi M H R F W B G. destruct (C216_mean c mode n rows out r w M H R F) as [E _]. apply E in G as [P ->]. set (p := filter present (combine w (map e_mag (variants_of (about_out r) rows)))) in *.
  assert (Q : forall q, In q p -> 0 <= fst q /\ lo <= value_of (snd q) <= hi).
  { intros [x o] I. apply filter_In in I as [I O]. destruct o as [y|]; [|discriminate]. cbn. split.
    - apply in_combine_l in I. rewrite Forall_forall in W. auto.
    - apply in_combine_r in I. apply in_map_iff in I as (v & V & I). eauto. }
  assert (B2 : lo * total (map fst p) <= total (map (fun q => fst q * value_of (snd q)) p) <= hi * total (map fst p)).
  { clear -Q. induction p as [|q p IH]; cbn; [lra|]. destruct (Q q (or_introl eq_refl)) as [A B]. destruct IH as [I1 I2]; [intros; apply Q; right; assumption|]. assert (fst q * lo <= fst q * value_of (snd q) <= fst q * hi) by (split; apply Rmult_le_compat_l; lra). lra. }
  clearbody p. split; apply Rmult_le_reg_r with (total (map fst p)); try exact P; unfold Rdiv; rewrite Rmult_assoc, Rinv_l, Rmult_1_r by lra; lra.
Qed.
Print Assumptions C216_range_partial.
Theorem C216_present_partial : forall c mode n rows out r w, modelled mode -> collapse_by_object_id c mode n rows = Ok out -> In r out ->
  fractions (map e_w (variants_of (about_out r) rows)) (alike (variants_of (about_out r) rows)) w -> Forall (fun x => 0 < x) w ->
  (g_mag r = None <-> forall v, In v (variants_of (about_out r) rows) -> e_mag v = None).
Proof.
  intros c mode n rows out r w M H R F W. destruct (C216_mean c mode n rows out r w M H R F) as [_ E]. rewrite E. destruct (out_row _ _ _ _ _ _ M H R) as (N & _). set (g := variants_of (about_out r) rows) in *. destruct (fractions_sum g w N F) as [_ L]. clearbody g. clear -W L.
  assert (NN : forall w (g : list erow), Forall (fun x => 0 < x) w -> 0 <= total (map fst (filter present (combine w (map e_mag g))))).
  { clear. induction w as [|x w IH]; intros [|v g] W; cbn; try lra. inversion W; subst. specialize (IH g H2). unfold present at 1. cbn. destruct (e_mag v); cbn; lra. }
  revert g L W. induction w as [|x w IH]; intros [|v g] L W; try discriminate; cbn; [split; [intros _ v []|lra]|]. inversion W as [|? ? X W2]; subst. pose proof (NN w g W2) as P. unfold present at 1. cbn. destruct (e_mag v) as [y|] eqn:V; cbn.
  - split; [lra|]. intro A. exfalso. specialize (A v (or_introl eq_refl)). congruence.
  - rewrite IH; [|cbn in L; lia|assumption]. split; [intros A u [<-|U]; auto|auto].
Qed.
Print Assumptions C216_present_partial.
Definition seen (w mag : R) : erow := mkerow "o" (Some "a") 1 0 "500" (fun _ => 0) (Some w) (Some w) (Some mag) None None.
(* the sigma-point weights of alpha = 1/10: magnitudes between 20 and 20.1 average to 30 *)
Theorem C216_range_refuted : exists rows r, (forall v, In v rows -> exists x, e_mag v = Some x /\ 20 <= x <= 201/10) /\ map e_w rows = map Some (weights 6 (1/10) 0) /\
  (forall c, collapse_by_object_id c "none" 1 rows = Ok [r]) /\ g_mag r = Some 30.
Proof.
  set (ws := weights 6 (1/10) 0). assert (WS : ws = -99 :: repeat (25/3) 12). { unfold ws, weights, lambda_. cbn [INR Nat.mul]. f_equal; [field|]. cbn [Nat.add]. f_equal. field. }
  set (rows := seen (-99) 20 :: repeat (seen (25/3) (201/10)) 12). exists rows. destruct (collapse_rows fast_weights rows) as [r|] eqn:R; [|discriminate]. exists r.
  assert (A : forall c, collapse_by_object_id c "none" 1 rows = Ok [r]). { intro c. transitivity (Ok (somes [collapse_rows fast_weights rows]) : result (list crow)); [reflexivity|]. rewrite R. reflexivity. }
  split; [|split; [|split; [exact A|]]].
  - intros v [<-|V]; [exists 20; split; [reflexivity|lra]|]. apply repeat_spec in V. subst. exists (201/10). split; [reflexivity|lra].
  - rewrite WS. reflexivity.
  - assert (G : variants_of (about_out r) rows = rows). { unfold rows at 1 in R. cbn [collapse_rows] in R. injection R as <-. reflexivity. }
    destruct (C216_mean 1 "none" 1 rows [r] r ws (or_introl eq_refl) (A 1) (or_introl eq_refl)) as [E _].
    { rewrite G. left. exists ws. rewrite WS. split; [reflexivity|]. assert (T : total (-99 :: repeat (25/3) 12) = 1) by (cbn; lra). rewrite T. split; [lra|]. rewrite <- (map_id (-99 :: _)) at 1. apply map_ext. intro. field. }
    apply E. rewrite G, WS. split; cbn; lra.
Qed.
Print Assumptions C216_range_refuted.
Example C216_case : let g := [seen (1/2) 20; seen (1/4) 21; mkerow "o" (Some "a") 1 0 "500" (fun _ => 0) (Some (1/4)) None None None None] in
  fractions (map e_w g) (alike g) [1/2; 1/4; 1/4] /\ Forall (fun x => 0 < x) [1/2; 1/4; 1/4] /\ average_present [1/2; 1/4; 1/4] (map e_mag g) (61/3).
Proof.
  intro g. split; [|split; [repeat constructor; lra|split; cbn; lra]]. left. exists [1/2; 1/4; 1/4]. split; [reflexivity|]. assert (T : total [1/2; 1/4; 1/4] = 1) by (cbn; lra). rewrite T. split; [lra|]. rewrite <- (map_id [1/2; 1/4; 1/4]) at 1. apply map_ext. intro. field.
Qed.
