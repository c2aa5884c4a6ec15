From Coq Require Import Reals Lra String.
From Flocq Require Import Core.
From Verif Require Import Base TimeModel TimeSpec TimeProofs TimeScaleProofs TimeRModel.
Open Scope R_scope.

Notation fexp := (FLT_exp (-1074) 53).
Local Instance p53 : Prec_gt_0 53 := eq_refl.

Lemma ulp_DAY : ulp radix2 fexp (IZR DAY) = bpow radix2 (-6).
Proof.
  rewrite ulp_neq_0 by (unfold DAY; lra). f_equal. unfold cexp.
  rewrite (mag_unique radix2 (IZR DAY) 47).
  - reflexivity.
  - rewrite Rabs_pos_eq by (unfold DAY; lra). unfold DAY. simpl. lra.
Qed.

Lemma fl_err_DAY : forall p, 0 <= p <= IZR DAY -> Rabs (fl p - p) <= / 128.
Proof.
  intros p Hp. unfold fl. eapply Rle_trans; [apply error_le_half_ulp; apply FLT_exp_valid; reflexivity|].
  assert (ulp radix2 fexp p <= ulp radix2 fexp (IZR DAY)).
  { apply ulp_le.
    - apply FLT_exp_valid; reflexivity.
    - apply FLT_exp_monotone.
    - rewrite !Rabs_pos_eq; lra. }
  rewrite ulp_DAY in H. simpl in H. lra.
Qed.

Lemma fl_mono : forall a b, a <= b -> fl a <= fl b.
Proof. intros a b H. apply round_le; [apply FLT_exp_valid; reflexivity|apply valid_rnd_N|exact H]. Qed.

Lemma fl_id : forall a, is_f64 a -> fl a = a.
Proof. intros a H. apply round_generic; [apply valid_rnd_N|exact H]. Qed.

Lemma f64_IZR_small : forall m e, (Z.abs m < 2 ^ 53)%Z -> (-1074 <= e)%Z -> is_f64 (IZR m * bpow radix2 e).
Proof.
  intros m e H He. apply generic_format_FLT. exists (Float radix2 m e); simpl; auto.
Qed.

Lemma f64_1m53 : is_f64 (1 - bpow radix2 (-53)).
Proof.
  replace (1 - bpow radix2 (-53)) with (IZR (2 ^ 53 - 1) * bpow radix2 (-53)).
  - apply f64_IZR_small; lia.
  - rewrite minus_IZR. simpl. lra.
Qed.

Lemma f64_0 : is_f64 0. Proof. apply generic_format_0. Qed.
Lemma f64_1 : is_f64 1.
Proof. replace 1 with (IZR 1 * bpow radix2 0) by (simpl; lra). apply f64_IZR_small; lia. Qed.

(* ulp on [1/2,1): 2^-53 *)
Lemma fl_err_1 : forall y, 0 <= y <= 1 -> Rabs (fl y - y) <= bpow radix2 (-53).
Proof.
  intros y Hy. unfold fl. eapply Rle_trans; [apply error_le_half_ulp; apply FLT_exp_valid; reflexivity|].
  assert (ulp radix2 fexp y <= ulp radix2 fexp 1).
  { apply ulp_le; [apply FLT_exp_valid; reflexivity|apply FLT_exp_monotone|rewrite !Rabs_pos_eq; lra]. }
  assert (U : ulp radix2 fexp 1 = bpow radix2 (-52)).
  { rewrite ulp_neq_0 by lra. f_equal. unfold cexp. rewrite (mag_unique radix2 1 1); [reflexivity|].
    rewrite Rabs_pos_eq by lra. simpl. lra. }
  rewrite U in H. simpl in *. lra.
Qed.

(* rounding below the midpoint of the two largest floats <= 1 *)
Lemma fl_below_1 : forall y, 0 <= y -> y < 1 - bpow radix2 (-54) -> fl y <= 1 - bpow radix2 (-53).
Proof.
  intros y H0 H. unfold fl.
  destruct (Rle_or_lt y (1 - bpow radix2 (-53))) as [Hl|Hl].
  - rewrite <- (fl_id _ f64_1m53). apply fl_mono, Hl.
  - apply round_N_le_midp.
    + apply FLT_exp_valid; reflexivity.
    + exact f64_1m53.
    + assert (S : succ radix2 fexp (1 - bpow radix2 (-53)) = 1).
      { rewrite succ_eq_pos by (simpl; lra).
        rewrite ulp_neq_0 by (simpl; lra). unfold cexp.
        rewrite (mag_unique radix2 (1 - bpow radix2 (-53)) 0).
        - simpl. lra.
        - rewrite Rabs_pos_eq by (simpl; lra). simpl. lra. }
      rewrite S. simpl in *. lra.
Qed.

(* a float of magnitude at least 1 is a multiple of 2^-52 *)
Lemma f64_multiple : forall x, is_f64 x -> 1 <= Rabs x ->
  exists k : Z, x = IZR k * bpow radix2 (-52).
Proof.
  intros x Hx H1. unfold is_f64, generic_format in Hx.
  set (m := Ztrunc (scaled_mantissa radix2 fexp x)) in *. unfold F2R in Hx; simpl in Hx.
  assert (He : (-52 <= cexp radix2 fexp x)%Z).
  { unfold cexp, FLT_exp.
    assert ((1 <= mag radix2 x)%Z).
    { apply mag_ge_bpow. simpl. exact H1. }
    lia. }
  set (e := cexp radix2 fexp x) in *.
  exists (m * 2 ^ (e + 52))%Z. rewrite mult_IZR.
  replace (IZR (2 ^ (e + 52))) with (bpow radix2 (e + 52)).
  - rewrite Rmult_assoc, <- bpow_plus. replace (e + 52 + -52)%Z with e by lia. exact Hx.
  - symmetry. apply (IZR_Zpower radix2). lia.
Qed.

(* the fractional part stays at or below the largest float below one *)
Lemma frac_le : forall x, is_f64 x -> 0 <= x \/ x < - bpow radix2 (-54) ->
  0 <= fl (x - IZR (Zfloor x)) <= 1 - bpow radix2 (-53).
Proof.
  intros x Hx Hs. pose proof (Zfloor_lb x) as F1. pose proof (Zfloor_ub x) as F2.
  set (k := Zfloor x) in *.
  split.
  - rewrite <- (fl_id 0 f64_0). apply fl_mono. lra.
  - destruct (Rle_or_lt 1 (Rabs x)) as [H1|H1].
    + destruct (f64_multiple x Hx H1) as [m Hm].
      rewrite <- (fl_id _ f64_1m53). apply fl_mono.
      assert (E : x - IZR k = IZR (m - k * 2 ^ 52) * bpow radix2 (-52)).
      { rewrite minus_IZR, mult_IZR, Hm. simpl. lra. }
      rewrite E.
      assert (X : IZR (m - k * 2 ^ 52) * bpow radix2 (-52) < 1) by (rewrite <- E; lra).
      set (j := (m - k * 2 ^ 52)%Z) in *.
      assert (L : (j <= 4503599627370495)%Z).
      { apply Z.lt_succ_r. apply lt_IZR. simpl in *. lra. }
      apply IZR_le in L. simpl in *. lra.
    + apply Rabs_def2 in H1. destruct Hs as [Hs|Hs].
      * assert (k = 0%Z) by (apply Zfloor_imp; simpl; lra). rewrite H in *.
        rewrite Rminus_0_r. rewrite fl_id by exact Hx.
        (* x < 1 is at most pred 1 *)
        assert (P : x <= pred radix2 fexp 1).
        { apply pred_ge_gt; try assumption; [apply FLT_exp_valid; reflexivity|exact f64_1|lra]. }
        assert (PE : pred radix2 fexp 1 = 1 - bpow radix2 (-53)).
        { change 1 with (bpow radix2 0). rewrite pred_bpow. reflexivity. }
        lra.
      * assert (k = (-1)%Z) by (apply Zfloor_imp; simpl; simpl in Hs; lra). rewrite H in *.
        apply fl_below_1; simpl in *; lra.
Qed.

Lemma Ztrunc_pos : forall y, 0 <= y -> Ztrunc y = Zfloor y.
Proof. intros y H. apply Ztrunc_floor, H. Qed.

Lemma frac_exact_err : forall x, is_f64 x ->
  Rabs (fl (x - IZR (Zfloor x)) - (x - IZR (Zfloor x))) <= bpow radix2 (-53).
Proof.
  intros x Hx. pose proof (Zfloor_lb x). pose proof (Zfloor_ub x). apply fl_err_1. lra.
Qed.

Lemma add_fractional_days_ok : forall r x, is_f64 x -> 0 <= x \/ x < - bpow radix2 (-54) ->
  normal r -> (- 2 ^ 61 < days r < 2 ^ 61)%Z -> - 2 ^ 61 < x < 2 ^ 61 ->
  exists r', add_fractional_days_row r x = Ok r' /\ normal r' /\
    Rabs (IZR (instant r') - (IZR (instant r) + x * IZR DAY)) < 1.02.
Proof.
  intros r x Hx Hs Hn Hd Hb. unfold add_fractional_days_row.
  pose proof (Zfloor_lb x) as F1. pose proof (Zfloor_ub x) as F2.
  pose proof (frac_le x Hx Hs) as [P1 P2]. pose proof (frac_exact_err x Hx) as PE.
  set (k := Zfloor x) in *. set (p := fl (x - IZR k)) in *.
  assert (Hk : (- 2 ^ 61 - 1 <= k <= 2 ^ 61)%Z).
  { split; apply le_IZR; rewrite ?minus_IZR; simpl; simpl in Hb; [|lra].
    assert (IZR k + 1 > x) by lra. simpl. lra. }
  assert (Hik : in_int64b k = true) by (apply in_int64b_spec; unfold in_int64; lia).
  rewrite Hik.
  assert (Hp : 0 <= p * IZR DAY <= IZR DAY).
  { unfold DAY. simpl in P2. split; [apply Rmult_le_pos; lra|]. lra. }
  pose proof (fl_err_DAY _ Hp) as E.
  set (q := fl (p * IZR DAY)) in *.
  assert (Hq0 : 0 <= q) by (rewrite <- (fl_id 0 f64_0); apply fl_mono; lra).
  assert (Hq1 : q < IZR DAY).
  { apply Rabs_le_inv in E. unfold DAY in *. simpl in P2. lra. }
  rewrite (Ztrunc_pos q Hq0). set (n := Zfloor q).
  pose proof (Zfloor_lb q) as N1. pose proof (Zfloor_ub q) as N2. fold n in N1, N2.
  assert (Hnr : (0 <= n < DAY)%Z).
  { split.
    - apply Zfloor_lub. exact Hq0.
    - apply lt_IZR. lra. }
  assert (Hin : nanos_in_range n = true) by (unfold nanos_in_range, DAY in *; lia).
  rewrite Hin.
  rewrite wrap64_id by (unfold in_int64; lia).
  destruct (add_nanos_row_exact (mkrow (days r + k) (nanos r)) n) as [r' [A1 [A2 A3]]].
  - exact Hn.
  - unfold interior; cbn [days]. lia.
  - unfold DAY in *; lia.
  - exists r'. split; [exact A1|]. split; [exact A3|]. rewrite A2.
    unfold instant; simpl days; simpl nanos.
    replace ((days r + k) * 86400000000000 + nanos r + n)%Z
      with (days r * 86400000000000 + nanos r + (k * DAY + n))%Z by (unfold DAY; lia).
    rewrite (plus_IZR _ (k * DAY + n)), (plus_IZR (k * DAY)), mult_IZR.
    set (i := IZR (days r * 86400000000000 + nanos r)).
    apply Rabs_le_inv in E. apply Rabs_le_inv in PE. simpl in PE.
    apply Rabs_def1; unfold DAY in *; lra.
Qed.

Lemma add_fractional_days_sliver : forall r x, is_f64 x -> - bpow radix2 (-54) <= x < 0 ->
  add_fractional_days_row r x = Err ValueError.
Proof.
  intros r x Hx Hs. unfold add_fractional_days_row.
  assert (K : Zfloor x = (-1)%Z) by (apply Zfloor_imp; simpl in *; lra). rewrite K.
  change (in_int64b (-1)) with true. cbv iota.
  assert (P : fl (x - IZR (-1)) = 1).
  { apply Rle_antisym.
    - rewrite <- (fl_id 1 f64_1). apply fl_mono. lra.
    - assert (M : fl (1 - bpow radix2 (-54)) = 1).
      { unfold fl.
        assert (D : bpow radix2 (-54) = / 2 * bpow radix2 (-53)) by (simpl; lra).
        (* exact tie, even mantissa wins *)
        unfold round, scaled_mantissa. rewrite (cexp_fexp _ _ _ 0).
        - unfold F2R, FLT_exp. cbn [Fnum Fexp].
          change (Z.max (0 - 53) (-1074)) with (-53)%Z. change (- -53)%Z with 53%Z.
          replace ((1 - bpow radix2 (-54)) * bpow radix2 53) with (IZR (2 ^ 53 - 1) + / 2).
          + assert (Z : ZnearestE (IZR (2 ^ 53 - 1) + / 2) = (2 ^ 53)%Z).
            { unfold Znearest.
              assert (Fl : Zfloor (IZR (2 ^ 53 - 1) + / 2) = (2 ^ 53 - 1)%Z).
              { apply Zfloor_imp. rewrite plus_IZR. lra. }
              rewrite Fl. rewrite Rcompare_Eq by lra.
              assert (Ce : Zceil (IZR (2 ^ 53 - 1) + / 2) = (2 ^ 53)%Z).
              { apply Zceil_imp. rewrite !minus_IZR. simpl. lra. }
              rewrite Ce. reflexivity. }
            rewrite Z. simpl. lra.
          + rewrite minus_IZR. simpl. lra.
        - rewrite Rabs_pos_eq by (simpl; lra). simpl. lra. }
      rewrite <- M. apply fl_mono. simpl in *. lra. }
  rewrite P, Rmult_1_l.
  assert (FD : fl (IZR DAY) = IZR DAY).
  { apply fl_id. replace (IZR DAY) with (IZR DAY * bpow radix2 0) by (simpl; lra).
    apply f64_IZR_small; unfold DAY; lia. }
  rewrite FD, Ztrunc_IZR. reflexivity.
Qed.

(* ---- the TT-TDB formula --------------------------------------------------- *)
Lemma sin_le_abs : forall x, Rabs (sin x) <= Rabs x.
Proof.
  assert (P : forall x, 0 <= x -> Rabs (sin x) <= x).
  { intros x Hx. destruct (Req_dec x 0) as [->|Hne].
    - rewrite sin_0, Rabs_R0. lra.
    - pose proof (sin_lt_x x ltac:(lra)) as H1.
      destruct (Rle_or_lt x PI) as [Hpi|Hpi].
      + rewrite Rabs_pos_eq; [lra|]. apply sin_ge_0; lra.
      + pose proof (SIN_bound x). pose proof PI2_1. apply Rabs_le. lra. }
  intros x. destruct (Rle_or_lt 0 x) as [H|H].
  - rewrite (Rabs_pos_eq x H). apply P, H.
  - rewrite (Rabs_left x H). replace (sin x) with (- sin (- x)) by (rewrite sin_neg; ring).
    rewrite Rabs_Ropp. apply P. lra.
Qed.

Lemma sin_lip : forall a b, Rabs (sin a - sin b) <= Rabs (a - b).
Proof.
  intros a b. rewrite form4. rewrite !Rabs_mult.
  pose proof (sin_le_abs ((a - b) / 2)) as H.
  assert (C : Rabs (cos ((a + b) / 2)) <= 1) by (apply Rabs_le; destruct (COS_bound ((a + b) / 2)); lra).
  rewrite (Rabs_pos_eq 2) by lra.
  assert (D : Rabs ((a - b) / 2) = Rabs (a - b) / 2).
  { unfold Rdiv. rewrite Rabs_mult, (Rabs_pos_eq (/ 2)) by lra. reflexivity. }
  rewrite D in H. pose proof (Rabs_pos (cos ((a + b) / 2))). pose proof (Rabs_pos (sin ((a - b) / 2))).
  assert (Rabs (cos ((a + b) / 2)) * Rabs (sin ((a - b) / 2)) <= 1 * (Rabs (a - b) / 2)).
  { apply Rmult_le_compat; lra. }
  lra.
Qed.

Lemma Ztrunc_close : forall a b, Rabs (a - b) < 1 -> (-1 <= Ztrunc a - Ztrunc b <= 1)%Z.
Proof.
  intros a b H. apply Rabs_def2 in H.
  assert (T : forall y, Ztrunc y = Zfloor y /\ 0 <= y \/ Ztrunc y = Zceil y /\ y < 0).
  { intros y. destruct (Rle_or_lt 0 y); [left|right].
    - split; [apply Ztrunc_floor|]; assumption.
    - split; [apply Ztrunc_ceil; lra|assumption]. }
  assert (N : forall y, 0 <= y -> (0 <= Zfloor y)%Z) by (intros y Hy; apply Zfloor_lub; exact Hy).
  assert (N' : forall y, y < 0 -> (Zceil y <= 0)%Z) by (intros y Hy; apply Zceil_glb; simpl; lra).
  pose proof (Zfloor_lb a). pose proof (Zfloor_ub a). pose proof (Zfloor_lb b). pose proof (Zfloor_ub b).
  pose proof (Zceil_ub a). pose proof (Zceil_lb a). pose proof (Zceil_ub b). pose proof (Zceil_lb b).
  destruct (T a) as [[-> Ha]|[-> Ha]], (T b) as [[-> Hb]|[-> Hb]].
  - assert (Zfloor a < Zfloor b + 2)%Z by (apply lt_IZR; rewrite plus_IZR; lra).
    assert (Zfloor b < Zfloor a + 2)%Z by (apply lt_IZR; rewrite plus_IZR; lra). lia.
  - pose proof (N a Ha). pose proof (N' b Hb).
    assert (Zfloor a < Zceil b + 1)%Z by (apply lt_IZR; rewrite plus_IZR; lra). lia.
  - pose proof (N b Hb). pose proof (N' a Ha).
    assert (Zfloor b < Zceil a + 1)%Z by (apply lt_IZR; rewrite plus_IZR; lra). lia.
  - assert (Zceil a < Zceil b + 2)%Z by (apply lt_IZR; rewrite plus_IZR; lra).
    assert (Zceil b < Zceil a + 2)%Z by (apply lt_IZR; rewrite plus_IZR; lra). lia.
Qed.

Lemma tdb_formula_instant : forall d n d' n',
  (d * 86400000000000 + n = d' * 86400000000000 + n')%Z -> tdb_formula d n = tdb_formula d' n'.
Proof.
  intros d n d' n' H. unfold tdb_formula.
  replace (IZR (d' - 51545) + (IZR n' / IZR DAY + 1 / 2)) with (IZR (d - 51545) + (IZR n / IZR DAY + 1 / 2)); [reflexivity|].
  assert (E : IZR n = IZR (d' - d) * IZR DAY + IZR n').
  { rewrite <- mult_IZR, <- plus_IZR. f_equal. unfold DAY. lia. }
  rewrite E, !minus_IZR. unfold DAY. lra.
Qed.

Lemma tdb_formula_small : forall d n, (- 2000000 <= tdb_formula d n <= 2000000)%Z.
Proof.
  intros d n. unfold tdb_formula. set (s := sin _). assert (B : -1 <= s <= 1) by apply SIN_bound.
  assert (A : (Z.abs (Ztrunc (s * 1658000)) <= 1658000)%Z).
  { assert (X : -1658000 <= s * 1658000 <= 1658000) by lra.
    assert (Ztrunc (IZR (-1658000)) <= Ztrunc (s * 1658000))%Z by (apply Ztrunc_le; simpl; lra).
    assert (Ztrunc (s * 1658000) <= Ztrunc (IZR 1658000))%Z by (apply Ztrunc_le; simpl; lra).
    rewrite Ztrunc_IZR in *. lia. }
  lia.
Qed.

Lemma tdb_formula_slow : forall d n m, (- 2000000 <= m - n <= 2000000)%Z ->
  (- 1 <= tdb_formula d m - tdb_formula d n <= 1)%Z.
Proof.
  intros d n m H. unfold tdb_formula. apply Ztrunc_close.
  set (cm := (IZR (d - 51545) + (IZR m / IZR DAY + 1 / 2)) / 36525).
  set (cn := (IZR (d - 51545) + (IZR n / IZR DAY + 1 / 2)) / 36525).
  set (gm := (35999.050 * cm + 357.528) * PI / 180).
  set (gn := (35999.050 * cn + 357.528) * PI / 180).
  rewrite <- Rmult_minus_distr_r, Rabs_mult, (Rabs_pos_eq 1658000) by lra.
  pose proof (sin_lip (gm + 0.0167 * sin gm) (gn + 0.0167 * sin gn)) as S1.
  pose proof (sin_lip gm gn) as S2.
  assert (S3 : Rabs (gm + 0.0167 * sin gm - (gn + 0.0167 * sin gn)) <= Rabs (gm - gn) * 1.0167).
  { replace (gm + 0.0167 * sin gm - (gn + 0.0167 * sin gn)) with ((gm - gn) + 0.0167 * (sin gm - sin gn)) by ring.
    eapply Rle_trans; [apply Rabs_triang|]. rewrite Rabs_mult, (Rabs_pos_eq 0.0167) by lra. lra. }
  assert (DN : Rabs (IZR m - IZR n) <= 2000000).
  { rewrite <- minus_IZR, <- abs_IZR. apply IZR_le. lia. }
  assert (GD : Rabs (gm - gn) <= 0.0000001).
  { assert (E : gm - gn = (IZR m - IZR n) * (35999.050 * PI / 180 / 36525 / IZR DAY)).
    { unfold gm, gn, cm, cn, DAY. field. }
    rewrite E, Rabs_mult.
    pose proof PI_4 as P4. pose proof PI_RGT_0 as P0.
    assert (K : 0 <= 35999.050 * PI / 180 / 36525 / IZR DAY <= 0.00000000000001).
    { unfold DAY. split; lra. }
    rewrite (Rabs_pos_eq (35999.050 * PI / 180 / 36525 / IZR DAY)) by lra.
    assert (Rabs (IZR m - IZR n) * (35999.050 * PI / 180 / 36525 / IZR DAY) <= 2000000 * 0.00000000000001).
    { apply Rmult_le_compat; try lra. apply Rabs_pos. }
    lra. }
  lra.
Qed.

Definition tdb_env (dat : Z -> Z) (a : string -> string -> row -> row) : time_env :=
  mkenv dat tdb_formula a.

Lemma tt_tdb_tt_table : forall dat a t, scale t = "tt"%string ->
  Forall normal (rows t) -> Forall sane (rows t) ->
  exists t1 t2, rescale (tdb_env dat a) t "tdb" = Ok t1 /\ rescale (tdb_env dat a) t1 "tt" = Ok t2 /\
    scale t1 = "tdb"%string /\ scale t2 = "tt"%string /\
    Forall2 (fun r r2 => normal r2 /\ (-1 <= instant r2 - instant r <= 1)%Z) (rows t) (rows t2).
Proof.
  intros dat a t Hs Hn Hsa. rewrite Forall_forall in *. set (E := tdb_env dat a).
  destruct (rescale_lift E t "tt" "tdb" (fun r r1 => exists r2, rescale_row E "tdb" "tt" r1 = Ok r2 /\
     normal r2 /\ (-1 <= instant r2 - instant r <= 1)%Z)) as [rs1 [R1 R2]]; auto.
  { intros r Hr. destruct (tt_tdb_tt_row E r) as [r1 [r2 [X1 [X2 [X3 X4]]]]]; auto.
    - intros d n d' n'. apply tdb_formula_instant.
    - intros d n. apply tdb_formula_small.
    - intros d n m. apply tdb_formula_slow.
    - exists r1. split; [exact X1|]. exists r2. auto. }
  assert (X : exists rs2, mapM (rescale_row E "tdb" "tt") rs1 = Ok rs2 /\
     Forall2 (fun r r2 => normal r2 /\ (-1 <= instant r2 - instant r <= 1)%Z) (rows t) rs2).
  { clear -R2. induction R2 as [|r r1 l l1 [r2 [H1 H2]] R IH]; simpl.
    - exists []. split; [reflexivity|constructor].
    - destruct IH as [rs2 [I1 I2]]. rewrite H1. simpl. rewrite I1. simpl. eexists. split; [reflexivity|]. constructor; auto. }
  destruct X as [rs2 [X1 X2]].
  exists (mkts "tdb" rs1), (mkts "tt" rs2). split; [exact R1|]. split.
  { change (bind (mapM (rescale_row E "tdb" "tt") rs1) (fun rs => Ok (mkts "tt" rs)) = Ok (mkts "tt" rs2)).
    rewrite X1. reflexivity. }
  auto.
Qed.
