From Coq Require Import Reals Lra.
From Flocq Require Import Core Relative.
From Verif Require Import Base TimeRModel TimeRProofs FitRModel.
Open Scope R_scope.

(* evaluating one rounding: x in [2^(e-1), 2^e), nearest mantissa m *)
Lemma fl_eval x e m : (-1021 <= e)%Z -> bpow radix2 (e - 1) <= x < bpow radix2 e ->
  Rabs (x * bpow radix2 (53 - e) - IZR m) < / 2 -> fl x = IZR m * bpow radix2 (e - 53).
Proof.
  intros He Hx Hm. unfold fl, round, F2R, scaled_mantissa, cexp. cbn [Fnum Fexp].
  assert (P : 0 < bpow radix2 (e - 1)) by apply bpow_gt_0.
  rewrite (mag_unique radix2 x e) by (rewrite Rabs_pos_eq by lra; exact Hx).
  unfold FLT_exp. rewrite Z.max_l by lia. replace (- (e - 53))%Z with (53 - e)%Z by lia.
  now rewrite (Znearest_imp _ _ m Hm).
Qed.
Lemma fl_pos x : 0 <= x -> 0 <= fl x.
Proof. intros H. rewrite <- (fl_id 0) by apply f64_0. now apply fl_mono. Qed.
Lemma f64_int n : (Z.abs n <= 2 ^ 53)%Z -> is_f64 (IZR n).
Proof.
  intros H. destruct (Z.eq_dec (Z.abs n) (2 ^ 53)) as [E|E].
  - assert (D : (n = 2 ^ 53 \/ n = - 2 ^ 53)%Z) by lia. destruct D as [->| ->].
    + replace (IZR (2 ^ 53)) with (IZR 1 * bpow radix2 53) by (cbn; lra). apply f64_IZR_small; lia.
    + replace (IZR (- 2 ^ 53)) with (IZR (-1) * bpow radix2 53) by (cbn; lra). apply f64_IZR_small; lia.
  - replace (IZR n) with (IZR n * bpow radix2 0) by (cbn; lra). apply f64_IZR_small; lia.
Qed.
Lemma fl_rel x : bpow radix2 (-1021) <= x -> fl x <= x * (1 + bpow radix2 (-53)) /\ x * (1 - bpow radix2 (-53)) <= fl x.
Proof.
  intros H. assert (0 < bpow radix2 (-1021)) by apply bpow_gt_0.
  pose proof (relative_error_N_FLT radix2 (-1074) 53 ltac:(lia) (fun z => negb (Z.even z)) x) as R.
  assert (G : bpow radix2 (-1074 + 53 - 1) <= Rabs x).
  { rewrite Rabs_pos_eq by lra. eapply Rle_trans; [|exact H]. apply bpow_le. lia. }
  specialize (R G). rewrite (Rabs_pos_eq x) in R by lra.
  rewrite bpow_plus in R. change (Z.opp 53) with (-53)%Z in R. replace (bpow radix2 1) with 2 in R by (cbn; lra).
  apply Rabs_le_inv in R. unfold fl. lra.
Qed.

Definition budget (n min_obs : Z) (pct : R) : Z :=
  Ztrunc (Rmin (fl (fl (IZR n) * fl (pct / 100))) (fl (IZR (n - min_obs)))).

Lemma budget_bounds n k pct : (0 <= k <= n)%Z -> (n <= 2 ^ 53)%Z -> 0 <= pct ->
  (0 <= budget n k pct <= n - k)%Z /\ IZR (budget n k pct) <= fl (IZR n * fl (pct / 100)).
Proof.
  intros Hk Hn Hp. unfold budget. rewrite (fl_id (IZR n)), (fl_id (IZR (n - k))) by (apply f64_int; lia).
  set (a := fl (IZR n * fl (pct / 100))).
  assert (A : 0 <= a).
  { apply fl_pos. apply Rmult_le_pos; [apply IZR_le; lia|apply fl_pos; lra]. }
  assert (B : 0 <= IZR (n - k)) by (apply IZR_le; lia).
  assert (C : 0 <= Rmin a (IZR (n - k))) by (apply Rmin_glb; auto).
  rewrite Ztrunc_floor by auto. repeat split.
  - apply Zfloor_lub. auto.
  - apply le_IZR. eapply Rle_trans; [apply Zfloor_lb|apply Rmin_r].
  - eapply Rle_trans; [apply Zfloor_lb|apply Rmin_l].
Qed.
Lemma budget_percent n k pct : (0 <= k <= n)%Z -> (n <= 2 ^ 53)%Z -> 0 <= pct ->
  100 * IZR (budget n k pct) <= IZR n * pct * (1 + bpow radix2 (-51)).
Proof.
  intros Hk Hn Hp. destruct (budget_bounds n k pct Hk Hn Hp) as [[B0 _] B].
  set (out := budget n k pct) in *.
  assert (N0 : 0 <= IZR n) by (apply IZR_le; lia).
  assert (E51 : 0 < bpow radix2 (-51)) by apply bpow_gt_0.
  assert (NP : 0 <= IZR n * pct) by (apply Rmult_le_pos; lra).
  destruct (Z.eq_dec out 0) as [->|No].
  { rewrite Rmult_0_r. apply Rmult_le_pos; lra. }
  assert (O1 : 1 <= IZR out) by (apply IZR_le; lia).
  set (a := fl (pct / 100)) in *. set (x := IZR n * a) in *.
  assert (X : / 2 <= x).
  { destruct (Rle_or_lt (/ 2) x); auto. exfalso.
    assert (fl x <= fl (/ 2)) by (apply fl_mono; lra).
    rewrite (fl_id (/ 2)) in H0; [lra|]. replace (/ 2) with (IZR 1 * bpow radix2 (-1)) by (cbn; lra). apply f64_IZR_small; lia. }
  assert (Nb : IZR n <= bpow radix2 53) by (replace (bpow radix2 53) with (IZR (2 ^ 53)) by (cbn; lra); apply IZR_le; lia).
  assert (A : bpow radix2 (-54) <= a).
  { destruct (Rle_or_lt (bpow radix2 (-54)) a) as [|L]; auto. exfalso.
    assert (0 <= a) by (apply fl_pos; lra).
    assert (x < / 2); [|lra]. unfold x. apply Rle_lt_trans with (bpow radix2 53 * a).
    - apply Rmult_le_compat_r; auto.
    - apply Rlt_le_trans with (bpow radix2 53 * bpow radix2 (-54)); [apply Rmult_lt_compat_l; [apply bpow_gt_0|auto]|].
      rewrite <- bpow_plus. cbn. lra. }
  assert (Q : bpow radix2 (-1021) <= pct / 100).
  { destruct (Rle_or_lt (bpow radix2 (-1021)) (pct / 100)) as [|L]; auto. exfalso.
    assert (a <= fl (bpow radix2 (-1021))) by (apply fl_mono; lra).
    rewrite fl_id in H by (replace (bpow radix2 (-1021)) with (IZR 1 * bpow radix2 (-1021)) by lra; apply f64_IZR_small; lia).
    assert (bpow radix2 (-1021) < bpow radix2 (-54)) by (apply bpow_lt; lia). lra. }
  destruct (fl_rel _ Q) as [R1 _]. fold a in R1.
  assert (X' : bpow radix2 (-1021) <= x).
  { eapply Rle_trans; [|exact X]. replace (/ 2) with (bpow radix2 (-1)) by (cbn; lra). apply bpow_le; lia. }
  destruct (fl_rel _ X') as [R2 _].
  set (u := bpow radix2 (-53)) in *.
  assert (U : 0 < u) by apply bpow_gt_0.
  assert (U1 : u <= / 4) by (replace (/ 4) with (bpow radix2 (-2)) by (cbn; lra); apply bpow_le; lia).
  assert (E : bpow radix2 (-51) = 4 * u).
  { unfold u. replace (-51)%Z with (2 + -53)%Z by lia. rewrite bpow_plus. cbn. lra. }
  rewrite E.
  assert (x <= IZR n * (pct / 100 * (1 + u))) by (apply Rmult_le_compat_l; auto).
  assert (x * (1 + u) <= IZR n * (pct / 100 * (1 + u)) * (1 + u)) by (apply Rmult_le_compat_r; lra).
  assert (M : IZR out <= IZR n * pct / 100 * ((1 + u) * (1 + u))) by lra.
  assert (S : (1 + u) * (1 + u) <= 1 + 4 * u) by nra.
  assert (IZR n * pct / 100 * ((1 + u) * (1 + u)) <= IZR n * pct / 100 * (1 + 4 * u)) by (apply Rmult_le_compat_l; lra).
  lra.
Qed.
Lemma budget_whole n k p : (0 <= k <= n)%Z -> (n <= 2 ^ 40)%Z -> (0 <= p <= 100)%Z ->
  (100 * budget n k (IZR p) <= n * p)%Z.
Proof.
  intros Hk Hn Hp. pose proof (budget_percent n k (IZR p) Hk ltac:(lia) ltac:(apply IZR_le; lia)) as H.
  assert (IZR (100 * budget n k (IZR p)) < IZR (n * p + 1)); [|apply lt_IZR in H0; lia].
  rewrite plus_IZR, !mult_IZR.
  assert (B : IZR n * IZR p * bpow radix2 (-51) < 1); [|lra].
  rewrite <- mult_IZR.
  apply Rle_lt_trans with (IZR (2 ^ 47) * bpow radix2 (-51)).
  - apply Rmult_le_compat_r; [apply bpow_ge_0|]. apply IZR_le. nia.
  - replace (IZR (2 ^ 47)) with (bpow radix2 47) by (cbn; lra). rewrite <- bpow_plus. cbn. lra.
Qed.
Lemma budget_lower n k pct : (0 <= k <= n)%Z -> (n <= 2 ^ 40)%Z -> 0 <= pct <= 100 ->
  IZR n * pct / 100 < IZR (budget n k pct) + 1 + / 2 \/ (budget n k pct = n - k)%Z.
Proof.
  intros Hk Hn Hp. unfold budget. rewrite (fl_id (IZR n)), (fl_id (IZR (n - k))) by (apply f64_int; lia).
  set (a := fl (pct / 100)). set (y := fl (IZR n * a)).
  assert (N0 : 0 <= IZR n) by (apply IZR_le; lia).
  assert (A0 : 0 <= a) by (apply fl_pos; lra).
  assert (Y0 : 0 <= y) by (apply fl_pos; apply Rmult_le_pos; auto).
  destruct (Rle_or_lt (IZR (n - k)) y) as [L|L].
  - right. rewrite Rmin_right by auto. apply Ztrunc_IZR.
  - left. rewrite Rmin_left by lra. rewrite Ztrunc_floor by auto.
    assert (F : y < IZR (Zfloor y) + 1) by apply Zfloor_ub.
    assert (IZR n * pct / 100 <= y + / 2); [|lra].
    assert (Nb : IZR n <= bpow radix2 40) by (replace (bpow radix2 40) with (IZR (2 ^ 40)) by (cbn; lra); apply IZR_le; lia).
    pose proof (fl_err_1 (pct / 100) ltac:(lra)) as E1. fold a in E1. apply Rabs_le_inv in E1.
    assert (X : IZR n * a <= bpow radix2 40 * 2).
    { assert (a <= 2) by (assert (bpow radix2 (-53) <= 1) by (apply (bpow_le radix2 (-53) 0); lia); lra).
      apply Rmult_le_compat; lra. }
    assert (E2 : IZR n * a - y <= bpow radix2 (-10)).
    { destruct (Rle_or_lt (bpow radix2 (-1021)) (IZR n * a)) as [G|G].
      - destruct (fl_rel _ G) as [_ R2]. fold y in R2.
        assert (IZR n * a * bpow radix2 (-53) <= bpow radix2 40 * 2 * bpow radix2 (-53)) by (apply Rmult_le_compat_r; [apply bpow_ge_0|lra]).
        assert (bpow radix2 40 * 2 * bpow radix2 (-53) <= bpow radix2 (-10)); [|lra].
        replace 2 with (bpow radix2 1) by (cbn; lra). rewrite <- !bpow_plus. apply bpow_le. lia.
      - assert (bpow radix2 (-1021) <= bpow radix2 (-10)) by (apply bpow_le; lia). lra. }
    assert (E3 : IZR n * (pct / 100 - a) <= bpow radix2 (-10)).
    { assert (IZR n * (pct / 100 - a) <= bpow radix2 40 * bpow radix2 (-53)).
      { destruct (Rle_or_lt 0 (pct / 100 - a)) as [P|P].
        - apply Rmult_le_compat; lra.
        - assert (0 < bpow radix2 40 * bpow radix2 (-53)) by (apply Rmult_lt_0_compat; apply bpow_gt_0).
          assert (IZR n * (pct / 100 - a) <= 0); [|lra]. rewrite <- (Rmult_0_r (IZR n)). apply Rmult_le_compat_l; lra. }
      assert (bpow radix2 40 * bpow radix2 (-53) <= bpow radix2 (-10)) by (rewrite <- bpow_plus; apply bpow_le; lia). lra. }
    assert (bpow radix2 (-10) <= / 4) by (replace (/ 4) with (bpow radix2 (-2)) by (cbn; lra); apply bpow_le; lia).
    lra.
Qed.

Lemma cmo_ok n k pct : (k <= n)%Z -> 0 <= pct <= 100 -> calculate_max_outliers n k pct = Ok (budget n k pct).
Proof.
  intros H [H1 H2]. unfold calculate_max_outliers. destruct (Z.ltb_spec n k); [lia|].
  rewrite Rle_bool_true, Rle_bool_true by auto. reflexivity.
Qed.
Lemma cmo_err n k pct : (n < k)%Z \/ pct < 0 \/ 100 < pct -> calculate_max_outliers n k pct = Err AssertionError.
Proof.
  intros H. unfold calculate_max_outliers. destruct (Z.ltb_spec n k); [auto|].
  destruct H as [H|[H|H]]; [lia| |].
  - rewrite Rle_bool_false by auto. reflexivity.
  - rewrite (Rle_bool_false pct) by auto. now rewrite andb_false_r.
Qed.
Lemma fl_58 : fl (58 / 100) = 5224175567749775 * bpow radix2 (-53).
Proof. apply (fl_eval _ 0); [lia|cbn; lra|]. cbn [Z.sub Z.add Z.opp]. replace (bpow radix2 53) with 9007199254740992 by (cbn; lra). apply Rabs_def1; lra. Qed.
Lemma fl_58b : fl (50 * (5224175567749775 * bpow radix2 (-53))) = 8162774324609023 * bpow radix2 (-48).
Proof.
  apply (fl_eval _ 5); [lia|cbn; lra|]. replace (53 - 5)%Z with 48%Z by lia.
  replace (50 * (5224175567749775 * bpow radix2 (-53)) * bpow radix2 48) with (50 * 5224175567749775 * bpow radix2 (-5)).
  - cbn. apply Rabs_def1; lra.
  - replace (bpow radix2 (-5)) with (bpow radix2 (-53) * bpow radix2 48) by (rewrite <- bpow_plus; f_equal; lia). ring.
Qed.
Lemma budget_58 k : (0 <= k <= 20)%Z -> budget 50 k 58 = 28%Z.
Proof.
  intros Hk. unfold budget. rewrite (fl_id (IZR 50)), (fl_id (IZR (50 - k))), fl_58, fl_58b by (apply f64_int; lia).
  assert (30 <= IZR (50 - k)) by (apply IZR_le; lia).
  generalize dependent (IZR (50 - k)). intros r Hr.
  rewrite Rmin_left by (cbn; lra). rewrite Ztrunc_floor by (cbn; lra). apply Zfloor_imp. cbn. lra.
Qed.
Definition pct60 : R := 8444249301319679 * bpow radix2 (-47).
Lemma fl_60 : fl (pct60 / 100) = 5404319552844595 * bpow radix2 (-53).
Proof.
  unfold pct60. apply (fl_eval _ 0); [lia|cbn; lra|]. replace (53 - 0)%Z with 53%Z by lia.
  replace (8444249301319679 * bpow radix2 (-47) / 100 * bpow radix2 53) with (8444249301319679 * bpow radix2 6 / 100).
  - cbn. apply Rabs_def1; lra.
  - replace (bpow radix2 6) with (bpow radix2 (-47) * bpow radix2 53) by (rewrite <- bpow_plus; f_equal; lia). field.
Qed.
Lemma fl_60b : fl (5 * (5404319552844595 * bpow radix2 (-53))) = 6755399441055744 * bpow radix2 (-51).
Proof.
  apply (fl_eval _ 2); [lia|cbn; lra|]. replace (53 - 2)%Z with 51%Z by lia.
  replace (5 * (5404319552844595 * bpow radix2 (-53)) * bpow radix2 51) with (5 * 5404319552844595 * bpow radix2 (-2)).
  - cbn. apply Rabs_def1; lra.
  - replace (bpow radix2 (-2)) with (bpow radix2 (-53) * bpow radix2 51) by (rewrite <- bpow_plus; f_equal; lia). ring.
Qed.
Lemma budget_60 : budget 5 0 pct60 = 3%Z /\ 5 * pct60 / 100 < 3 /\ is_f64 pct60 /\ 0 <= pct60 <= 100.
Proof.
  split; [|split; [|split]].
  - unfold budget. rewrite (fl_id (IZR 5)), (fl_id (IZR (5 - 0))), fl_60, fl_60b by (apply f64_int; lia).
    rewrite Rmin_left by (cbn; lra). rewrite Ztrunc_floor by (cbn; lra). apply Zfloor_imp. cbn. lra.
  - unfold pct60. cbn. lra.
  - unfold pct60. apply f64_IZR_small; lia.
  - unfold pct60. cbn. lra.
Qed.
Lemma cmo_whole n k p : (0 <= k <= n)%Z -> (n <= 2 ^ 40)%Z -> (0 <= p <= 100)%Z ->
  exists out, calculate_max_outliers n k (IZR p) = Ok out /\
    (0 <= out)%Z /\ (k <= n - out)%Z /\ (100 * out <= n * p)%Z.
Proof.
  intros H1 H2 H3. exists (budget n k (IZR p)).
  assert (G1 : 0 <= IZR p) by (apply IZR_le; lia). assert (G2 : IZR p <= 100) by (apply IZR_le; lia).
  pose proof (budget_bounds n k (IZR p) H1 ltac:(lia) G1) as [B _].
  split; [apply cmo_ok; [lia|auto]|]. split; [lia|]. split; [lia|]. now apply budget_whole.
Qed.
Lemma cmo_any n k pct : (0 <= k <= n)%Z -> (n <= 2 ^ 53)%Z -> 0 <= pct <= 100 ->
  exists out, calculate_max_outliers n k pct = Ok out /\
    (0 <= out)%Z /\ (k <= n - out)%Z /\ 100 * IZR out <= IZR n * pct * (1 + bpow radix2 (-51)).
Proof.
  intros H1 H2 H3. exists (budget n k pct).
  pose proof (budget_bounds n k pct H1 H2 (proj1 H3)) as [B _].
  split; [apply cmo_ok; [lia|auto]|]. split; [lia|]. split; [lia|]. apply budget_percent; auto; lra.
Qed.
