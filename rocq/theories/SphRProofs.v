From Coq Require Import Reals Lra Lia.
From Flocq Require Import Core.
From Verif Require Import Base TimeModel TimeRModel TimeRProofs FitRProofs ResRProofs SphRModel.
Open Scope R_scope.

Lemma two_pi64 : 2 * pi64 = 884279719003555 * bpow radix2 (-47).
Proof. unfold pi64. replace (bpow radix2 (-47)) with (2 * bpow radix2 (-48)) by (cbn; lra). ring. Qed.
Lemma pi64_val : pi64 = 884279719003555 / 281474976710656.
Proof. unfold pi64. cbn. lra. Qed.
Lemma deg64_val : deg64 = 1007958012753983 / 17592186044416.
Proof. unfold deg64. cbn. lra. Qed.
Lemma fl_360 : fl (2 * pi64 * deg64) = 360.
Proof.
  rewrite (fl_eval _ 9 6333186975989760).
  - cbn. lra.
  - lia.
  - rewrite pi64_val, deg64_val. cbn. lra.
  - rewrite pi64_val, deg64_val. cbn. apply Rabs_def1; lra.
Qed.
Lemma longitude64_360 : forall l, - bpow radix2 (-52) <= l < 0 -> longitude64 l = 360.
Proof.
  intros l L. unfold longitude64. destruct (Rlt_dec l 0); [|lra].
  assert (B : bpow radix2 (-52) = / 4503599627370496) by (cbn; lra). rewrite B in L.
  replace (fl (2 * pi64 + l)) with (2 * pi64); [apply fl_360|].
  rewrite (fl_eval _ 3 7074237752028440).
  - rewrite two_pi64. cbn. lra.
  - lia.
  - rewrite pi64_val. cbn. lra.
  - rewrite pi64_val. change (53 - 3)%Z with 50%Z. replace (bpow radix2 50) with 1125899906842624 by (cbn; lra).
    apply Rabs_def1; lra.
Qed.
Lemma longitude64_range : forall l, - pi64 <= l <= pi64 -> 0 <= longitude64 l <= 360.
Proof.
  intros l L. unfold longitude64. pose proof deg64_val. pose proof pi64_val.
  assert (F2 : is_f64 (2 * pi64)) by (rewrite two_pi64; apply f64_IZR_small; lia).
  assert (K : 0 <= (if Rlt_dec l 0 then fl (2 * pi64 + l) else l) <= 2 * pi64).
  { destruct (Rlt_dec l 0); [|lra]. split; [apply fl_pos; lra|]. rewrite <- (fl_id _ F2) at 2. apply fl_mono. lra. }
  split; [apply fl_pos; nra|]. rewrite <- fl_360. apply fl_mono. nra.
Qed.
