(* A clipped fit: equal uncertainties change the scatter it reports. *)
From Coq Require Import Reals Lra.
From Coq Require Import List String Bool Permutation Sorted.
From Verif Require Import Base ListLemmas StrOrder PhotModel PhotH RotModel RotScore RotFit RotClus RotDerive RotEst RotMain RotMore.
Import ListNotations.
Open Scope string_scope.
Open Scope list_scope.
Open Scope R_scope.

Definition rows15 : list datum := repeat (mkdatum 0 1 [1; 0; 0] 1) 15.
Definition rows16 : list datum := rows15 ++ [mkdatum 0 100 [1; 0; 0] 1].
Definition lstsq0 : list (list R) -> list R -> list R := fun _ _ => [].

Lemma dotp_nil a : dotp a [] = 0.
Proof. unfold dotp. destruct a; reflexivity. Qed.
Lemma solve0 hgfit (weighted : bool) (all : list datum) (nf order : nat) (freq : R) (rows : list datum) : exists pre, pre = paper_sigma (map d_y rows) (if weighted then Some (map d_w rows) else None) (List.length all) (List.length rows) (nf + 2 * order)%nat /\
  solve lstsq0 hgfit weighted all nf order freq rows = match pre with Some (s, rss, df) => Some ([], map d_y rows, s, rss, df) | None => None end.
Proof.
  eexists. split; [reflexivity|]. unfold solve. cbv zeta. unfold weighted_lstsq, lstsq0.
  rewrite (combine_map_r (fun d => d_fix d ++ fourier (d_t d) freq order)), map_map.
  rewrite (map_ext _ d_y) by (intros d; cbn [fst snd]; rewrite dotp_nil; ring). reflexivity.
Qed.

Lemma fit16 hgfit weighted freq : exists r, fit_frequency lstsq0 hgfit weighted 3 rows16 3 1 freq = Some r /\
  r_nfit r = 15%nat /\ r_nclip r = 1%nat /\ r_coeffs r = [] /\ r_sigma r = sqrt (if weighted then 16 / 10 else 15 / 10).
Proof.
  unfold fit_frequency. change (Nat.leb (List.length rows16) (3 + 2 * 1)) with false. cbv iota.
  change 8%nat with (S (S 6)). cbn [clip_loop]. change (Nat.leb (List.length rows16) (3 + 2 * 1)) with false. cbv iota.
  destruct (solve0 hgfit weighted rows16 3 1 freq rows16) as (pre & E & ->).
  assert (E1 : pre = Some (sqrt (10015 / 11), 10015, 11%Z)).
  { rewrite E. unfold paper_sigma. change (Z.of_nat (List.length rows16) - Z.of_nat (3 + 2 * 1))%Z with 11%Z. cbn [Z.leb Z.compare].
    assert (R1 : rsum (map (fun r => r * r) (map d_y rows16)) = 10015) by (unfold rsum, rows16, rows15; cbn [repeat app map d_y fold_right]; ring).
    destruct weighted.
    - assert (R2 : rsum (map (fun p => fst p * (snd p * snd p)) (combine (map d_w rows16) (map d_y rows16))) = 10015)
        by (unfold rsum, rows16, rows15; cbn [repeat app map d_y d_w combine fst snd fold_right]; ring).
      assert (R3 : rsum (map d_w rows16) = 16) by (unfold rsum, rows16, rows15; cbn [repeat app map d_w fold_right]; ring).
      rewrite R2, R3. destruct (Rle_dec 16 0) as [C|_]; [lra|]. replace (INR (List.length rows16)) with 16 by (cbn; lra).
      rewrite Rmax_left by lra. repeat f_equal. field.
    - rewrite R1, Rmax_left by lra. reflexivity. }
  rewrite E1. clear pre E E1.
  assert (SQ : sqrt (10015 / 11) * sqrt (10015 / 11) = 10015 / 11) by (apply sqrt_sqrt; lra).
  pose proof (sqrt_pos (10015 / 11)) as SP. set (s := sqrt (10015 / 11)) in *. clearbody s.
  assert (K1 : rle (Rabs 1) (3 * s) = true) by (apply rle_true; rewrite Rabs_R1; nra).
  assert (K2 : rle (Rabs 100) (3 * s) = false) by (apply rle_false; rewrite Rabs_right by lra; nra).
  assert (MK : map (fun r => rle (Rabs r) (3 * s)) (map d_y rows16) = repeat true 15 ++ [false]).
  { unfold rows16, rows15. cbn [repeat app map d_y]. rewrite K1, K2. reflexivity. }
  rewrite MK. change (forallb (fun b : bool => b) (repeat true 15 ++ [false])) with false. cbv iota.
  change (masked (repeat true 15 ++ [false]) rows16) with rows15. change (Nat.leb (List.length rows15) (3 + 2 * 1)) with false. cbv iota.
  destruct (solve0 hgfit weighted rows16 3 1 freq rows15) as (pre & E & ->).
  assert (E1 : pre = Some (sqrt (if weighted then 16 / 10 else 15 / 10), 15, 10%Z)).
  { rewrite E. unfold paper_sigma. change (Z.of_nat (List.length rows15) - Z.of_nat (3 + 2 * 1))%Z with 10%Z. cbn [Z.leb Z.compare].
    assert (R1 : rsum (map (fun r => r * r) (map d_y rows15)) = 15) by (unfold rsum, rows15; cbn [repeat map d_y fold_right]; ring).
    destruct weighted.
    - assert (R2 : rsum (map (fun p => fst p * (snd p * snd p)) (combine (map d_w rows15) (map d_y rows15))) = 15)
        by (unfold rsum, rows15; cbn [repeat map d_y d_w combine fst snd fold_right]; ring).
      assert (R3 : rsum (map d_w rows15) = 15) by (unfold rsum, rows15; cbn [repeat map d_w fold_right]; ring).
      rewrite R2, R3. destruct (Rle_dec 15 0) as [C|_]; [lra|]. replace (INR (List.length rows16)) with 16 by (cbn; lra).
      rewrite Rmax_left by lra. repeat f_equal. field.
    - rewrite R1, Rmax_left by lra. reflexivity. }
  rewrite E1. clear pre E E1.
  assert (W : 1 <= (if weighted then 16 / 10 else 15 / 10)) by (destruct weighted; lra).
  assert (S1 : 1 <= sqrt (if weighted then 16 / 10 else 15 / 10)) by (rewrite <- sqrt_1; apply sqrt_le_1; lra).
  set (u := sqrt (if weighted then 16 / 10 else 15 / 10)) in *. clearbody u.
  assert (K3 : rle (Rabs 1) (3 * u) = true) by (apply rle_true; rewrite Rabs_R1; lra).
  assert (MK2 : map (fun r => rle (Rabs r) (3 * u)) (map d_y rows15) = repeat true 15).
  { unfold rows15. cbn [repeat map d_y]. rewrite K3. reflexivity. }
  rewrite MK2. change (forallb (fun b : bool => b) (repeat true 15)) with true. cbv iota.
  eexists. split; [reflexivity|]. repeat split.
Qed.
