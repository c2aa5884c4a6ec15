(* The whole solution with either backend, and the cost of the ridge. *)
From Coq Require Import Reals Lra Lia.
From Coq Require Import List String Bool ZArith.
From Verif Require Import Base StrOrder PhotModel RotModel RotScore RotFit JaxModel JaxSpec JaxLinear JaxLoop JaxBatch.
Import ListNotations.
Open Scope list_scope.
Open Scope R_scope.

Lemma search_same exact quick st n : search exact quick st n = search_with (fun idx => best_of (map exact idx)) quick st n.
Proof. reflexivity. Qed.
Lemma search_ext b1 b2 quick st n : (forall idx, b1 idx = b2 idx) -> search_with b1 quick st n = search_with b2 quick st n.
Proof.
  intros H. unfold search_with. destruct (Nat.eqb n 0); [reflexivity|]. destruct (negb st || Nat.leb n (2 ^ 11)); [apply H|].
  cbv zeta. rewrite !H. reflexivity.
Qed.
Lemma clusters_ext freqs f1 f2 acc : (forall i, In i acc -> nth_error f1 i = nth_error f2 i) -> clusters freqs f1 acc = clusters freqs f2 acc.
Proof.
  intros H. unfold clusters.
  replace (map (fun i => match nth_error f1 i with Some (Some f) => Some (item_at freqs i f) | _ => None end) acc)
    with (map (fun i => match nth_error f2 i with Some (Some f) => Some (item_at freqs i f) | _ => None end) acc); [reflexivity|].
  apply map_ext_in. intros i Hi. rewrite (H i Hi). reflexivity.
Qed.
Lemma nth_error_combine_seq {A} (l : list A) : forall s i, nth_error (combine (seq s (List.length l)) l) i = option_map (fun x => ((s + i)%nat, x)) (nth_error l i).
Proof.
  induction l as [|x l IH]; intros s [|i]; try reflexivity; cbn [List.length seq combine nth_error option_map].
  - rewrite Nat.add_0_r. reflexivity.
  - rewrite IH. replace (S s + i)%nat with (s + S i)%nat by lia. reflexivity.
Qed.

Section Derive.
Variable solver : list (list R) -> list R -> list R.
Variable hgfit : R -> R -> R * R.
Variable f_cdf : R -> Z -> Z -> R.
Variable f_ppf : R -> Z -> Z -> option R.
Hypothesis exact : solves solver.

Lemma derive_same o weighted all nf bs floor freqs : (forall d, In d all -> List.length (d_fix d) = nf) ->
  derive_jax solver hgfit (ridge_lstsq solver) f_cdf f_ppf o weighted all nf bs floor freqs =
  derive (ridge_lstsq solver) hgfit f_cdf f_ppf o weighted all nf freqs.
Proof.
  intros HA. unfold derive_jax, derive. cbv zeta.
  set (FF := fun k => fit_frequency (ridge_lstsq solver) hgfit weighted (clip_sigma o) all nf k).
  pose proof (fun k fs => indices_spec solver hgfit weighted (clip_sigma o) all nf k exact HA bs floor fs) as SP. cbv zeta in SP.
  match goal with |- match select_order f_cdf ?a with _ => _ end = match select_order f_cdf ?b with _ => _ end => replace a with b end.
  2:{ f_equal. apply map_ext. intros k. rewrite search_same. apply search_ext. intros idx.
      destruct (SP k (map (fun i => nth i freqs 0) idx)) as (_ & S2 & _). rewrite S2, map_map. reflexivity. }
  destruct (select_order f_cdf _) as [chosen|]; [|reflexivity].
  destruct (SP (r_order chosen) (map (fun i => nth i freqs 0) (seq 0 (List.length freqs)))) as (S1 & S2 & S3 & S4 & S5).
  set (ev := jax_indices solver hgfit weighted (clip_sigma o) all nf (r_order chosen) bs floor (map (fun i => nth i freqs 0) (seq 0 (List.length freqs)))) in *.
  set (fits := map (fun x => FF (r_order chosen) (nth x freqs 0)) (seq 0 (List.length freqs))) in *.
  assert (EF : map (fit_frequency (ridge_lstsq solver) hgfit weighted (clip_sigma o) all nf (r_order chosen)) (map (fun i => nth i freqs 0) (seq 0 (List.length freqs))) = fits)
    by (unfold fits, FF; rewrite map_map; reflexivity).
  rewrite EF in S1, S2, S4, S5.
  change (map (fun i => fit_frequency (ridge_lstsq solver) hgfit weighted (clip_sigma o) all nf (r_order chosen) (nth i freqs 0)) (seq 0 (List.length freqs))) with fits.
  rewrite map_length, seq_length in S3.
  destruct (argmin_from 0 (fst (fst ev))) as [[best s]|] eqn:EA.
  2:{ rewrite S1 in EA. rewrite EA. reflexivity. }
  pose proof (S5 best s eq_refl) as SB. pose proof EA as EA'. rewrite S1 in EA'. rewrite EA'. rewrite SB.
  destruct (nth_error fits best) as [[bf|]|] eqn:EB; [|reflexivity|reflexivity].
  set (thr := sigma_threshold f_ppf bf).
  match goal with |- context [clusters freqs _ (match filter ?p ?l with [] => _ | _ => _ end)] => 
    match goal with |- _ = ?rhs => match rhs with context [filter ?q l] => replace (filter p l) with (filter q l) end end end.
  2:{ apply filter_ext. intros i. rewrite S1, nth_error_map. destruct (nth_error fits i) as [[g|]|]; reflexivity. }
  set (acc0 := filter _ (seq 0 (List.length freqs))).
  set (acc := match acc0 with [] => [best] | _ => acc0 end).
  match goal with |- context [clusters freqs (map ?g (combine (seq 0 ?n) ?l)) acc] =>
    replace (clusters freqs (map g (combine (seq 0 n) l)) acc) with (clusters freqs fits acc); [reflexivity|] end.
  apply clusters_ext. intros i Hi.
  assert (LI : (i < List.length freqs)%nat).
  { assert (B : (best < List.length freqs)%nat).
    { assert (Q : (best < List.length fits)%nat) by (apply nth_error_Some; congruence). unfold fits in Q. rewrite map_length, seq_length in Q. exact Q. }
    assert (A0 : forall x, In x acc0 -> (x < List.length freqs)%nat).
    { intros x Hx. unfold acc0 in Hx. apply filter_In in Hx. destruct Hx as [Hx _]. apply in_seq in Hx. lia. }
    unfold acc in Hi. destruct acc0 as [|a l]; [destruct Hi as [<-|[]]; exact B|]. exact (A0 i Hi). }
  assert (FI : nth_error fits i = Some (FF (r_order chosen) (nth i freqs 0))).
  { unfold fits. rewrite nth_error_map. rewrite (nth_error_nth' (seq 0 (List.length freqs)) 0%nat) by (rewrite seq_length; exact LI).
    rewrite seq_nth by exact LI. reflexivity. }
  rewrite FI, nth_error_map, <- S3, nth_error_combine_seq. cbn [Nat.add].
  destruct (nth_error (snd (fst ev)) i) as [[g|]|] eqn:EG; cbn [option_map fst snd].
  - destruct (S4 i g EG) as [G _]. rewrite FI in G. congruence.
  - assert (X : existsb (Nat.eqb i) acc = true) by (apply existsb_exists; exists i; split; [exact Hi|apply Nat.eqb_refl]).
    rewrite X. reflexivity.
  - apply nth_error_None in EG. lia.
Qed.
End Derive.

(* ---- the cost of the ridge ---- *)
Lemma rsum_lin {A} (f g h : A -> R) (a b c : R) l : rsum (map (fun x => a * f x + b * g x + c * h x) l) = a * rsum (map f l) + b * rsum (map g l) + c * rsum (map h l).
Proof. rewrite (rsum_plus (fun x => a * f x + b * g x)), (rsum_plus (fun x => a * f x)), !rsum_scal. reflexivity. Qed.
(* the gradient along d *)
Definition slope (X : list (list R)) (t c d : list R) : R := rsum (map (fun p => dotp (fst p) d * (snd p - dotp (fst p) c)) (combine X t)).
Lemma ssq_along X t c d e s : (forall r, In r X -> dotp r e = dotp r c + s * dotp r d) ->
  ssq X t e = ssq X t c - 2 * s * slope X t c d + s * s * rsum (map (fun p => dotp (fst p) d * dotp (fst p) d) (combine X t)).
Proof.
  intros H. unfold ssq, slope.
  rewrite (rsum_ext _ (fun p => 1 * ((snd p - dotp (fst p) c) * (snd p - dotp (fst p) c)) + (- (2 * s)) * (dotp (fst p) d * (snd p - dotp (fst p) c)) + (s * s) * (dotp (fst p) d * dotp (fst p) d))).
  - rewrite rsum_lin. lra.
  - intros [r v] Hp. apply in_combine_l in Hp. cbn [fst snd]. rewrite (H r Hp). ring.
Qed.
(* the normal equations of the ridge fit give the slope *)
Lemma slope_ridge X t n c d : (forall r, In r X -> List.length r = n) -> List.length t = List.length X -> List.length c = n -> List.length d = n ->
  matvec (normal_matrix n X) c = normal_rhs n X t -> slope X t c d = ridge * dotp d c.
Proof.
  intros HX HT Hc Hd E. rewrite matrix_mul in E by assumption. unfold normal_rhs in E.
  assert (Q : forall i, (i < n)%nat -> rsum (map (fun p => nth i (fst p) 0 * (snd p - dotp (fst p) c)) (combine X t)) = ridge * nth i c 0).
  { intros i Hi. pose proof (nth_eq_tab (fun i => rsum (map (fun r => nth i r 0 * dotp r c) X) + ridge * nth i c 0)
       (fun i => rsum (map (fun p => nth i (fst p) 0 * snd p) (combine X t))) n i E Hi) as K. cbv beta in K.
    rewrite (rsum_ext _ (fun p => nth i (fst p) 0 * snd p + (- 1) * (nth i (fst p) 0 * dotp (fst p) c))) by (intros; ring).
    rewrite rsum_plus, rsum_scal, <- K.
    replace (rsum (map (fun p => nth i (fst p) 0 * dotp (fst p) c) (combine X t))) with (rsum (map (fun r => nth i r 0 * dotp r c) X)); [lra|].
    rewrite <- (map_map fst (fun r => nth i r 0 * dotp r c)).
    replace (map fst (combine X t)) with X; [reflexivity|]. clear - HT. revert t HT.
    induction X as [|x X IH]; intros [|y t] HT; try discriminate; [reflexivity|]. injection HT as HT. cbn. rewrite <- IH by exact HT. reflexivity. }
  unfold slope.
  rewrite (rsum_ext _ (fun p => rsum (map (fun i => nth i d 0 * (nth i (fst p) 0 * (snd p - dotp (fst p) c))) (seq 0 n)))).
  2:{ intros [r v] Hp. apply in_combine_l in Hp. cbn [fst snd]. rewrite dotp_seq by (rewrite (HX r Hp); congruence). rewrite (HX r Hp).
      rewrite Rmult_comm, <- rsum_scal. apply rsum_ext. intros i _. ring. }
  rewrite rsum_swap. rewrite (rsum_ext _ (fun i => nth i d 0 * (ridge * nth i c 0))).
  2:{ intros i Hi. apply in_seq in Hi. rewrite rsum_scal, Q by lia. reflexivity. }
  rewrite dotp_seq by congruence. rewrite Hd, <- rsum_scal. apply rsum_ext. intros; ring.
Qed.
Lemma norm2_dotp c : norm2 c = dotp c c.
Proof. unfold norm2. induction c as [|x c IH]; [reflexivity|]. rewrite dotp_cons, <- IH. reflexivity. Qed.
Lemma norm2_vsub a b : List.length a = List.length b -> norm2 (vsub a b) = norm2 a - 2 * dotp a b + norm2 b.
Proof.
  intros H. rewrite norm2_dotp, dotp_vsub by exact H. rewrite (dotp_comm (vsub a b) a), (dotp_comm (vsub a b) b), !dotp_vsub by exact H.
  rewrite !norm2_dotp, (dotp_comm b a). lra.
Qed.
Lemma squares_nonneg {A} (f : A -> R) l : 0 <= rsum (map (fun x => f x * f x) l).
Proof. apply rsum_nonneg. intros v H. apply in_map_iff in H. destruct H as (x & <- & _). nra. Qed.
(* the ridge fit minimises the sum of squares plus the penalty *)
Lemma ridge_minimal X t n c d : (forall r, In r X -> List.length r = n) -> List.length t = List.length X -> List.length c = n -> List.length d = n ->
  matvec (normal_matrix n X) c = normal_rhs n X t -> ssq X t c + ridge * norm2 c <= ssq X t d + ridge * norm2 d.
Proof.
  intros HX HT Hc Hd E. rewrite (ssq_along X t c (vsub d c) d 1).
  2:{ intros r _. rewrite dotp_vsub by congruence. lra. }
  rewrite (slope_ridge X t n c (vsub d c)); try assumption; [|rewrite vsub_length; congruence].
  pose proof (squares_nonneg (fun p => dotp (fst p) (vsub d c)) (combine X t)) as S.
  pose proof (norm2_nonneg (vsub d c)) as N. rewrite norm2_vsub in N by congruence.
  rewrite (dotp_comm (vsub d c) c), dotp_vsub by congruence. rewrite (dotp_comm c d), <- (norm2_dotp c).
  pose proof ridge_pos. nra.
Qed.
Lemma scaled_dotp k r : forall c, dotp r (scale k c) = k * dotp r c.
Proof. induction r as [|x r IH]; intros [|y c]; try (unfold dotp; cbn; lra). unfold scale. cbn [map]. rewrite !dotp_cons. fold (scale k c). rewrite IH. ring. Qed.
Lemma quadratic_zero (a b : R) : (forall s, 0 <= - 2 * s * a + s * s * b) -> a = 0.
Proof.
  intros H. destruct (Req_dec a 0) as [Z|N]; [exact Z|exfalso].
  destruct (Rle_lt_dec b 0) as [B|B].
  - pose proof (H a). nra.
  - pose proof (H (a / b)) as K. replace (-2 * (a / b) * a + a / b * (a / b) * b) with (- (a * a) / b) in K by (field; lra).
    assert (0 < a * a / b) by (apply Rdiv_lt_0_compat; nra). unfold Rdiv in *. lra.
Qed.
(* a least-squares solution equals the ridge solution only if the right-hand side is zero *)
Lemma ridge_differs X t c : (forall r, In r X -> List.length r = List.length (hd [] X)) -> List.length t = List.length X -> 
  let n := List.length (hd [] X) in least_squares X t c -> matvec (normal_matrix n X) c = normal_rhs n X t -> normal_rhs n X t = zeros n.
Proof.
  intros HX HT n [Hc L] E. fold n in HX, Hc.
  assert (Z : ridge * norm2 c = 0).
  { rewrite norm2_dotp. rewrite <- (slope_ridge X t n c c) by assumption.
    apply (quadratic_zero _ (rsum (map (fun p => dotp (fst p) c * dotp (fst p) c) (combine X t)))). intros s.
    pose proof (L (scale (1 + s) c) ltac:(rewrite scale_length; exact Hc)) as K.
    rewrite (ssq_along X t c c (scale (1 + s) c) s) in K; [lra|]. intros r _. rewrite scaled_dotp. ring. }
  assert (C0 : forall v, In v c -> v = 0).
  { intros v Hv. destruct (Req_dec v 0) as [|N]; [assumption|exfalso]. pose proof (norm2_pos c (ex_intro _ v (conj Hv N))). pose proof ridge_pos. nra. }
  rewrite <- E. rewrite matrix_mul by assumption.
  assert (EC : c = zeros n).
  { rewrite <- Hc. clear - C0. unfold zeros. induction c as [|x c IH]; [reflexivity|]. cbn. rewrite (C0 x) by (left; reflexivity). f_equal. apply IH. intros v Hv. apply C0. right. exact Hv. }
  rewrite EC. transitivity (map (fun _ : nat => 0) (seq 0 n)).
  - apply map_ext. intros i. rewrite nth_zeros, rsum_zero; [lra|]. intros r _. rewrite dotp_comm, dotp_zeros. lra.
  - unfold zeros. rewrite <- (seq_length n 0) at 2. generalize (seq 0 n). induction l as [|x l IH]; [reflexivity|]. cbn. rewrite IH. reflexivity.
Qed.
