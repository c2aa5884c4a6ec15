(* Concrete data for the JAX backend: ten observations of constant magnitude. *)
From Coq Require Import Reals Lra Lia.
From Coq Require Import List String Bool ZArith.
From Verif Require Import Base StrOrder PhotModel RotModel RotScore RotFit JaxModel JaxSpec JaxLinear JaxLoop JaxBatch JaxRidge.
Import ListNotations.
Open Scope list_scope.
Open Scope R_scope.

Definition rows10 : list datum := map (fun i => mkdatum (INR i) 1 [1; INR i; INR i * INR i] 1) (seq 0 10).
Definition flat_hg (c g : R) : R * R := (0, 0).

Lemma rows10_fix d : In d rows10 -> List.length (d_fix d) = 3%nat /\ d_y d = 1 /\ exists a b, d_fix d = [1; a; b].
Proof. intros H. apply in_map_iff in H. destruct H as (i & <- & _). cbn. repeat split. eauto. Qed.

Lemma weighted_problem lstsq hgfit weighted all nf order freq :
  let pr := prior hgfit (fmin (map (fun d => nth (nf - 2) (d_fix d) 0) all)) in
  weighted_lstsq lstsq (map (fun d => d_fix d ++ fourier (d_t d) freq order) all ++ [unit_row (nf + 2 * order) (nf - 2); unit_row (nf + 2 * order) (nf - 1)])
    (map d_y all ++ [fst (fst pr); snd (fst pr)])
    (map (fun d => if weighted : bool then d_w d else 1) all ++ [fst (snd pr); snd (snd pr)])
  = lstsq (fst (problem hgfit weighted all nf order freq)) (snd (problem hgfit weighted all nf order freq)).
Proof.
  cbv zeta. unfold weighted_lstsq, problem. cbn [fst snd]. rewrite !combine_app_eq by (rewrite !map_length; reflexivity).
  rewrite !map_app, !combine_maps, !map_map. reflexivity.
Qed.

(* without clipping the coefficients solve the problem of all rows *)
Lemma unclipped_coeffs lstsq hgfit weighted clip all nf order freq r :
  fit_frequency lstsq hgfit weighted clip all nf order freq = Some r -> r_nclip r = 0%nat ->
  r_coeffs r = lstsq (fst (problem hgfit weighted all nf order freq)) (snd (problem hgfit weighted all nf order freq)).
Proof.
  unfold fit_frequency. destruct (Nat.leb (List.length all) (nf + 2 * order)) eqn:L; [discriminate|]. cbn [clip_loop]. rewrite L.
  destruct (solve lstsq hgfit weighted all nf order freq all) as [[[[[c res] s] rss] df]|] eqn:E; [|discriminate].
  assert (EC : c = lstsq (fst (problem hgfit weighted all nf order freq)) (snd (problem hgfit weighted all nf order freq))).
  { unfold solve in E. cbv zeta in E. rewrite weighted_problem in E.
    destruct (paper_sigma _ _ _ _ _) as [[[? ?] ?]|]; [|discriminate]. injection E as <- _ _ _ _. reflexivity. }
  destruct (forallb _ _) eqn:F.
  - intros H _. injection H as <-. exact EC.
  - intros H N. exfalso. destruct (solve_inv _ _ _ _ _ _ _ _ _ _ _ _ _ E) as [-> _].
    assert (LM : List.length (map (fun r => rle (Rabs r) (clip * s)) (map (residual c order freq) all)) = List.length all) by (rewrite !map_length; reflexivity).
    pose proof (masked_sub _ all LM) as M. pose proof (masked_shorter _ all LM F) as MS.
    destruct (clip_loop_inv _ _ _ _ _ _ _ _ 7 _ _ M H) as (_ & _ & _ & _ & A5 & kept & B1 & B2 & _).
    pose proof (sub_length _ _ B1). lia.
Qed.
Lemma sub_full {A} (l m : list A) : sub l m -> List.length l = List.length m -> l = m.
Proof.
  induction 1 as [|x l m S IH|x l m S IH]; intros E; [reflexivity|injection E as E; rewrite IH by exact E; reflexivity|].
  pose proof (sub_length _ _ S). cbn in E. lia.
Qed.

Section Case.
Variable lstsq : list (list R) -> list R -> list R.
Variable freq : R.
Let D := fst (problem flat_hg false rows10 3 1 freq).
Let T := snd (problem flat_hg false rows10 3 1 freq).

Lemma fit10 : exists r, fit_frequency lstsq flat_hg false 3 rows10 3 1 freq = Some r /\ r_nclip r = 0%nat /\ r_coeffs r = lstsq D T /\
  r_rss r = rsum (map (fun v => v * v) (map (residual (lstsq D T) 1 freq) rows10)) /\ r_sigma r = sqrt (Rmax (r_rss r / 5) 0).
Proof.
  destruct (fit_no_clip lstsq flat_hg 3 rows10 3 1 freq) as (r & E & N); [cbn; lia|lra|cbn; lra|].
  pose proof (unclipped_coeffs _ _ _ _ _ _ _ _ _ E N) as C. fold D T in C.
  exists r. split; [exact E|]. split; [exact N|]. split; [exact C|].
  destruct (fit_inv _ _ _ _ _ _ _ _ _ E) as (_ & _ & A3 & A4 & A5 & kept & B1 & B2 & B3 & _).
  assert (K : kept = rows10) by (apply sub_full; [exact B1|lia]). subst kept.
  unfold paper_sigma in B3. rewrite A3, <- B2 in B3. cbn [rows10 map seq List.length Z.of_nat] in B3.
  replace (Z.pos _ - Z.of_nat (3 + 2 * 1))%Z with 5%Z in B3 by reflexivity. cbn [Z.leb Z.compare] in B3.
  injection B3 as B31 B32 _. rewrite C in *. rewrite <- B32 at 1. split; [reflexivity|]. rewrite <- B31, <- B32. reflexivity.
Qed.

Lemma D_shape : forall r, In r D -> List.length r = 5%nat.
Proof.
  intros r H. unfold D, problem in H. cbn [fst] in H. apply in_app_or in H. destruct H as [H|H].
  - apply in_map_iff in H. destruct H as (d & <- & Hd). rewrite map_length, app_length, fourier_length, (proj1 (rows10_fix d Hd)). reflexivity.
  - destruct H as [<-|[<-|[]]]; rewrite map_length; apply unit_row_length.
Qed.
Lemma DT_length : List.length T = List.length D.
Proof. reflexivity. Qed.
Lemma ssq_split c : ssq D T c = rsum (map (fun v => v * v) (map (residual c 1 freq) rows10))
  + (ssq [nth 10 D []; nth 11 D []] [0; 0] c).
Proof.
  unfold D, T, problem. cbn [fst snd]. unfold ssq at 1. rewrite combine_app_eq by (rewrite !map_length; reflexivity). rewrite map_app, rsum_app.
  f_equal.
  - rewrite combine_maps, !map_map. apply rsum_ext. intros d Hd. cbn [fst snd]. unfold residual. rewrite sqrt_1.
    replace (map (fun x => x * 1) (d_fix d ++ fourier (d_t d) freq 1)) with (d_fix d ++ fourier (d_t d) freq 1); [ring|].
    rewrite <- (map_id (d_fix d ++ fourier (d_t d) freq 1)) at 1. apply map_ext. intros; ring.
  - unfold ssq. unfold prior, flat_hg. cbn [fst snd]. replace ((0 + 0) / 2) with 0 by lra. rewrite !Rmult_0_l. reflexivity.
Qed.
Definition one5 : list R := [1; 0; 0; 0; 0].
Lemma one5_residual d : In d rows10 -> residual one5 1 freq d = 0.
Proof.
  intros H. destruct (rows10_fix d H) as (_ & Y & a & b & F). unfold residual. rewrite Y, F. unfold one5, fourier. cbn [seq flat_map app].
  generalize (cos (INR 1 * (2 * PI * freq * d_t d))), (sin (INR 1 * (2 * PI * freq * d_t d))). intros u v. rewrite !dotp_cons. change (dotp [] []) with 0. ring.
Qed.
Lemma one5_ssq : ssq D T one5 = 0.
Proof.
  rewrite ssq_split. rewrite map_map, rsum_zero by (intros d Hd; rewrite one5_residual by exact Hd; lra).
  unfold D, problem. cbn [fst rows10 map seq app nth]. unfold ssq, unit_row, one5, dotp. cbn. ring.
Qed.
Lemma one5_least : least_squares D T one5.
Proof. split; [reflexivity|]. intros d _. rewrite one5_ssq. apply rsum_nonneg. intros v H. apply in_map_iff in H. destruct H as (p & <- & _). apply Rle_0_sqr. Qed.
Lemma sum_zero_all l : rsum (map (fun v => v * v) l) = 0 -> forall v, In v l -> v = 0.
Proof.
  intros H v Hv. destruct (Req_dec v 0) as [|N]; [assumption|exfalso]. 
  assert (0 < rsum (map (fun v => v * v) l)) by (apply norm2_pos; exists v; split; assumption). lra.
Qed.
Lemma rss_zero_of_least : least_squares D T (lstsq D T) -> rsum (map (fun v => v * v) (map (residual (lstsq D T) 1 freq) rows10)) = 0.
Proof.
  intros [_ L]. specialize (L one5 eq_refl). rewrite one5_ssq, ssq_split in L.
  pose proof (norm2_nonneg (map (residual (lstsq D T) 1 freq) rows10)) as A. unfold norm2 in A.
  assert (B : 0 <= ssq [nth 10 D []; nth 11 D []] [0; 0] (lstsq D T)) by (apply rsum_nonneg; intros v H; apply in_map_iff in H; destruct H as (p & <- & _); apply Rle_0_sqr).
  lra.
Qed.
End Case.

Lemma ridge_rss solver freq : solves solver ->
  let D := fst (problem flat_hg false rows10 3 1 freq) in let T := snd (problem flat_hg false rows10 3 1 freq) in
  0 < rsum (map (fun v => v * v) (map (residual (ridge_lstsq solver D T) 1 freq) rows10)).
Proof.
  intros S D T. set (c := ridge_lstsq solver D T).
  destruct (solver_ok solver D 5 T S (D_shape freq)) as [Lc E]. change (solver (normal_matrix 5 D) (normal_rhs 5 D T)) with c in Lc, E.
  pose proof (norm2_nonneg (map (residual c 1 freq) rows10)) as NN. destruct NN as [NN|NN]; [exact NN|exfalso]. symmetry in NN. unfold norm2 in NN.
  pose proof (sum_zero_all _ NN) as RZ.
  pose proof (slope_ridge D T 5 c c (D_shape freq) (DT_length freq) Lc Lc E) as SL.
  assert (SN : slope D T c c <= 0).
  { unfold slope, D, T, problem. cbn [fst snd]. rewrite combine_app_eq by (rewrite !map_length; reflexivity). rewrite map_app, rsum_app.
    rewrite combine_maps, map_map, rsum_zero.
    - unfold prior, flat_hg. cbn [fst snd]. replace ((0 + 0) / 2) with 0 by lra. rewrite !Rmult_0_l. cbn [combine map fst snd].
      unfold rsum. cbn [fold_right]. nra.
    - intros d Hd. cbn [fst snd].
      replace (d_y d * sqrt 1 - dotp (map (fun x => x * sqrt 1) (d_fix d ++ fourier (d_t d) freq 1)) c) with (residual c 1 freq d).
      + rewrite (RZ (residual c 1 freq d)) by (apply in_map; exact Hd). ring.
      + unfold residual. rewrite sqrt_1, Rmult_1_r. f_equal. f_equal.
        rewrite <- (map_id (d_fix d ++ fourier (d_t d) freq 1)) at 1. apply map_ext. intros; ring. }
  rewrite <- norm2_dotp in SL. pose proof ridge_pos. pose proof (norm2_nonneg c).
  assert (C0 : norm2 c = 0) by nra.
  assert (HD : In (mkdatum (INR 0) 1 [1; INR 0; INR 0 * INR 0] 1) rows10) by (apply in_map_iff; exists 0%nat; split; [reflexivity|left; reflexivity]).
  pose proof (RZ _ (in_map (residual c 1 freq) _ _ HD)) as Z. unfold residual in Z. cbn [d_y d_fix d_t] in Z.
  assert (EC : c = zeros 5).
  { rewrite <- Lc. assert (A : forall v, In v c -> v = 0) by (apply sum_zero_all; exact C0). clear - A. unfold zeros. induction c as [|x c IH]; [reflexivity|].
    cbn. rewrite (A x) by (left; reflexivity). f_equal. apply IH. intros v Hv. apply A. right. exact Hv. }
  rewrite EC, dotp_comm, dotp_zeros in Z. lra.
Qed.
Lemma scores_differ lstsq solver freq bs floor : solves solver ->
  let D := fst (problem flat_hg false rows10 3 1 freq) in let T := snd (problem flat_hg false rows10 3 1 freq) in
  least_squares D T (lstsq D T) ->
  fst (fst (numpy_indices flat_hg lstsq false 3 rows10 3 1 [freq])) = [Some 0] /\
  exists s, 0 < s /\ fst (fst (jax_indices solver flat_hg false 3 rows10 3 1 bs floor [freq])) = [Some s].
Proof.
  intros S D T L. split.
  - destruct (fit10 lstsq freq) as (r & E & _ & _ & R1 & R2). unfold numpy_indices. cbn [map fst]. rewrite E. cbn [option_map].
    rewrite R2, R1, (rss_zero_of_least lstsq freq L). replace (0 / 5) with 0 by lra. rewrite Rmax_left by lra. rewrite sqrt_0. reflexivity.
  - destruct (fit10 (ridge_lstsq solver) freq) as (r & E & _ & _ & R1 & R2).
    destruct (indices_spec solver flat_hg false 3 rows10 3 1 S (fun d Hd => proj1 (rows10_fix d Hd)) bs floor [freq]) as [I1 _]. cbn [map] in I1.
    rewrite E in I1. cbn [option_map] in I1. exists (r_sigma r). split; [|exact I1].
    pose proof (ridge_rss solver freq S) as P. cbv zeta in P. rewrite <- R1 in P.
    rewrite R2. apply sqrt_lt_R0. rewrite Rmax_left; lra.
Qed.
