(* Claims C249-C253: the JAX backend of the rotation fits. *)
From Coq Require Import Reals Lra Lia.
From Coq Require Import List String Bool ZArith.
From Verif Require Import Base StrOrder PhotModel RotModel RotScore RotFit JaxModel JaxSpec JaxLinear JaxLoop JaxBatch JaxRidge JaxCase.
Import ListNotations.
Open Scope list_scope.
Open Scope R_scope.

(* ---- C249: batch size and padding never show ---- *)
Theorem C249_padding solver hgfit weighted clip all nf order bs bs' floor floor' freqs :
  solves solver -> (forall d, In d all -> List.length (d_fix d) = nf) ->
  jax_indices solver hgfit weighted clip all nf order bs floor freqs = jax_indices solver hgfit weighted clip all nf order bs' floor' freqs.
Proof.
  intros S HA.
  destruct (indices_spec solver hgfit weighted clip all nf order S HA bs floor freqs) as (A1 & A2 & A3 & A4 & A5).
  destruct (indices_spec solver hgfit weighted clip all nf order S HA bs' floor' freqs) as (B1 & B2 & B3 & B4 & B5).
  destruct (jax_indices solver hgfit weighted clip all nf order bs floor freqs) as [[s1 l1] b1].
  destruct (jax_indices solver hgfit weighted clip all nf order bs' floor' freqs) as [[s2 l2] b2].
  cbn [fst snd] in *. assert (ES : s1 = s2) by congruence. assert (EB : b1 = b2) by congruence. rewrite ES in *. rewrite EB.
  assert (EL : forall i, nth_error l1 i = nth_error l2 i).
  { intros i. destruct (argmin_from 0 s2) as [[p v]|] eqn:EA.
    - destruct (Nat.eq_dec i p) as [->|N]; [rewrite (A5 p v eq_refl), (B5 p v eq_refl); reflexivity|].
      destruct (nth_error l1 i) as [[f|]|] eqn:E1.
      + destruct (A4 i f E1) as (_ & _ & s & K). injection K as K _. congruence.
      + destruct (nth_error l2 i) as [[f|]|] eqn:E2; [destruct (B4 i f E2) as (_ & _ & s & K); injection K as K _; congruence|reflexivity|].
        apply nth_error_None in E2. assert (i < List.length l1)%nat by (apply nth_error_Some; congruence). lia.
      + apply nth_error_None in E1. symmetry. apply nth_error_None. lia.
    - destruct (nth_error l1 i) as [[f|]|] eqn:E1.
      + destruct (A4 i f E1) as (_ & _ & s & K). discriminate.
      + destruct (nth_error l2 i) as [[f|]|] eqn:E2; [destruct (B4 i f E2) as (_ & _ & s & K); discriminate|reflexivity|].
        apply nth_error_None in E2. assert (i < List.length l1)%nat by (apply nth_error_Some; congruence). lia.
      + apply nth_error_None in E1. symmetry. apply nth_error_None. lia. }
  f_equal. f_equal. clear - EL A3 B3. assert (L : List.length l1 = List.length l2) by congruence. clear A3 B3.
  revert l2 EL L. induction l1 as [|x l1 IH]; intros [|y l2] EL L; try discriminate; [reflexivity|]. injection L as L.
  pose proof (EL 0%nat) as E0. cbn in E0. injection E0 as ->. f_equal. apply IH; [|exact L]. intros i. exact (EL (S i)).
Qed.
(* a design widened by zero columns has the same coefficients, and zeros at the new places *)
Theorem C249_columns solver design target n nf pad :
  solves solver -> (nf <= n)%nat -> (forall r, In r design -> List.length r = n) ->
  solver (normal_matrix (n + pad) (map (widen nf pad) design)) (normal_rhs (n + pad) (map (widen nf pad) design) target)
  = widen nf pad (solver (normal_matrix n design) (normal_rhs n design target)).
Proof. intros S Hn HX. exact (padded_solver solver nf pad n design target S Hn HX). Qed.
(* there are solvers as assumed *)
Theorem C249_solver : exists solver, solves solver.
Proof. exists elimination. exact elimination_solves. Qed.
Print Assumptions C249_padding.
Print Assumptions C249_columns.
Print Assumptions C249_solver.
(* ten observations, one frequency: batches of one with no padding and batches of 64 with 1024 rows give the same fit, which exists *)
Example C249_case freq :
  jax_indices elimination flat_hg false 3 rows10 3 1 1 0 [freq; 2 * freq] = jax_indices elimination flat_hg false 3 rows10 3 1 64 1024 [freq; 2 * freq] /\
  snd (jax_indices elimination flat_hg false 3 rows10 3 1 64 1024 [freq; 2 * freq]) <> None.
Proof.
  split; [apply C249_padding; [exact elimination_solves|intros d Hd; exact (proj1 (rows10_fix d Hd))]|].
  destruct (indices_spec elimination flat_hg false 3 rows10 3 1 elimination_solves (fun d Hd => proj1 (rows10_fix d Hd)) 64 1024 [freq; 2 * freq]) as (_ & -> & _).
  cbn [map]. destruct (fit10 (ridge_lstsq elimination) freq) as (r & E & _). rewrite E, best_cons.
  destruct (best_of _) as [g|]; cbn [better]; [destruct (rlt _ _)|]; discriminate.
Qed.

(* ---- C250: with the same linear solver the backends agree ---- *)
Theorem C250_backends solver hgfit weighted clip all nf order bs floor freqs :
  solves solver -> (forall d, In d all -> List.length (d_fix d) = nf) ->
  let jax := jax_indices solver hgfit weighted clip all nf order bs floor freqs in
  let numpy := numpy_indices hgfit (ridge_lstsq solver) weighted clip all nf order freqs in
  fst (fst jax) = fst (fst numpy) /\ snd jax = snd numpy /\
  List.length (snd (fst jax)) = List.length (snd (fst numpy)) /\
  (forall i f, nth_error (snd (fst jax)) i = Some (Some f) -> nth_error (snd (fst numpy)) i = Some (Some f) /\ snd numpy = Some f) /\
  (forall f, snd jax = Some f -> exists i, nth_error (snd (fst jax)) i = Some (Some f)).
Proof.
  intros S HA jax numpy.
  destruct (indices_spec solver hgfit weighted clip all nf order S HA bs floor freqs) as (A1 & A2 & A3 & A4 & A5). fold jax in A1, A2, A3, A4, A5.
  unfold numpy, numpy_indices. cbn [fst snd]. split; [exact A1|]. split; [exact A2|]. split; [rewrite map_length; exact A3|]. split.
  - intros i f H. destruct (A4 i f H) as (B1 & B2 & _). split; assumption.
  - intros f H. rewrite A2 in H.
    pose proof (argmin_best (map (fit_frequency (ridge_lstsq solver) hgfit weighted clip all nf order) freqs) 0) as AB. rewrite <- A1 in AB.
    destruct (argmin_from 0 (fst (fst jax))) as [[i s]|] eqn:EA; [|congruence].
    destruct AB as (_ & g & G1 & G2 & _). rewrite Nat.sub_0_r in G1. exists i. rewrite (A5 i s eq_refl), G1. congruence.
Qed.
Print Assumptions C250_backends.
Example C250_case freq : exists f, snd (jax_indices elimination flat_hg false 3 rows10 3 1 16 64 [freq]) = Some f /\
  snd (numpy_indices flat_hg (ridge_lstsq elimination) false 3 rows10 3 1 [freq]) = Some f /\ r_freq f = freq /\ r_nfit f = 10%nat.
Proof.
  destruct (C250_backends elimination flat_hg false 3 rows10 3 1 16 64 [freq] elimination_solves (fun d Hd => proj1 (rows10_fix d Hd))) as (_ & E & _).
  rewrite E. unfold numpy_indices. cbn [map snd]. destruct (fit10 (ridge_lstsq elimination) freq) as (r & F & N & _). rewrite F. exists r.
  destruct (fit_inv _ _ _ _ _ _ _ _ _ F) as (A1 & _ & _ & _ & A5 & _). cbn in A5. repeat split; [exact A1|lia].
Qed.

(* ---- C251: the whole period solution ---- *)
Theorem C251_solution solver hgfit f_cdf f_ppf o weighted all nf bs floor freqs :
  solves solver -> (forall d, In d all -> List.length (d_fix d) = nf) ->
  derive_jax solver hgfit (ridge_lstsq solver) f_cdf f_ppf o weighted all nf bs floor freqs =
  derive (ridge_lstsq solver) hgfit f_cdf f_ppf o weighted all nf freqs.
Proof. intros S HA. exact (derive_same solver hgfit f_cdf f_ppf S o weighted all nf bs floor freqs HA). Qed.
Print Assumptions C251_solution.
(* a solution exists: one order, one frequency, ten observations *)
Example C251_case f_cdf f_ppf freq : exists s,
  derive_jax elimination flat_hg (ridge_lstsq elimination) f_cdf f_ppf (mkoptions false [1%nat] 3 2 1000 30 None true Auto 6 10 true) false rows10 3 16 64 [freq] = Ok s.
Proof.
  rewrite C251_solution by (try exact elimination_solves; intros d Hd; exact (proj1 (rows10_fix d Hd))).
  destruct (fit10 (ridge_lstsq elimination) freq) as (r & F & _).
  unfold derive, search. cbn [List.length Nat.eqb negb orb staged seq map clip_sigma nth].
  change (used_orders (mkoptions false [1%nat] 3 2 1000 30 None true Auto 6 10 true)) with [1%nat]. cbn [map]. rewrite F.
  cbn [best_of fold_left better keep_some]. cbn [select_order existsb].
  destruct (fit_inv _ _ _ _ _ _ _ _ _ F) as (_ & A2 & _). rewrite A2, F. cbn [option_map argmin_from nth_error].
  eexists. reflexivity.
Qed.

(* ---- C252: the ridge shows ---- *)
(* full statement: for every program that returns a least-squares solution, both backends give the same scores and
   coefficients; refuted by ten observations of constant magnitude, at every frequency *)
Theorem C252_scores_refuted : exists hgfit all nf order freq,
  let p := problem hgfit false all nf order freq in
  (exists c, least_squares (fst p) (snd p) c) /\
  forall lstsq solver bs floor, least_squares (fst p) (snd p) (lstsq (fst p) (snd p)) -> solves solver ->
  exists s, 0 < s /\ fst (fst (numpy_indices hgfit lstsq false 3 all nf order [freq])) = [Some 0] /\
            fst (fst (jax_indices solver hgfit false 3 all nf order bs floor [freq])) = [Some s].
Proof.
  exists flat_hg, rows10, 3%nat, 1%nat, 1. cbv zeta. split; [exists one5; apply one5_least|].
  intros lstsq solver bs floor L S. destruct (scores_differ lstsq solver 1 bs floor S L) as (A & s & B & C). exists s. repeat split; assumption.
Qed.
(* the coefficients agree only if the right-hand side of the normal equations is zero *)
Theorem C252_coefficients_refuted solver design target c :
  solves solver -> (forall r, In r design -> List.length r = List.length (hd [] design)) -> List.length target = List.length design ->
  least_squares design target c -> (exists i, (i < List.length (hd [] design))%nat /\ nth i (normal_rhs (List.length (hd [] design)) design target) 0 <> 0) ->
  ridge_lstsq solver design target <> c.
Proof.
  intros S HX HT L (i & Hi & N) E. apply N.
  destruct (solver_ok solver design _ target S HX) as [_ M].
  change (solver (normal_matrix (List.length (hd [] design)) design) (normal_rhs (List.length (hd [] design)) design target)) with (ridge_lstsq solver design target) in M.
  rewrite E in M. rewrite (ridge_differs design target c HX HT L M). apply nth_zeros.
Qed.
(* the ridge costs at most 1e-15 times the squared norm of the least-squares coefficients *)
Theorem C252_loss_partial solver design target c :
  solves solver -> (forall r, In r design -> List.length r = List.length (hd [] design)) -> List.length target = List.length design ->
  least_squares design target c ->
  ssq design target c <= ssq design target (ridge_lstsq solver design target) <= ssq design target c + / 10 ^ 15 * norm2 c /\
  norm2 (ridge_lstsq solver design target) <= norm2 c.
Proof.
  intros S HX HT [Lc L]. destruct (solver_ok solver design _ target S HX) as [LR M].
  change (solver (normal_matrix (List.length (hd [] design)) design) (normal_rhs (List.length (hd [] design)) design target)) with (ridge_lstsq solver design target) in *.
  pose proof (L _ LR) as A. pose proof (ridge_minimal design target _ _ c HX HT LR Lc M) as B.
  pose proof (norm2_nonneg (ridge_lstsq solver design target)). pose proof ridge_pos. unfold ridge in *. repeat split; [exact A|nra|].
  apply (Rmult_le_reg_l (/ 10 ^ 15)); lra.
Qed.
Print Assumptions C252_scores_refuted.
Print Assumptions C252_coefficients_refuted.
Print Assumptions C252_loss_partial.
(* one column of ones, target one: least squares gives 1, the ridge fit less *)
Example C252_case : least_squares [[1]; [1]] [1; 1] [1] /\ ridge_lstsq elimination [[1]; [1]] [1; 1] <> [1].
Proof.
  assert (L : least_squares [[1]; [1]] [1; 1] [1]).
  { split; [reflexivity|]. intros d _. replace (ssq [[1]; [1]] [1; 1] [1]) with 0 by (unfold ssq, dotp, rsum; cbn; ring).
    apply rsum_nonneg. intros v H. apply in_map_iff in H. destruct H as (p & <- & _). apply Rle_0_sqr. }
  split; [exact L|]. apply C252_coefficients_refuted; [exact elimination_solves| |reflexivity|exact L|].
  - intros r [<-|[<-|[]]]; reflexivity.
  - exists 0%nat. split; [cbn; lia|]. unfold normal_rhs, rsum. cbn. lra.
Qed.

(* ---- C253: the padded sizes ---- *)
Theorem C253_rows n floor : (1 <= Z.max n floor)%Z ->
  (exists k, (0 <= k)%Z /\ row_bucket n floor = (2 ^ k)%Z) /\ (Z.max n floor <= row_bucket n floor)%Z /\
  (forall k, (0 <= k)%Z -> (Z.max n floor <= 2 ^ k)%Z -> (row_bucket n floor <= 2 ^ k)%Z) /\
  (row_bucket n floor < 2 * Z.max n floor)%Z.
Proof.
  intros H. split; [exists (bit_length (Z.max n floor - 1)); split; [apply bit_length_nonneg|apply row_bucket_pow]|].
  split; [apply row_bucket_ge|]. split; [intros k Hk L; apply row_bucket_least; assumption|].
  rewrite row_bucket_pow. unfold bit_length. destruct (Z.eqb_spec (Z.max n floor - 1) 0) as [E|E]; [rewrite Z.pow_0_r; lia|].
  rewrite Z.abs_eq by lia. rewrite Z.add_1_r, Z.pow_succ_r by apply Z.log2_nonneg.
  pose proof (Z.log2_spec (Z.max n floor - 1) ltac:(lia)). lia.
Qed.
Theorem C253_columns v : let r := next_multiple v 8 in
  (r mod 8 = 0)%Z /\ (v <= r)%Z /\ forall s, (s mod 8 = 0)%Z -> (v <= s)%Z -> (r <= s)%Z.
Proof.
  destruct (next_multiple_spec v 8 ltac:(lia)) as [A B]. cbv zeta. split; [exact B|]. split; [lia|]. intros s Hs L.
  apply Z.mod_divide in B; [|lia]. apply Z.mod_divide in Hs; [|lia]. destruct B as [p B], Hs as [q Hs]. lia.
Qed.
Print Assumptions C253_rows.
Print Assumptions C253_columns.
Example C253_case : (row_bucket 65 64, row_bucket 64 64, row_bucket 3 64, row_bucket 2000 64, next_multiple 17 8, next_multiple 16 8) = (128, 64, 64, 2048, 24, 16)%Z.
Proof. reflexivity. Qed.
