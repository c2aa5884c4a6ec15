(* Lemmas on the clipped fit, the smallest finite score, the staged search and the choice of the Fourier order. *)
From Coq Require Import Reals Lra.
From Coq Require Import List String Bool Permutation Sorted.
From Verif Require Import Base StrOrder PhotModel RotModel RotScore.
Import ListNotations.
Open Scope string_scope.
Open Scope list_scope.
Open Scope R_scope.

(* the residual of one observation under a set of coefficients *)
Definition residual (coeffs : list R) (order : nat) (freq : R) (d : datum) : R :=
  d_y d - dotp (d_fix d ++ fourier (d_t d) freq order) coeffs.
(* the kept rows are some of the given ones, in the same order *)
Inductive sub {A} : list A -> list A -> Prop :=
| sub_nil : sub [] []
| sub_keep x l m : sub l m -> sub (x :: l) (x :: m)
| sub_drop x l m : sub l m -> sub l (x :: m).

Lemma sub_refl {A} (l : list A) : sub l l.
Proof. induction l; constructor; assumption. Qed.
Lemma sub_length {A} (l m : list A) : sub l m -> (List.length l <= List.length m)%nat.
Proof. induction 1; cbn; lia. Qed.
Lemma sub_trans {A} (l m n : list A) : sub l m -> sub m n -> sub l n.
Proof. intros H K. revert l H. induction K; intros l0 H; [exact H| |constructor; auto]. inversion H; subst; constructor; auto. Qed.
Lemma sub_In {A} (l m : list A) x : sub l m -> In x l -> In x m.
Proof. induction 1; cbn; intuition. Qed.

Lemma masked_sub {A} (m : list bool) : forall l : list A, List.length m = List.length l -> sub (masked m l) l.
Proof.
  induction m as [|b m IH]; intros [|x l] H; try discriminate; [constructor|]. injection H as H. cbn.
  destruct b; constructor; auto.
Qed.
Lemma masked_shorter {A} (m : list bool) : forall l : list A, List.length m = List.length l -> forallb (fun b => b) m = false ->
  (List.length (masked m l) < List.length l)%nat.
Proof.
  induction m as [|b m IH]; intros [|x l] H E; try discriminate. injection H as H. cbn in *. destruct b; cbn in *.
  - specialize (IH l H E). lia.
  - pose proof (sub_length _ _ (masked_sub m l H)). lia.
Qed.

Lemma paper_sigma_inv res ws n_obs n_fit n_par s rss df : paper_sigma res ws n_obs n_fit n_par = Some (s, rss, df) ->
  df = (Z.of_nat n_fit - Z.of_nat n_par)%Z /\ (0 < df)%Z /\ 0 <= s.
Proof.
  unfold paper_sigma. destruct (_ <=? 0)%Z eqn:E; [discriminate|].
  destruct ws as [w|].
  - destruct (Rle_dec _ _); [discriminate|]. intros H. injection H as <- <- <-. split; [reflexivity|]. split; [lia|apply sqrt_pos].
  - intros H. injection H as <- <- <-. split; [reflexivity|]. split; [lia|apply sqrt_pos].
Qed.

Lemma combine_map_r {A B} (f : A -> B) l : combine l (map f l) = map (fun x => (x, f x)) l.
Proof. induction l; cbn; congruence. Qed.

Section Fit.
Variable lstsq : list (list R) -> list R -> list R.
Variable hgfit : R -> R -> R * R.

Lemma solve_inv weighted all nf order freq rows c res s rss df :
  solve lstsq hgfit weighted all nf order freq rows = Some (c, res, s, rss, df) ->
  res = map (residual c order freq) rows /\
  paper_sigma res (if weighted then Some (map d_w rows) else None) (List.length all) (List.length rows) (nf + 2 * order) = Some (s, rss, df).
Proof.
  unfold solve. set (c0 := weighted_lstsq _ _ _ _). rewrite combine_map_r, map_map. cbn [fst snd].
  change (map (fun x => d_y x - dotp (d_fix x ++ fourier (d_t x) freq order) c0) rows) with (map (residual c0 order freq) rows).
  destruct (paper_sigma _ _ _ _ _) as [[[s0 r0] d0]|] eqn:E; [|discriminate].
  intros H. injection H as <- <- <- <- <-. split; [reflexivity|exact E].
Qed.

Lemma solve_some weighted all nf order freq rows :
  (nf + 2 * order < List.length rows)%nat -> (weighted = true -> 0 < rsum (map d_w rows)) ->
  exists x, solve lstsq hgfit weighted all nf order freq rows = Some x.
Proof.
  intros Hn Hw. unfold solve. set (c0 := weighted_lstsq _ _ _ _).
  unfold paper_sigma. destruct (_ <=? 0)%Z eqn:E; [lia|].
  destruct weighted; [|eauto]. destruct (Rle_dec _ _) as [C|C]; [|eauto]. specialize (Hw eq_refl). lra.
Qed.

Lemma clip_loop_inv weighted clip all nf order freq : forall k rows r, sub rows all ->
  clip_loop lstsq hgfit k weighted clip all nf order freq rows = Some r ->
  r_freq r = freq /\ r_order r = order /\ r_npar r = (nf + 2 * order)%nat /\ (r_npar r < r_nfit r)%nat /\
  (r_nfit r + r_nclip r = List.length all)%nat /\
  exists kept, sub kept rows /\ List.length kept = r_nfit r /\
    paper_sigma (map (residual (r_coeffs r) order freq) kept) (if weighted then Some (map d_w kept) else None)
                (List.length all) (r_nfit r) (r_npar r) = Some (r_sigma r, r_rss r, r_df r) /\
    ((forall d, In d kept -> Rabs (residual (r_coeffs r) order freq d) <= clip * r_sigma r) \/
     (List.length kept + k <= List.length rows)%nat).
Proof.
  induction k as [|k IH]; intros rows r Hs; cbn [clip_loop];
    (destruct (Nat.leb (List.length rows) (nf + 2 * order)) eqn:L; [discriminate|]); apply Nat.leb_gt in L;
    (destruct (solve _ _ _ _ _ _ _ _) as [[[[[c res] s] rss] df]|] eqn:E; [|discriminate]);
    destruct (solve_inv _ _ _ _ _ _ _ _ _ _ _ E) as [-> P]; pose proof (sub_length _ _ Hs) as Hl.
  - intros H. injection H as <-. cbn. repeat (split; [first [reflexivity|lia]|]).
    exists rows. split; [apply sub_refl|]. split; [reflexivity|]. split; [exact P|]. right. lia.
  - destruct (forallb _ _) eqn:F.
    + intros H. injection H as <-. cbn. repeat (split; [first [reflexivity|lia]|]).
      exists rows. split; [apply sub_refl|]. split; [reflexivity|]. split; [exact P|]. left.
      intros d Hd. rewrite map_map in F. rewrite forallb_forall in F.
      apply rle_true. apply F. exact (in_map (fun d => rle (Rabs (residual c order freq d)) (clip * s)) rows d Hd).
    + intros H.
      assert (LM : List.length (map (fun r => rle (Rabs r) (clip * s)) (map (residual c order freq) rows)) = List.length rows)
        by (rewrite !map_length; reflexivity).
      pose proof (masked_sub _ rows LM) as M. pose proof (masked_shorter _ rows LM F) as MS.
      destruct (IH _ _ (sub_trans _ _ _ M Hs) H) as (A1 & A2 & A3 & A4 & A5 & kept & B1 & B2 & B3 & B4).
      repeat (split; [assumption|]). exists kept. split; [exact (sub_trans _ _ _ B1 M)|]. split; [exact B2|]. split; [exact B3|].
      destruct B4 as [B4|B4]; [left; exact B4|right; lia].
Qed.

Lemma fit_inv weighted clip all nf order freq r :
  fit_frequency lstsq hgfit weighted clip all nf order freq = Some r ->
  r_freq r = freq /\ r_order r = order /\ r_npar r = (nf + 2 * order)%nat /\ (r_npar r < r_nfit r)%nat /\
  (r_nfit r + r_nclip r = List.length all)%nat /\
  exists kept, sub kept all /\ List.length kept = r_nfit r /\
    paper_sigma (map (residual (r_coeffs r) order freq) kept) (if weighted then Some (map d_w kept) else None)
                (List.length all) (r_nfit r) (r_npar r) = Some (r_sigma r, r_rss r, r_df r) /\
    ((forall d, In d kept -> Rabs (residual (r_coeffs r) order freq d) <= clip * r_sigma r) \/ (8 <= r_nclip r)%nat).
Proof.
  unfold fit_frequency. destruct (Nat.leb _ _); [discriminate|]. intros H.
  destruct (clip_loop_inv _ _ _ _ _ _ _ _ _ (sub_refl all) H) as (A1 & A2 & A3 & A4 & A5 & kept & B1 & B2 & B3 & B4).
  repeat (split; [assumption|]). exists kept. repeat (split; [assumption|]).
  destruct B4 as [B4|B4]; [left; exact B4|right]. lia.
Qed.

Lemma fit_none_small weighted clip all nf order freq :
  (List.length all <= nf + 2 * order)%nat -> fit_frequency lstsq hgfit weighted clip all nf order freq = None.
Proof. intros H. unfold fit_frequency. apply Nat.leb_le in H. rewrite H. reflexivity. Qed.

Lemma sq_le_rsum x l : In x l -> x * x <= rsum (map (fun r => r * r) l).
Proof.
  induction l as [|y l IH]; [intros []|]. pose proof (rsum_sq_nonneg l) as P. unfold rsum in *. cbn [map fold_right]. intros [->|H]; [lra|].
  specialize (IH H). nra.
Qed.

(* without weights nothing is clipped while the square of the limit covers the degrees of freedom *)
Lemma fit_no_clip clip all nf order freq :
  (nf + 2 * order < List.length all)%nat -> 0 <= clip -> INR (List.length all - (nf + 2 * order)) <= clip * clip ->
  exists r, fit_frequency lstsq hgfit false clip all nf order freq = Some r /\ r_nclip r = 0%nat.
Proof.
  intros Hn Hc Hd. unfold fit_frequency. pose proof Hn as Hn'. apply Nat.leb_gt in Hn'. rewrite Hn'.
  cbn [clip_loop]. rewrite Hn'.
  destruct (solve_some false all nf order freq all Hn) as [[[[[c res] s] rss] df] E]; [discriminate|]. rewrite E.
  destruct (solve_inv _ _ _ _ _ _ _ _ _ _ _ E) as [-> P].
  assert (F : forallb (fun b => b) (map (fun r => rle (Rabs r) (clip * s)) (map (residual c order freq) all)) = true).
  { rewrite forallb_forall. intros b Hb. apply in_map_iff in Hb. destruct Hb as (x & <- & Hx). apply rle_true.
    unfold paper_sigma in P. destruct (_ <=? 0)%Z eqn:Z0; [discriminate|]. injection P as P1 P2 P3.
    set (res := map (residual c order freq) all) in *.
    pose proof (sq_le_rsum x res Hx) as Q. rewrite P2 in *.
    assert (D : IZR df = INR (List.length all - (nf + 2 * order))).
    { rewrite INR_IZR_INZ. f_equal. lia. }
    rewrite P3, D in P1. set (n := INR (List.length all - (nf + 2 * order))) in *.
    assert (Np : 0 < n) by (apply lt_0_INR; lia).
    assert (R0 : 0 <= rss) by (pose proof (rsum_sq_nonneg res); lra).
    assert (R1 : 0 <= rss / n) by (apply Rmult_le_pos; [exact R0|left; apply Rinv_0_lt_compat; exact Np]).
    rewrite Rmax_left in P1 by exact R1.
    assert (S0 : 0 <= s) by (rewrite <- P1; apply sqrt_pos).
    assert (S1 : s * s = rss / n) by (rewrite <- P1; apply sqrt_sqrt; exact R1).
    apply Rsqr_incr_0_var; [|apply Rmult_le_pos; assumption]. rewrite <- Rsqr_abs. unfold Rsqr.
    replace (clip * s * (clip * s)) with (clip * clip * (s * s)) by ring. rewrite S1.
    apply Rle_trans with rss; [exact Q|].
    apply Rle_trans with (n * (rss / n)); [right; field; lra|]. apply Rmult_le_compat_r; assumption. }
  rewrite F. eexists. split; [reflexivity|]. cbn. lia.
Qed.
End Fit.

(* ---- the first smallest finite score ---- *)
Lemma argmin_some l : forall i j w, argmin_from i l = Some (j, w) ->
  (i <= j)%nat /\ nth_error l (j - i) = Some (Some w) /\ forall k v, nth_error l k = Some (Some v) -> w <= v.
Proof.
  induction l as [|o l IH]; intros i j w; cbn [argmin_from]; [discriminate|].
  destruct o as [v|].
  - destruct (argmin_from (S i) l) as [[j0 w0]|] eqn:E.
    + destruct (IH _ _ _ E) as (A & B & C). destruct (rlt w0 v) eqn:L; intros H; injection H as <- <-.
      * apply rlt_true in L. split; [lia|]. split; [replace (j0 - i)%nat with (S (j0 - S i)) by lia; exact B|].
        intros [|k] u H; [injection H as <-; lra|exact (C k u H)].
      * apply rlt_false in L. split; [lia|]. rewrite Nat.sub_diag. split; [reflexivity|].
        intros [|k] u H; [injection H as <-; lra|]. specialize (C k u H). lra.
    + intros H. injection H as <- <-. split; [lia|]. rewrite Nat.sub_diag. split; [reflexivity|].
      assert (N : forall l' i', argmin_from i' l' = None -> forall k u, nth_error l' k <> Some (Some u)).
      { clear. induction l' as [|[x|] l' IH]; intros i' H k u; [destruct k; discriminate| |].
        - cbn in H. destruct (argmin_from (S i') l') as [[? ?]|]; [destruct (rlt _ _); discriminate|discriminate].
        - destruct k; [discriminate|]. exact (IH _ H k u). }
      intros [|k] u H; [injection H as <-; lra|]. exfalso. exact (N _ _ E k u H).
  - intros H. destruct (IH _ _ _ H) as (A & B & C). split; [lia|].
    split; [replace (j - i)%nat with (S (j - S i)) by lia; exact B|]. intros [|k] u K; [discriminate|exact (C k u K)].
Qed.
Lemma argmin_none l : forall i, argmin_from i l = None -> forall k u, nth_error l k <> Some (Some u).
Proof.
  induction l as [|[x|] l IH]; intros i' H k u; [destruct k; discriminate| |].
  - cbn in H. destruct (argmin_from (S i') l) as [[? ?]|]; [destruct (rlt _ _); discriminate|discriminate].
  - destruct k; [discriminate|]. exact (IH _ H k u).
Qed.

(* ---- the best of a list of fits ---- *)
Lemma best_from l : forall b, 
  match fold_left better l b with
  | Some f => (In (Some f) l \/ b = Some f) /\ (forall g, In (Some g) l \/ b = Some g -> r_sigma f <= r_sigma g)
  | None => b = None /\ forall g, ~ In (Some g) l
  end.
Proof.
  induction l as [|x l IH]; intros b; cbn [fold_left].
  - destruct b as [f|]; [split; [right; reflexivity|]|split; [reflexivity|intros g []]].
    intros g [[]|H]. injection H as <-. lra.
  - specialize (IH (better b x)). destruct (fold_left better l (better b x)) as [f|].
    + destruct IH as [A B]. destruct x as [x|], b as [y|]; cbn [better] in *.
      * destruct (rlt (r_sigma x) (r_sigma y)) eqn:L.
        -- apply rlt_true in L. split.
           ++ destruct A as [A|A]; left; [right; exact A|left; exact A].
           ++ intros g [[H|H]|H]; [apply B; right; exact H|apply B; left; exact H|].
              injection H as <-. specialize (B x (or_intror eq_refl)). lra.
        -- apply rlt_false in L. split.
           ++ destruct A as [A|A]; [left; right; exact A|right; exact A].
           ++ intros g [[H|H]|H]; [|apply B; left; exact H|apply B; right; exact H].
              injection H as <-. specialize (B y (or_intror eq_refl)). lra.
      * split.
        -- destruct A as [A|A]; left; [right; exact A|left; exact A].
        -- intros g [[H|H]|H]; [apply B; right; exact H|apply B; left; exact H|discriminate].
      * split.
        -- destruct A as [A|A]; [left; right; exact A|right; exact A].
        -- intros g [[H|H]|H]; [discriminate|apply B; left; exact H|apply B; right; exact H].
      * split.
        -- destruct A as [A|A]; [left; right; exact A|discriminate].
        -- intros g [[H|H]|H]; [discriminate|apply B; left; exact H|discriminate].
    + destruct IH as [A B]. destruct x as [x|], b as [y|]; cbn [better] in A; try discriminate.
      * destruct (rlt _ _); discriminate.
      * split; [reflexivity|]. intros g [H|H]; [discriminate|exact (B g H)].
Qed.
Lemma best_of_some l f : best_of l = Some f -> In (Some f) l /\ forall g, In (Some g) l -> r_sigma f <= r_sigma g.
Proof.
  intros H. unfold best_of in H. pose proof (best_from l None) as P. rewrite H in P. destruct P as [[A|A] B]; [|discriminate].
  split; [exact A|]. intros g Hg. apply B. left. exact Hg.
Qed.
Lemma best_of_none l : best_of l = None -> forall g, ~ In (Some g) l.
Proof. intros H. unfold best_of in H. pose proof (best_from l None) as P. rewrite H in P. exact (proj2 P). Qed.
