(* Scoring, verdict, grid, coverage and clipping lemmas of the rotation period search. *)
From Coq Require Import Reals Lra.
From Coq Require Import List String Bool.
From Verif Require Import Base StrOrder PhotModel RotModel.
Import ListNotations.
Open Scope string_scope.
Open Scope list_scope.
Open Scope R_scope.

Lemma rle_true x y : rle x y = true <-> x <= y.
Proof. unfold rle. destruct (Rle_dec x y); split; intros; auto; discriminate || contradiction. Qed.
Lemma rle_false x y : rle x y = false <-> y < x.
Proof. unfold rle. destruct (Rle_dec x y); split; intros; auto; try discriminate; lra. Qed.
Lemma rlt_true x y : rlt x y = true <-> x < y.
Proof. unfold rlt. destruct (Rlt_dec x y); split; intros; auto; discriminate || contradiction. Qed.
Lemma rlt_false x y : rlt x y = false <-> y <= x.
Proof. unfold rlt. destruct (Rlt_dec x y); split; intros; auto; try discriminate; lra. Qed.

(* ---- scoring ---- *)
Lemma argmin_factor_spec f l : forall x, In (argmin_factor f x l) (x :: l) /\ forall y, In y (x :: l) -> f (argmin_factor f x l) <= f y.
Proof.
  induction l as [|y r IH]; intros x; cbn [argmin_factor].
  - split; [left; reflexivity|]. intros y [<-|[]]. lra.
  - destruct (rlt (f y) (f x)) eqn:E.
    + destruct (IH y) as [A B]. split.
      * right. exact A.
      * intros z [<-|Hz]; [|exact (B z Hz)]. apply rlt_true in E. specialize (B y (or_introl eq_refl)). lra.
    + destruct (IH x) as [A B]. split.
      * destruct A as [A|A]; [left; exact A|right; right; exact A].
      * apply rlt_false in E. intros z [<-|[<-|Hz]]; [exact (B x (or_introl eq_refl))| |exact (B z (or_intror Hz))].
        specialize (B x (or_introl eq_refl)). lra.
Qed.

Lemma harmonic_spec p_rec p_true :
  let '(e, f) := harmonic_error p_rec p_true in
  In f harmonic_factors /\ e = 100 * (Rabs (p_rec * f - p_true) / p_true) /\
  forall g, In g harmonic_factors -> e <= 100 * (Rabs (p_rec * g - p_true) / p_true).
Proof.
  unfold harmonic_error.
  pose proof (argmin_factor_spec (fun f => Rabs (p_rec * f - p_true) / p_true) (tl harmonic_factors) (1 / 4)) as [A B].
  set (b := argmin_factor _ _ _) in *. clearbody b.
  split; [exact A|]. split; [reflexivity|]. intros g Hg. specialize (B g Hg). lra.
Qed.

Lemma bucket_label factor : In factor harmonic_factors -> alias_bucket factor <> "other".
Proof.
  intros H. unfold alias_bucket, bucket_labels.
  repeat (destruct H as [<-|H]); [..|destruct H];
  repeat (cbn [find fst snd]; match goal with
    | |- context [rle (Rabs (?a - ?b)) ?c] =>
        let E := fresh in
        first [ assert (E : rle (Rabs (a - b)) c = true) by (apply rle_true; unfold Rabs; destruct (Rcase_abs (a - b)); lra)
              | assert (E : rle (Rabs (a - b)) c = false) by (apply rle_false; unfold Rabs; destruct (Rcase_abs (a - b)); lra) ];
        rewrite E; clear E
    end); discriminate.
Qed.

(* a recovered period equal to the truth is flagged exactly when one cycle per day is within the tolerance *)
Lemma near_self p tol : 0 < p -> near_day_alias p p tol = true <-> p / 24 <= tol.
Proof.
  intros Hp. unfold near_day_alias.
  assert (E : rle p 0 = false) by (apply rle_false; exact Hp). rewrite !E. cbn [orb].
  assert (Hf : 0 < 24 / p) by (apply Rdiv_lt_0_compat; lra).
  assert (K : forall n, 0 < n -> Rabs n / (24 / p) = n * (p / 24)).
  { intros n Hn. rewrite Rabs_right by lra. field. lra. }
  assert (Q : 0 < p / 24) by lra.
  split.
  - cbn [existsb]. intros H. apply orb_prop in H.
    assert (S : forall a n, 1 <= n -> Rabs (24 / p - a) = Rabs n ->
                negb (rle a 0) && rle (Rabs (24 / p - a) / (24 / p)) tol = true -> p / 24 <= tol).
    { intros a n Hn Ha Hb. apply andb_prop in Hb. destruct Hb as [_ Hb]. apply rle_true in Hb.
      rewrite Ha, K in Hb by lra. nra. }
    destruct H as [H|H]; [apply (S _ 1) in H; [exact H|lra|]|].
    { replace (24 / p - (24 / p + 1)) with (- (1)) by ring. apply Rabs_Ropp. }
    apply orb_prop in H. destruct H as [H|H]; [apply (S _ 1) in H; [exact H|lra|f_equal; ring]|].
    apply orb_prop in H. destruct H as [H|H]; [apply (S _ 2) in H; [exact H|lra|]|].
    { replace (24 / p - (24 / p + 2)) with (- (2)) by ring. apply Rabs_Ropp. }
    apply orb_prop in H. destruct H as [H|H]; [apply (S _ 2) in H; [exact H|lra|f_equal; ring]|discriminate].
  - intros H. cbn [existsb]. apply orb_true_intro. left. apply andb_true_intro. split.
    + apply negb_true_iff, rle_false. lra.
    + apply rle_true. replace (24 / p - (24 / p + 1)) with (- (1)) by ring. rewrite Rabs_Ropp, K by lra. lra.
Qed.

(* ---- the verdict ---- *)
Lemma emitted_nil l : emitted l = [] -> forall b s, In (b, s) l -> b = false.
Proof.
  unfold emitted. intros H b s Hin. destruct b; [|reflexivity]. exfalso.
  assert (X : In (true, s) (filter fst l)) by (apply filter_In; auto).
  apply (in_map snd) in X. rewrite H in X. destruct X.
Qed.

Lemma below_min_false v t : below_min v t = false -> exists x, v = Some x /\ t <= x.
Proof. destruct v as [x|]; cbn; [|discriminate]. intros H. apply rlt_false in H. eauto. Qed.
Lemma at_least_true v t : at_least v t = true -> exists x, v = Some x /\ t <= x.
Proof. destruct v as [x|]; cbn; [|discriminate]. intros H. apply rle_true in H. eauto. Qed.

Lemma classify_cases snr cov rot mr n d c r cl :
  let v := classify snr cov rot mr n d c r cl in
  (fst (fst v) = "insufficient_data" /\ snd v <> []) \/
  ((exists x, snr = Some x /\ 3 <= x) /\ (exists x, cov = Some x /\ 1 / 2 <= x) /\ (exists x, rot = Some x /\ mr <= x) /\ c = true /\
   (fst (fst v) = "period_family" \/
    fst (fst v) = "single_period" /\ (n < 2)%nat /\ r = true /\ (exists x, cov = Some x /\ 7 / 10 <= x) /\
    (d = true -> cl = true /\ In "doubled_fold_assumed" (snd (fst v))) /\ snd v = [])).
Proof.
  cbv zeta. unfold classify.
  match goal with |- context [match ?g with [] => _ | _ :: _ => _ end] => destruct g as [|g0 gs] eqn:E end; [right|left; cbn; split; [reflexivity|discriminate]].
  pose proof (emitted_nil _ E) as N.
  assert (N1 : below_min snr 3 = false) by (eapply N; left; reflexivity).
  assert (N2 : below_min cov (1 / 2) = false) by (eapply N; right; left; reflexivity).
  assert (N3 : below_min rot mr = false) by (eapply N; right; right; left; reflexivity).
  assert (N4 : negb c = false) by (eapply N; right; right; right; left; reflexivity).
  apply below_min_false in N1, N2, N3. apply negb_false_iff in N4.
  repeat (split; [assumption|]).
  cbn [fst snd].
  destruct (Nat.leb 2 n) eqn:En; cbn [negb andb]; [left; reflexivity|].
  apply Nat.leb_gt in En.
  destruct (at_least cov (7 / 10)) eqn:Ec.
  2:{ left. rewrite !andb_false_r. reflexivity. }
  apply at_least_true in Ec.
  destruct d, cl, r; cbn; try (left; reflexivity); right;
    repeat (split; [first [reflexivity|exact En|exact Ec|assumption]|]);
    (split; [intros H; first [discriminate H | split; [reflexivity|first [apply in_or_app | right; apply in_or_app]; right; left; reflexivity]]|reflexivity]).
Qed.

Lemma guard_long_cases p v :
  (guard_long p v = v /\ (fst (fst v) = "single_period" -> p * 24 <= 240)) \/
  (fst (fst (guard_long p v)) = "period_family" /\ snd (guard_long p v) <> []).
Proof.
  unfold guard_long. destruct (String.eqb (fst (fst v)) "single_period" && rlt 240 (p * 24)) eqn:E.
  - right. cbn. split; [reflexivity|]. destruct (snd v); discriminate.
  - left. split; [reflexivity|]. intros H. rewrite H in E. cbn in E. apply rlt_false in E. exact E.
Qed.

Lemma guard_half_cases p f0 s h v :
  (guard_half p f0 s h v = v /\
   (fst (fst v) = "single_period" -> 0 < p -> 1 / 2 / p < f0 -> forall x, h = Some x -> s <= r_sigma x)) \/
  (fst (fst (guard_half p f0 s h v)) = "period_family" /\ snd (guard_half p f0 s h v) <> []).
Proof.
  unfold guard_half. destruct (String.eqb (fst (fst v)) "single_period" && rlt 0 p && rlt (1 / 2 / p) f0) eqn:E.
  - destruct h as [x|].
    + destruct (rlt (r_sigma x) s) eqn:L.
      * right. cbn. split; [reflexivity|]. destruct (snd v); discriminate.
      * left. split; [reflexivity|]. intros _ _ _ y Hy. injection Hy as <-. apply rlt_false in L. exact L.
    + left. split; [reflexivity|]. intros; discriminate.
  - left. split; [reflexivity|]. intros H Hp Hf. exfalso. rewrite H in E. cbn in E.
    apply rlt_true in Hp. apply rlt_true in Hf. rewrite Hp, Hf in E. discriminate.
Qed.

(* ---- sigma with equal weights ---- *)
Lemma rsum_scale w l : rsum (map (fun r => w * (r * r)) l) = w * rsum (map (fun r => r * r) l).
Proof. induction l; cbn; [ring|]. unfold rsum in *. rewrite IHl. ring. Qed.
Lemma combine_const (w : R) (l : list R) :
  map (fun p => fst p * (snd p * snd p)) (combine (map (fun _ => w) l) l) = map (fun r => w * (r * r)) l.
Proof. induction l; cbn; [reflexivity|]. f_equal. exact IHl. Qed.
Lemma rsum_const w (l : list R) : rsum (map (fun _ => w) l) = INR (List.length l) * w.
Proof. induction l; [cbn; ring|]. cbn [map List.length rsum fold_right]. unfold rsum in IHl. rewrite IHl, S_INR. ring. Qed.
Lemma rsum_sq_nonneg l : 0 <= rsum (map (fun r => r * r) l).
Proof. induction l; cbn; [lra|]. unfold rsum in IHl. nra. Qed.

Lemma paper_sigma_equal res w n_obs n_par : 0 < w -> (n_par < List.length res)%nat ->
  exists s rss df, paper_sigma res None n_obs (List.length res) n_par = Some (s, rss, df) /\
  paper_sigma res (Some (map (fun _ => w) res)) n_obs (List.length res) n_par =
    Some (sqrt (INR n_obs / INR (List.length res)) * s, w * rss, df).
Proof.
  intros Hw Hn. unfold paper_sigma.
  destruct (Z.of_nat (List.length res) - Z.of_nat n_par <=? 0)%Z eqn:E; [lia|].
  set (df := (Z.of_nat (List.length res) - Z.of_nat n_par)%Z) in *.
  assert (Hdf : 0 < IZR df) by (apply IZR_lt; lia).
  rewrite combine_const, rsum_scale, rsum_const.
  assert (HL : 0 < INR (List.length res)) by (apply lt_0_INR; lia).
  set (L := INR (List.length res)) in *. set (q := rsum _).
  assert (Hq : 0 <= q) by apply rsum_sq_nonneg.
  destruct (Rle_dec (L * w) 0) as [C|_]; [exfalso; nra|].
  exists (sqrt (Rmax (q / IZR df) 0)), q, df. split; [reflexivity|]. f_equal. f_equal. f_equal.
  assert (Hd : 0 <= q / IZR df) by (apply Rmult_le_pos; [exact Hq|left; apply Rinv_0_lt_compat; exact Hdf]).
  assert (Hr : 0 <= INR n_obs / L) by (apply Rmult_le_pos; [apply pos_INR|left; apply Rinv_0_lt_compat; exact HL]).
  replace (INR n_obs / (L * w) * (w * q) / IZR df) with ((INR n_obs / L) * (q / IZR df)) by (field; lra).
  rewrite !Rmax_left by (first [assumption | apply Rmult_le_pos; assumption]). apply sqrt_mult; assumption.
Qed.

(* ---- the grid ---- *)
Lemma Rceil_spec x : x <= IZR (Rceil x) /\ IZR (Rceil x) < x + 1.
Proof. unfold Rceil. rewrite opp_IZR. destruct (base_Int_part (- x)). lra. Qed.

Lemma linspace_length a b n : List.length (linspace a b n) = n.
Proof. unfold linspace. rewrite map_length, seq_length. reflexivity. Qed.
Lemma linspace_nth a b n i d : (i < n)%nat -> nth i (linspace a b n) d = a + INR i * ((b - a) / INR (n - 1)).
Proof.
  intros H. pose (g := fun j : nat => a + INR j * ((b - a) / INR (n - 1))).
  change (linspace a b n) with (map g (seq 0 n)).
  rewrite (nth_indep _ d (g 0%nat)) by (rewrite map_length, seq_length; exact H).
  rewrite map_nth, seq_nth by exact H. reflexivity.
Qed.

Lemma linspace_range a b n i d : (2 <= n)%nat -> a <= b -> (i < n)%nat -> a <= nth i (linspace a b n) d <= b.
Proof.
  intros Hn Hab Hi. rewrite linspace_nth by exact Hi.
  assert (P : 0 < INR (n - 1)) by (apply lt_0_INR; lia).
  assert (I : INR i <= INR (n - 1)) by (apply le_INR; lia).
  pose proof (pos_INR i) as I0.
  replace (INR i * ((b - a) / INR (n - 1))) with ((b - a) * (INR i / INR (n - 1))) by (field; lra).
  assert (0 <= INR i / INR (n - 1)) by (apply Rmult_le_pos; [exact I0|left; apply Rinv_0_lt_compat; exact P]).
  assert (INR i / INR (n - 1) <= 1) by (apply (Rmult_le_reg_r (INR (n - 1))); [exact P|]; unfold Rdiv; rewrite Rmult_assoc, Rinv_l by lra; lra).
  nra.
Qed.

(* ---- phase coverage ---- *)
Lemma phase_bin_range t p : (0 <= phase_bin t p <= 19)%Z.
Proof. unfold phase_bin. lia. Qed.
