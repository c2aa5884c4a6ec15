(* The statements about the rotation period estimator, proved from the inversion lemmas. *)
From Coq Require Import Reals Lra.
From Coq Require Import List String Bool Permutation Sorted.
From Verif Require Import Base ListLemmas StrOrder PhotModel PhotH RotModel RotScore RotFit RotClus RotDerive RotEst.
Import ListNotations.
Open Scope string_scope.
Open Scope list_scope.
Open Scope R_scope.
Opaque fit_with_period amplitude search fit_frequency fit_unclipped.

(* ---- the grid ---- *)
Lemma linspace_near a b n f : (2 <= n)%nat -> a < b -> a <= f <= b ->
  exists i, (i < n)%nat /\ Rabs (f - nth i (linspace a b n) 0) <= (b - a) / INR (n - 1) / 2.
Proof.
  intros Hn Hab Hf. set (m := INR (n - 1)). assert (Hm : 0 < m) by (apply lt_0_INR; lia).
  set (st := (b - a) / m). assert (Hst : 0 < st) by (apply Rdiv_lt_0_compat; lra).
  set (x := (f - a) / st + / 2).
  assert (X0 : 0 <= (f - a) / st) by (apply Rmult_le_pos; [lra|left; apply Rinv_0_lt_compat; exact Hst]).
  assert (X1 : (f - a) / st <= m).
  { apply (Rmult_le_reg_r st); [exact Hst|]. unfold Rdiv. rewrite Rmult_assoc, Rinv_l, Rmult_1_r by lra.
    unfold st. replace (m * ((b - a) / m)) with (b - a) by (field; lra). lra. }
  destruct (base_Int_part x) as [B1 B2].
  assert (Z0 : (0 <= Int_part x)%Z).
  { assert (- 1 < Int_part x)%Z; [|lia]. apply lt_IZR. unfold x in *. lra. }
  assert (Z1 : (Int_part x <= Z.of_nat (n - 1))%Z).
  { assert (Int_part x < Z.of_nat (n - 1) + 1)%Z; [|lia]. apply lt_IZR. rewrite plus_IZR, <- INR_IZR_INZ. fold m. unfold x in *. lra. }
  exists (Z.to_nat (Int_part x)). assert (L : (Z.to_nat (Int_part x) < n)%nat) by lia. split; [exact L|].
  rewrite linspace_nth by exact L. fold m. fold st. rewrite INR_IZR_INZ, Z2Nat.id by exact Z0.
  set (z := IZR (Int_part x)) in *. replace (f - (a + z * st)) with (((f - a) / st - z) * st) by (field; lra).
  rewrite Rabs_mult, (Rabs_right st) by lra. unfold Rdiv at 2. rewrite (Rmult_comm st).
  apply Rmult_le_compat_r; [lra|]. unfold x in *. apply Rabs_le. lra.
Qed.

Lemma grid_min_pos span mr mp : 0 < span -> 0 < mr -> 0 < grid_min span mr mp.
Proof.
  intros Hs Hm. assert (0 < mr / span) by (apply Rdiv_lt_0_compat; assumption). unfold grid_min. destruct mp; [|exact H].
  eapply Rlt_le_trans; [exact H|apply Rmax_l].
Qed.

Lemma build_grid_inv span mr fm sc mp freqs : build_grid span mr fm sc mp = Ok freqs ->
  0 < grid_min span mr mp < fm /\
  exists n, (2 <= n)%nat /\ freqs = linspace (grid_min span mr mp) fm n /\
    n = Z.to_nat (Z.min (grid_size span (grid_min span mr mp) fm sc) max_samples).
Proof.
  unfold build_grid. destruct (rle (grid_min span mr mp) 0) eqn:A; [discriminate|]. destruct (rle fm (grid_min span mr mp)) eqn:B; [discriminate|].
  apply rle_false in A, B. intros H. apply ok_inj in H. subst freqs. split; [lra|]. eexists. split; [|split; reflexivity].
  unfold grid_size, max_samples. lia.
Qed.

Lemma grid_range span mr fm sc mp freqs i : build_grid span mr fm sc mp = Ok freqs -> (i < List.length freqs)%nat ->
  grid_min span mr mp <= nth i freqs 0 <= fm.
Proof.
  intros H Hi. apply build_grid_inv in H. destruct H as (A & n & Hn & -> & _). rewrite linspace_length in Hi.
  apply linspace_range; [exact Hn|lra|exact Hi].
Qed.

Lemma grid_ends span mr fm sc mp freqs : build_grid span mr fm sc mp = Ok freqs ->
  (2 <= List.length freqs)%nat /\ nth 0 freqs 0 = grid_min span mr mp /\ nth (List.length freqs - 1) freqs 0 = fm.
Proof.
  intros H. apply build_grid_inv in H. destruct H as (A & n & Hn & -> & _). rewrite linspace_length. split; [exact Hn|].
  rewrite !linspace_nth by lia. assert (0 < INR (n - 1)) by (apply lt_0_INR; lia). cbn [INR]. split; [lra|field; lra].
Qed.

Lemma grid_dense span mr fm sc mp freqs f : build_grid span mr fm sc mp = Ok freqs -> 0 < span -> 0 < sc ->
  grid_capped span mr fm sc mp = false -> grid_min span mr mp <= f <= fm ->
  exists i, (i < List.length freqs)%nat /\ Rabs (f - nth i freqs 0) <= / (2 * (sc * span)).
Proof.
  intros H Hs Hsc Hcap Hf. apply build_grid_inv in H. destruct H as (A & n & Hn & -> & En). rewrite linspace_length.
  destruct (linspace_near _ fm n f Hn (proj2 A) Hf) as (i & Hi & Hd). exists i. split; [exact Hi|].
  eapply Rle_trans; [exact Hd|]. set (a := grid_min span mr mp) in *.
  unfold grid_capped in Hcap. fold a in Hcap.
  assert (C1 : rle a 0 = false) by (apply rle_false; lra). assert (C2 : rle fm a = false) by (apply rle_false; lra).
  rewrite C1, C2 in Hcap. cbn [orb] in Hcap. apply Z.ltb_ge in Hcap. rewrite Z.min_l in En by exact Hcap.
  assert (D : sc * span * (fm - a) <= INR (n - 1)).
  { destruct (Rceil_spec (sc * span * (fm - a))) as [R _]. eapply Rle_trans; [exact R|]. rewrite INR_IZR_INZ. apply IZR_le.
    unfold grid_size in En. lia. }
  assert (P : 0 < INR (n - 1)) by (apply lt_0_INR; lia). assert (Q : 0 < sc * span) by (apply Rmult_lt_0_compat; assumption).
  set (m := INR (n - 1)) in *. set (q := sc * span) in *.
  apply (Rmult_le_reg_r (2 * q * m)); [nra|].
  replace ((fm - a) / m / 2 * (2 * q * m)) with (q * (fm - a)) by (field; lra).
  replace (/ (2 * q) * (2 * q * m)) with m by (field; lra). exact D.
Qed.

Lemma options_inv o : options_ok o = true -> 0 < clip_sigma o /\ 0 < min_rotations o /\ 0 < max_frequency o /\ 0 < grid_scale o /\
  (forall p, max_period o = Some p -> 0 < p).
Proof.
  unfold options_ok. rewrite !andb_true_iff, !negb_true_iff, !rle_false. intros ((((((A & B) & C) & D) & E) & _) & _).
  repeat (split; [assumption|]). intros p Hp. rewrite Hp in E. apply negb_true_iff, rle_false in E. exact E.
Qed.

Section Est.
Variable lstsq : list (list R) -> list R -> list R.
Variable hgfit : R -> R -> R * R.
Variable f_cdf : R -> Z -> Z -> R.
Variable f_ppf : R -> Z -> Z -> option R.
Variable light : R.
Let est := estimate lstsq hgfit f_cdf f_ppf light.

Lemma code_single v : code_of v = "3" <-> v = "single_period".
Proof. unfold code_of. destruct (String.eqb_spec v "single_period"); [tauto|]. destruct (String.eqb v "period_family"); split; intros; try discriminate; contradiction. Qed.

(* the three verdicts *)
Lemma verdict_cases o l r : est o l = Ok r ->
  In (p_verdict r, p_code r) [("single_period", "3"); ("period_family", "2"); ("insufficient_data", "1")] /\
  (p_reliable r = true <-> p_verdict r = "single_period") /\
  (p_valid r = true <-> p_verdict r <> "insufficient_data") /\
  (p_verdict r = "insufficient_data" -> p_reasons r <> []).
Proof.
  intros H. apply estimate_inv in H. destruct H as (_ & _ & [(_ & rs & nfil & ns & Hr & _ & ->)|(_ & freqs & all & nf & sol & half & v & S)]).
  - cbn. split; [auto|]. split; [split; discriminate|]. split; [split; [discriminate|congruence]|auto].
  - destruct S as (_ & _ & _ & _ & _ & _ & EV & _ & _ & E1 & E2 & E3 & E4 & E5 & _).
    rewrite E1, E2, E3, E4, E5. clear E1 E2 E3 E4 E5.
    set (v0 := classify _ _ _ _ _ _ _ _ _) in EV. assert (C0 := classify_cases (p_snr r) (p_coverage r) (p_rotations r) (min_rotations o)
      (List.length (s_clusters sol)) (w_doubled (s_chosen sol)) (count_sufficient (map band l)) (s_reliable sol) (claim_doubled o)).
    cbv zeta in C0. fold v0 in C0. clearbody v0.
    assert (K : (fst (fst v) = "insufficient_data" /\ snd v <> []) \/ fst (fst v) = "period_family" \/ fst (fst v) = "single_period").
    { assert (K0 : (fst (fst v0) = "insufficient_data" /\ snd v0 <> []) \/ fst (fst v0) = "period_family" \/ fst (fst v0) = "single_period") by tauto.
      assert (K1 : forall p, let w := guard_long p v0 in (fst (fst w) = "insufficient_data" /\ snd w <> []) \/ fst (fst w) = "period_family" \/ fst (fst w) = "single_period").
      { intros p. cbv zeta. destruct (guard_long_cases p v0) as [[-> _]|[X _]]; auto. }
      match type of EV with v = guard_half ?a ?b ?c ?d ?w => specialize (K1 (w_period (s_chosen sol))); cbv zeta in K1; destruct (guard_half_cases a b c d w) as [[X _]|[X _]] end;
        rewrite <- EV in X; [rewrite X; exact K1|auto]. }
    clear EV C0 v0. destruct K as [[-> K]|[-> | ->]]; cbn.
    + split; [auto|]. split; [split; discriminate|]. split; [split; [discriminate|congruence]|auto].
    + split; [auto|]. split; [split; discriminate|]. split; [split; [discriminate|reflexivity]|discriminate].
    + split; [auto|]. split; [split; reflexivity|]. split; [split; [discriminate|reflexivity]|discriminate].
Qed.

Lemma count_inv l : count_sufficient l = true -> exists b, (30 <= List.length (filter (String.eqb b) l))%nat.
Proof. unfold count_sufficient. intros H. apply existsb_exists in H. destruct H as (b & _ & H). apply Nat.leb_le in H. eauto. Qed.

Lemma sel_map {A} (f : A -> string) b (l : list A) : List.length (filter (String.eqb b) (map f l)) = List.length (filter (fun o => String.eqb b (f o)) l).
Proof. induction l; cbn; [reflexivity|]. destruct (String.eqb b (f a)); cbn; rewrite IHl; reflexivity. Qed.

(* what the verdict of a single period promises *)
Lemma single_spec o l r : est o l = Ok r -> p_verdict r = "single_period" -> covered light l * eps64 <= min_rotations o ->
  exists p lo hi snr cov, p_days r = Some p /\ 0 < p /\ p * 24 <= 240 /\
    p_snr r = Some snr /\ 3 <= snr /\ p_coverage r = Some cov /\ 7 / 10 <= cov /\
    p_rotations r = Some (covered light l / p) /\ min_rotations o <= covered light l / p /\
    p_alternates r = [] /\ p_aliases r = Some 1%nat /\ p_reasons r = [] /\
    (exists b, (30 <= List.length (filter (fun ob => String.eqb b (band ob)) l))%nat) /\
    p_lower r = Some lo /\ p_upper r = Some hi /\ Rabs (lo - p) <= Rmax (2 * p) (7 / 24) /\ Rabs (hi - p) <= Rmax (2 * p) (7 / 24) /\
    (p_doubled r = true -> claim_doubled o = true /\ In "doubled_fold_assumed" (p_flags r)).
Proof.
  intros H V EPS. apply estimate_inv in H. destruct H as (OK & _ & [(_ & rs & nfil & ns & Hr & _ & ->)|(SP & freqs & all & nf & sol & half & v & S)]); [discriminate|].
  destruct S as (S1 & S2 & S3 & S4 & S5 & S6 & EV & S7 & E0 & E1 & E2 & E3 & E4 & E5 & E6 & E7 & E8 & E9 & E10 & E11 & E12 & E13 & E14 & E15 & E16 & E17 & E18 & E19 & E20 & (fl & E21 & _) & _).
  rewrite V in E1. symmetry in E1.
  assert (C0 := classify_cases (p_snr r) (p_coverage r) (p_rotations r) (min_rotations o)
      (List.length (s_clusters sol)) (w_doubled (s_chosen sol)) (count_sufficient (map band l)) (s_reliable sol) (claim_doubled o)).
  cbv zeta in C0. set (v0 := classify _ _ _ _ _ _ _ _ _) in *.
  match type of EV with v = guard_half ?a ?b ?c ?d ?w => destruct (guard_half_cases a b c d w) as [[X _]|[X _]] end; rewrite <- EV in X; [|congruence].
  destruct (guard_long_cases (w_period (s_chosen sol)) v0) as [[Y L]|[Y _]]; [|rewrite X in E1; congruence].
  rewrite Y in X. clear EV. subst v. rewrite E1 in *. specialize (L eq_refl).
  destruct C0 as [[C0 _]|((snr & C1 & C1') & _ & (rot & C2 & C2') & C3 & [C4|(_ & C5 & C6 & (cov & C7 & C7') & C8 & C9)])]; try discriminate.
  destruct (options_inv _ OK) as (_ & MR & _).
  assert (FR : forall i, (i < List.length freqs)%nat -> eps64 <= nth i freqs 0).
  { intros i Hi. destruct (grid_range _ _ _ _ _ _ i S1 Hi) as [G _]. eapply Rle_trans; [|exact G].
    apply Rle_trans with (min_rotations o / covered light l).
    - apply (Rmult_le_reg_r (covered light l)); [exact SP|]. unfold Rdiv. rewrite Rmult_assoc, Rinv_l, Rmult_1_r by lra. lra.
    - unfold grid_min. destruct (max_period o); [apply Rmax_l|lra]. }
  destruct (derive_spec _ _ _ _ _ _ _ _ _ _ FR S6) as (ch & i & bf & _ & _ & _ & _ & _ & _ & (others & D1 & D2) & _ & _ & D3 & _).
  specialize (D3 C6).
  assert (PC : In (s_primary sol) (s_clusters sol)) by (apply (Permutation_in _ D2); left; reflexivity).
  destruct (D3 _ PC) as [D4 D5].
  set (p := w_period (s_chosen sol)) in *.
  rewrite C2 in E17. destruct (rlt 0 p) eqn:PP; [|discriminate]. apply rlt_true in PP. injection E17 as E17. subst rot.
  pose proof (Permutation_length D2) as PL. cbn [List.length] in PL.
  assert (NO : others = []) by (clear -PL C5; destruct others; [reflexivity|cbn in PL; lia]). subst others. cbn in PL, D1.
  exists p, (c_lo (s_primary sol)), (c_hi (s_primary sol)), snr, cov.
  split; [exact E0|]. split; [exact PP|]. split; [exact L|]. split; [exact C1|]. split; [exact C1'|]. split; [exact C7|]. split; [exact C7'|].
  split; [exact C2|]. split; [exact C2'|]. split; [congruence|]. split; [rewrite E12, <- PL; reflexivity|]. split; [congruence|].
  split. { destruct (count_inv _ C3) as (b & Hb). exists b. rewrite <- sel_map. exact Hb. }
  split; [exact E6|]. split; [exact E7|]. split; [exact D4|]. split; [exact D5|].
  intros DD. rewrite E16 in DD. destruct (C8 DD) as [C10 C11]. split; [exact C10|]. rewrite E21. apply in_or_app. left. exact C11.
Qed.

(* the interval around the period *)
Lemma interval_spec o l r p : est o l = Ok r -> p_days r = Some p -> covered light l * eps64 <= min_rotations o ->
  exists lo hi, p_lower r = Some lo /\ p_upper r = Some hi /\ lo <= p <= hi /\
    (forall q, In q (p_alternates r) -> q < lo \/ hi < q) /\
    p_relunc r = (if rle p 0 then None else Some (Rmax (p - lo) (hi - p) / p)) /\
    p_aliases r = Some (S (List.length (p_alternates r))).
Proof.
  intros H HP EPS. apply estimate_inv in H. destruct H as (OK & _ & [(_ & rs & nfil & ns & Hr & _ & ->)|(SP & freqs & all & nf & sol & half & v & S)]); [discriminate|].
  destruct S as (S1 & S2 & S3 & S4 & S5 & S6 & EV & S7 & E0 & E1 & E2 & E3 & E4 & E5 & E6 & E7 & E8 & E9 & E10 & E11 & E12 & _).
  assert (p = w_period (s_chosen sol)) by congruence. subst p.
  assert (FR : forall i, (i < List.length freqs)%nat -> eps64 <= nth i freqs 0).
  { intros i Hi. destruct (grid_range _ _ _ _ _ _ i S1 Hi) as [G _]. eapply Rle_trans; [|exact G].
    apply Rle_trans with (min_rotations o / covered light l).
    - apply (Rmult_le_reg_r (covered light l)); [exact SP|]. unfold Rdiv. rewrite Rmult_assoc, Rinv_l, Rmult_1_r by lra. lra.
    - unfold grid_min. destruct (max_period o); [apply Rmax_l|lra]. }
  destruct (derive_spec _ _ _ _ _ _ _ _ _ _ FR S6) as (ch & i & bf & _ & _ & _ & _ & _ & D1 & (others & D2 & D3) & D4 & _ & _ & D5 & _).
  exists (c_lo (s_primary sol)), (c_hi (s_primary sol)). split; [exact E6|]. split; [exact E7|]. split; [exact D1|].
  split; [rewrite E9; exact D4|]. split.
  - rewrite E8, D5. unfold rel_uncertainty. destruct (rle _ 0); [reflexivity|]. rewrite !Rabs_right by lra. reflexivity.
  - rewrite E12, E9, D2, map_length, <- (Permutation_length D3). reflexivity.
Qed.

(* the reported period comes from a frequency of the grid *)
Lemma period_range o l r p : est o l = Ok r -> p_days r = Some p ->
  let k := if p_doubled r then 2 else 1 in
  k / max_frequency o <= p /\ p <= k * (covered light l / min_rotations o) /\
  forall m, max_period o = Some m -> p * 24 <= k * m.
Proof.
  intros H HP. apply estimate_inv in H. destruct H as (OK & _ & [(_ & rs & nfil & ns & Hr & _ & ->)|(SP & freqs & all & nf & sol & half & v & S)]); [discriminate|].
  destruct S as (S1 & S2 & S3 & S4 & S5 & S6 & EV & S7 & E0 & E1 & E2 & E3 & E4 & E5 & E6 & E7 & E8 & E9 & E10 & E11 & E12 & E13 & E14 & E15 & E16 & _).
  assert (p = w_period (s_chosen sol)) by congruence. subst p. cbv zeta. rewrite E16.
  unfold derive in S6. cbv zeta in S6. destruct (select_order _ _) as [ch|]; [|discriminate]. destruct (argmin_from _ _) as [[best w]|]; [|discriminate].
  destruct (nth_error _ best) as [[bf|]|] eqn:B; try discriminate. apply ok_inj in S6.
  assert (CH : s_chosen sol = fit_with_period bf) by (rewrite S6; reflexivity). rewrite CH, fwp_period. clear S6 CH.
  apply fits_nth in B. destruct B as [HL B]. apply fit_inv in B. destruct B as (B & _). rewrite B.
  destruct (grid_range _ _ _ _ _ _ best S1 HL) as [G1 G2]. set (f := nth best freqs 0) in *.
  destruct (options_inv _ OK) as (_ & MR & MF & _ & MP).
  pose proof (grid_min_pos (covered light l) (min_rotations o) (max_period o) SP MR) as GP.
  set (k := if w_doubled (fit_with_period bf) then 2 else 1). assert (Hk : 0 <= k) by (unfold k; destruct (w_doubled (fit_with_period bf)); lra). clearbody k.
  assert (Q : 0 < min_rotations o / covered light l) by (apply Rdiv_lt_0_compat; assumption).
  split; [apply div_le_div; lra|]. split.
  - apply Rle_trans with (k / (min_rotations o / covered light l)).
    + apply div_le_div; [exact Hk|exact Q|]. eapply Rle_trans; [|exact G1]. unfold grid_min. destruct (max_period o); [apply Rmax_l|lra].
    + right. field. lra.
  - intros m Hm. assert (M0 := MP m Hm). assert (G3 : 24 / m <= f). { eapply Rle_trans; [|exact G1]. unfold grid_min. rewrite Hm. apply Rmax_r. }
    assert (0 < 24 / m) by (apply Rdiv_lt_0_compat; lra).
    pose proof (div_le_div k _ _ Hk H G3) as D. replace (k * m) with (k / (24 / m) * 24) by (field; lra). lra.
Qed.

(* the counts *)
Lemma counts_spec o l r : est o l = Ok r -> p_nobs r = List.length l /\
  (p_days r = None -> p_nfit r = 0%nat /\ p_nclip r = 0%nat /\ p_verdict r = "insufficient_data") /\
  (forall p, p_days r = Some p -> (p_nfit r + p_nclip r = List.length l)%nat /\
     exists k s, p_order r = Some k /\ In k (match orders o with [] => profile_orders | ks => ks end) /\
       p_sigma r = Some s /\ 0 <= s /\ (n_fixed (p_offsets r) (pairs l) + 2 * k < p_nfit r)%nat).
Proof.
  intros H. apply estimate_inv in H. destruct H as (OK & _ & [(_ & rs & nfil & ns & Hr & _ & ->)|(SP & freqs & all & nf & sol & half & v & S)]).
  { cbn. split; [reflexivity|]. split; [auto|discriminate]. }
  destruct S as (S1 & S2 & S3 & S4 & S5 & S6 & EV & S7 & E0 & E1 & E2 & E3 & E4 & E5 & E6 & E7 & E8 & E9 & E10 & E11 & E12 & E13 & E14 & E15 & E16 & _).
  split; [exact E13|]. split; [congruence|]. intros p _.
  unfold derive in S6. cbv zeta in S6. destruct (select_order _ _) as [ch|] eqn:SE; [|discriminate]. destruct (argmin_from _ _) as [[best w]|]; [|discriminate].
  destruct (nth_error _ best) as [[bf|]|] eqn:B; try discriminate. apply ok_inj in S6.
  assert (CH : s_chosen sol = fit_with_period bf) by (rewrite S6; reflexivity). rewrite CH, fwp_fit in *. clear S6 CH.
  apply fits_nth in B. destruct B as [HL B]. apply fit_inv in B. destruct B as (B1 & B2 & B3 & B4 & B5 & kept & _ & _ & B6 & _).
  destruct (select_spec _ _ _ SE) as (lo & hi & L & _).
  assert (IC : In ch (lo ++ ch :: hi)) by apply in_elt. rewrite <- L in IC. apply cand_in in IC. destruct IC as [IC _].
  apply paper_sigma_inv in B6. destruct B6 as (_ & _ & B6).
  split; [rewrite E14, E15, B5; exact S2|]. exists (r_order bf), (r_sigma bf). split; [exact E10|]. split; [rewrite B2; apply used_orders_in; exact IC|].
  split; [exact E11|]. split; [exact B6|]. rewrite E14, B2, <- S3, <- B3. exact B4.
Qed.

(* sessions in use and too few observations: no period *)
Lemma sessions_few o l : has_sessions l = true -> mode o <> Ignore ->
  (forall k, In k (match orders o with [] => profile_orders | ks => ks end) -> (List.length l <= n_fixed true (pairs l) + 2 * k)%nat) ->
  forall r, est o l = Ok r -> p_days r = None /\ early_exit o = true.
Proof.
  intros HS HM HF r H. apply estimate_inv in H. destruct H as (OK & _ & [(EE & rs & nfil & ns & Hr & _ & ->)|(SP & freqs & all & nf & sol & half & v & S)]).
  { split; [reflexivity|exact EE]. }
  exfalso. destruct S as (_ & _ & _ & _ & S5 & _). destruct (S5 HS HM) as (s & data & LD & D).
  rewrite derive_few in D; [discriminate|]. intros k Hk. rewrite LD. apply HF. apply used_orders_in. exact Hk.
Qed.

Lemma estimate_errors o l e : est o l = Err e -> e = ValueError.
Proof.
  unfold est, estimate. destruct (options_ok o); cbn [negb]; [|congruence].
  destruct (validate l) as [vs|e0] eqn:V; cbn [bind].
  2:{ unfold validate in V. destruct l; [congruence|]. destruct (all_some _); [discriminate|congruence]. }
  cbv zeta. match goal with |- context [match ?p with [] => _ | _ :: _ => _ end = _] => destruct p; [|discriminate] end.
  destruct (rle _ 0); [congruence|].
  match goal with |- context [build_grid ?a ?b ?c ?d ?e] => destruct (build_grid a b c d e) as [freqs|e0] eqn:BG end; cbn [bind].
  2:{ unfold build_grid in BG. destruct (rle _ 0); [congruence|]. destruct (rle _ _); congruence. }
  match goal with |- context [bind (derive ?a ?b ?c ?d ?e ?f ?g ?h ?i) _] => destruct (derive a b c d e f g h i) as [bsol|e0] eqn:DB end; cbn [bind].
  2:{ apply derive_err in DB. congruence. }
  destruct (existsb _ vs && _); cbn [bind].
  - match goal with |- context [bind (derive ?a ?b ?c ?d ?e ?f ?g ?h ?i) _] => destruct (derive a b c d e f g h i) as [ssol|e0] eqn:DS end; cbn [bind].
    2:{ apply derive_err in DS. congruence. }
    destruct (mode o); cbn [bind]; [| |]; try discriminate; match goal with |- context [if ?b then _ else _] => destruct b end; cbn [bind]; discriminate.
  - discriminate.
Qed.
End Est.
