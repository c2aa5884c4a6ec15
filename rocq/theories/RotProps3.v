(* The automatic session mode, the early exit for few observations, and the statistics behind a rotation result. *)
From Coq Require Import Reals Lra.
From Coq Require Import List String Bool Lia Arith Permutation.
From Verif Require Import Base ListLemmas PhotModel RotModel RotScore RotFit RotClus RotDerive RotEst RotMain RotMore RotToy RotSingle RotAuto RotAutoCase RotProps.
Import ListNotations.
Open Scope string_scope.
Open Scope list_scope.
Open Scope R_scope.

(* ---- C219: the automatic mode is one of the other two ---- *)
Theorem C219_auto lstsq hgfit f_cdf f_ppf light o l r p :
  let est m := estimate lstsq hgfit f_cdf f_ppf light (with_mode m o) l in
  mode o = Auto -> estimate lstsq hgfit f_cdf f_ppf light o l = Ok r -> p_days r = Some p ->
  exists b, est Ignore = Ok b /\ p_offsets b = false /\
    if has_sessions l then
      exists s, est Use = Ok s /\ p_offsets s = true /\
        (* offsets are used only if there are sessions with enough observations *)
        (r = b \/ r = s /\ two_sessions l /\ groups_of (min_per_group o) l /\ half_long light l) /\
        (* and, for tables without complete uncertainties, exactly if the information criterion then says so *)
        ((exists ob, In ob l /\ match o_sigma ob with Some v => v <= 0 | None => True end) ->
         (r = s <-> two_sessions l /\ groups_of (min_per_group o) l /\ half_long light l /\
                    improves (bic_improvement o) (information l s) (information l b)))
    else r = b.
Proof.
  intros est MO H PD. destruct (auto_choice lstsq hgfit f_cdf f_ppf light o l r p H PD MO) as (b & B1 & B2 & _ & HS).
  exists b. split; [exact B1|]. split; [exact B2|]. destruct (has_sessions l); [|exact HS].
  destruct HS as (s & S1 & S2 & _ & S3 & S4). exists s. split; [exact S1|]. split; [exact S2|]. split.
  - destruct S3 as [S3|[S3 (E1 & E2 & E3)]]; [left; exact S3|right; auto].
  - intros (ob & Hob & C). assert (W : weighted_of l = false).
    { unfold weighted_of. rewrite weights_none; [reflexivity|]. exists (o_sigma ob). split; [apply in_map; exact Hob|exact C]. }
    rewrite (S4 W). unfold eligible. tauto.
Qed.
Print Assumptions C219_auto.
Example C219_case hgfit f_cdf f_ppf light : exists r p, estimate lstsq2 hgfit f_cdf f_ppf light options2 obs2 = Ok r /\ p_days r = Some p /\
  mode options2 = Auto /\ has_sessions obs2 = true /\ p_offsets r = true.
Proof. destruct (case2 hgfit f_cdf f_ppf light) as (r & p & A & B & C). exists r, p. auto. Qed.

Lemma bind_inv {A B} (x : result A) (f : A -> result B) y : bind x f = Ok y -> exists a, x = Ok a /\ f a = Ok y.
Proof. destruct x; cbn; [eauto|discriminate]. Qed.
(* ---- C182: when a table is called too small ---- *)
Theorem C182_few lstsq hgfit f_cdf f_ppf light o l r : estimate lstsq hgfit f_cdf f_ppf light o l = Ok r -> early_exit o = true ->
  let bands := List.length (nodup string_dec (map band l)) in
  (p_days r = None /\ In "too_few_observations" (p_reasons r) <-> (List.length l < 8)%nat \/ (List.length l < bands + 8)%nat).
Proof.
  intros H EE. revert H. unfold estimate. destruct (options_ok o); cbn [negb]; [|discriminate].
  destruct (validate l) as [vs|] eqn:V; cbn [bind]; [|discriminate].
  assert (FS : map (fun v => (v_filter v, label "__missing_session__" (v_session v))) vs = pairs l).
  { eapply validate_map; [|exact V]. intros ob v Hv. apply validate_row_inv in Hv. destruct Hv as (_ & _ & _ & -> & -> & _). reflexivity. }
  rewrite FS, bands_of, EE. cbv zeta.
  assert (NB : List.length (ordered_unique (map band l)) = List.length (nodup string_dec (map band l))).
  { apply Permutation_length. apply NoDup_Permutation; [apply uniq_NoDup; apply String.eqb_eq|apply NoDup_nodup|]. intros x. rewrite uniq_str, nodup_In. reflexivity. }
  destruct (pre_solve _ _ _ _ _ _ _ _) as [|x xs] eqn:P.
  - intros H. assert (PD : p_days r <> None).
    { destruct (rle _ 0); [discriminate|]. apply bind_inv in H. destruct H as (fr & _ & H). apply bind_inv in H. destruct H as (bs & _ & H).
      apply bind_inv in H. destruct H as (su & _ & H). apply (f_equal (fun q => match q with Ok w => match p_days w with Some _ => true | None => false end | Err _ => false end)) in H.
      cbn beta iota in H. intros C. rewrite C in H. discriminate H. }
    split; [intros [A _]; congruence|]. intros F. exfalso. unfold pre_solve in P. rewrite NB in P.
    assert (FF : Nat.ltb (List.length l) 8 || Nat.ltb (List.length l) (List.length (nodup string_dec (map band l)) + 2 * 2 + 2 + 2) = true).
    { apply orb_true_iff. rewrite !Nat.ltb_lt. lia. }
    rewrite FF in P. discriminate.
  - intros H. apply ok_inj in H. subst r. cbn [insufficient_row p_days p_reasons]. rewrite <- P. unfold pre_solve, emitted. rewrite NB, in_map_iff. split.
    + intros [_ ((b & z) & E & I)]. cbn in E. subst z. apply filter_In in I. destruct I as [[I|[I|[I|[]]]] T]; try discriminate I.
      injection I as I. cbn in T. rewrite T in I. apply orb_true_iff in I. rewrite !Nat.ltb_lt in I. lia.
    + intros F. split; [reflexivity|]. exists (true, "too_few_observations"). split; [reflexivity|]. apply filter_In. split; [|reflexivity]. left. f_equal.
      apply orb_true_iff. rewrite !Nat.ltb_lt. lia.
Qed.
Print Assumptions C182_few.

(* ---- C173: what improving upon a fit means: the ratio of the variances is unlikely by chance ---- *)
Theorem C173_confidence f_cdf c h :
  f_test f_cdf c h = (if (Nat.ltb (r_npar c) (r_npar h) && Z.ltb 0 (r_df c) && Z.ltb 0 (r_df h))%bool
                      then if Rlt_dec 0 (r_sigma h ^ 2) then if Rlt_dec (r_sigma h ^ 2) (r_sigma c ^ 2)
                           then f_cdf (r_sigma c ^ 2 / r_sigma h ^ 2) (r_df c) (r_df h) else 0 else 0 else 0).
Proof.
  unfold f_test. replace (r_sigma c ^ 2) with (r_sigma c * r_sigma c) by ring. replace (r_sigma h ^ 2) with (r_sigma h * r_sigma h) by ring.
  set (vs := r_sigma c * r_sigma c). set (vl := r_sigma h * r_sigma h). clearbody vs vl.
  rewrite Nat.ltb_antisym, !Z.ltb_antisym. destruct (Nat.leb _ _); [reflexivity|]. cbn [negb andb].
  destruct (r_df c <=? 0)%Z; [reflexivity|]. cbn [orb negb andb]. destruct (r_df h <=? 0)%Z; [reflexivity|]. cbn [orb negb].
  unfold rle. destruct (Rle_dec vs vl), (Rle_dec vl 0), (Rlt_dec 0 vl), (Rlt_dec vl vs); cbn [orb]; try reflexivity; try lra.
  destruct (Rle_dec (vs / vl) 1) as [Q|Q]; [|reflexivity]. exfalso. apply (Rmult_le_compat_r vl) in Q; [|lra].
  unfold Rdiv in Q. rewrite Rmult_assoc, Rinv_l in Q by lra. lra.
Qed.
Print Assumptions C173_confidence.

(* ---- C168: a single interval holds the period of every acceptable grid frequency ---- *)
Theorem C168_acceptable lstsq hgfit f_cdf f_ppf light o l r p : estimate lstsq hgfit f_cdf f_ppf light o l = Ok r -> p_days r = Some p ->
  covered light l * eps64 <= min_rotations o -> p_alternates r = [] ->
  exists data freqs k i f lo hi, map d_t data = elapsed light l /\ map d_y data = map reduced l /\
    build_grid (covered light l) (min_rotations o) (max_frequency o) (grid_scale o) (max_period o) = Ok freqs /\
    (i < List.length freqs)%nat /\ p_order r = Some k /\ p_sigma r = Some (r_sigma f) /\ p_lower r = Some lo /\ p_upper r = Some hi /\
    let fit j := fit_frequency lstsq hgfit (weighted_of l) (clip_sigma o) data (n_fixed (p_offsets r) (pairs l)) k (nth j freqs 0) in
    fit i = Some f /\ (0 < r_df f)%Z /\
    forall j g, (j < List.length freqs)%nat -> fit j = Some g ->
      (forall c, f_ppf (95 / 100) (r_df f) (r_df f) = Some c -> 0 < c -> r_sigma g <= r_sigma f * sqrt c) ->
      exists m, (m = 1 \/ m = 2) /\ lo <= m / nth j freqs 0 <= hi.
Proof.
  intros H HP EPS NA.
  apply estimate_inv in H. destruct H as (OK & _ & [(_ & rs & nfil & ns & Hr & _ & ->)|(SP & freqs & all & nf & sol & half & v & S)]); [discriminate|].
  destruct S as (S1 & S2 & S3 & S4 & S5 & S6 & EV & S7 & E0 & E1 & E2 & E3 & E4 & E5 & E6 & E7 & E8 & E9 & E10 & E11 & E12 & E13 & E14 & E15 & E16 & E17 & E18 & E19 & E20 & _ & _ & DT & DY & DF & _).
  assert (p = w_period (s_chosen sol)) by congruence. subst p.
  assert (FR : forall i, (i < List.length freqs)%nat -> eps64 <= nth i freqs 0).
  { intros i Hi. destruct (grid_range _ _ _ _ _ _ i S1 Hi) as [G _]. eapply Rle_trans; [|exact G].
    apply Rle_trans with (min_rotations o / covered light l).
    - apply (Rmult_le_reg_r (covered light l)); [exact SP|]. unfold Rdiv. rewrite Rmult_assoc, Rinv_l, Rmult_1_r by lra. lra.
    - unfold grid_min. destruct (max_period o); [apply Rmax_l|lra]. }
  destruct (derive_spec _ _ _ _ _ _ _ _ _ _ FR S6) as (ch & i & bf & _ & HI & HF & HC & HM & _ & (others & A1 & A2) & _ & HA & _).
  pose proof (fit_inv _ _ _ _ _ _ _ _ _ HF) as (K1 & K2 & _ & _ & _ & kept & _ & _ & K3 & _). apply paper_sigma_inv in K3. destruct K3 as (_ & K3 & _).
  rewrite HC in E10, E11. cbn [fit_with_period w_fit] in E10, E11. rewrite K2 in E10.
  exists all, freqs, (r_order ch), i, bf, (c_lo (s_primary sol)), (c_hi (s_primary sol)).
  split; [exact DT|]. split; [exact DY|]. split; [exact S1|]. split; [exact HI|]. split; [exact E10|]. split; [exact E11|]. split; [exact E6|]. split; [exact E7|].
  cbv zeta. rewrite <- S3. split; [exact HF|]. split; [exact K3|].
  intros j g Hj Hg Hs. assert (ACC : acceptable (sigma_threshold f_ppf bf) g).
  { unfold acceptable, sigma_threshold. destruct (r_df bf <=? 0)%Z; [exact I|]. destruct (f_ppf _ _ _) as [c|] eqn:Q; [|exact I].
    destruct (rle c 0) eqn:C; [exact I|]. apply rle_false in C. apply Hs; [reflexivity|exact C]. }
  destruct (HA j g Hj Hg ACC) as (c & Hc & B). rewrite E9 in NA. rewrite A1 in NA. apply map_eq_nil in NA. subst others.
  apply (Permutation_in _ (Permutation_sym A2)) in Hc. destruct Hc as [<-|[]].
  pose proof (fit_inv _ _ _ _ _ _ _ _ _ Hg) as (G1 & _). unfold fit_with_period in B. cbn [w_period] in B. rewrite G1 in B.
  destruct (Nat.eqb _ 1); [exists 2|exists 1]; auto.
Qed.
Print Assumptions C168_acceptable.
Example C168_acceptable_case hgfit f_cdf f_ppf light : exists r p, estimate lstsq40 hgfit f_cdf f_ppf light options40 obs40 = Ok r /\ p_days r = Some p /\
  covered light obs40 * eps64 <= min_rotations options40 /\ p_alternates r = [].
Proof.
  destruct (C167_case hgfit f_cdf f_ppf light) as (r & A & B & C).
  destruct (C167_single lstsq40 hgfit f_cdf f_ppf light options40 obs40 r A B C) as (p & _ & _ & _ & _ & P & _ & _ & _ & _ & _ & _ & _ & _ & N & _).
  exists r, p. auto.
Qed.

(* ---- C183: complete uncertainties give weights 1 / sigma^2 ---- *)
Theorem C183_weights lstsq hgfit f_cdf f_ppf light o l r p : estimate lstsq hgfit f_cdf f_ppf light o l = Ok r -> p_days r = Some p ->
  covered light l * eps64 <= min_rotations o ->
  (forall ob, In ob l -> exists s, o_sigma ob = Some s /\ 0 < s) ->
  exists data kept coeffs k f, map d_t data = elapsed light l /\ map d_y data = map reduced l /\
    map (fun d => Some (d_w d)) data = map (fun ob => option_map (fun s => 1 / s ^ 2) (o_sigma ob)) l /\
    sub kept data /\ p_order r = Some k /\ List.length kept = p_nfit r /\
    p_sigma r = Some (sqrt (INR (List.length l) / rsum (map d_w kept) * rsum (map (fun d => d_w d * residual coeffs k f d ^ 2) kept)
                            / INR (p_nfit r - (n_fixed (p_offsets r) (pairs l) + 2 * k)))).
Proof.
  intros H HP EPS WS.
  apply estimate_inv in H. destruct H as (OK & _ & [(_ & rs & nfil & ns & Hr & _ & ->)|(SP & freqs & all & nf & sol & half & v & S)]); [discriminate|].
  destruct S as (S1 & S2 & S3 & S4 & S5 & S6 & EV & S7 & E0 & E1 & E2 & E3 & E4 & E5 & E6 & E7 & E8 & E9 & E10 & E11 & E12 & E13 & E14 & E15 & E16 & E17 & E18 & E19 & E20 & _ & _ & DT & DY & DF & DW).
  assert (W : weighted_of l = true).
  { unfold weighted_of, weights_from_sigma. assert (X : exists v, all_some (map o_sigma l) = Some v /\ forall x, In x v -> 0 < x).
    { clear - WS. induction l as [|a l IH]; [exists []; split; [reflexivity|intros x []]|]. destruct (WS a (or_introl eq_refl)) as (s & A & B).
      destruct IH as (v & V1 & V2); [intros ob Hob; apply WS; right; exact Hob|]. exists (s :: v). cbn [map all_some]. rewrite A, V1. split; [reflexivity|].
      intros x [<-|Hx]; [exact B|apply V2; exact Hx]. }
    destruct X as (w & -> & X). assert (F : forallb (fun x => if Rlt_dec 0 x then true else false) w = true).
    { apply forallb_forall. intros x Hx. specialize (X x Hx). destruct (Rlt_dec 0 x); [reflexivity|lra]. }
    rewrite F. reflexivity. }
  specialize (DW W). apply derive_fit in S6. destruct S6 as (k & f & FI). rewrite W in FI. set (bf := w_fit (s_chosen sol)) in *.
  apply fit_inv in FI. destruct FI as (F1 & F2 & F3 & F4 & F5 & kept & K1 & K2 & K3 & _). rewrite F2 in E10.
  exists all, kept, (r_coeffs bf), k, f. split; [exact DT|]. split; [exact DY|]. split.
  { rewrite DW. apply map_ext. intros ob. destruct (o_sigma ob); [|reflexivity]. cbn. do 2 f_equal. ring. }
  split; [exact K1|]. split; [exact E10|]. split; [congruence|]. rewrite E11, E14, <- S3, <- F3. f_equal.
  unfold paper_sigma in K3. destruct (_ <=? 0)%Z eqn:Z0; [discriminate|]. destruct (Rle_dec _ 0) as [|NZ]; [discriminate|].
  assert (EQ : map (fun p => fst p * (snd p * snd p)) (combine (map d_w kept) (map (residual (r_coeffs bf) k f) kept)) = map (fun d => d_w d * residual (r_coeffs bf) k f d ^ 2) kept).
  { rewrite combine_maps, map_map. apply map_ext. intros d. cbn. ring. }
  rewrite EQ in K3. assert (K4 := f_equal (fun q => match q with Some (s, _, _) => s | None => 0 end) K3). cbn beta iota in K4. rewrite <- K4.
  assert (DP : 0 < INR (r_nfit bf - r_npar bf)) by (apply lt_0_INR; clear - F4; lia).
  assert (DE : IZR (Z.of_nat (r_nfit bf) - Z.of_nat (r_npar bf)) = INR (r_nfit bf - r_npar bf)) by (rewrite INR_IZR_INZ; f_equal; clear - F4; lia).
  rewrite DE, S2. rewrite Rmax_left; [reflexivity|].
  assert (WP : forall d, In d kept -> 0 <= d_w d).
  { intros d Hd. apply (sub_In _ _ _ K1) in Hd. apply (in_map (fun d => Some (d_w d))) in Hd. rewrite DW in Hd. apply in_map_iff in Hd. destruct Hd as (ob & Q & Ho).
    destruct (WS ob Ho) as (s & A & B). rewrite A in Q. cbn in Q. injection Q as <-. left. apply Rdiv_lt_0_compat; [lra|nra]. }
  apply Rmult_le_pos; [|left; apply Rinv_0_lt_compat; exact DP]. apply Rmult_le_pos.
  - apply Rmult_le_pos; [apply pos_INR|]. left. apply Rinv_0_lt_compat. lra.
  - clear - WP. induction kept as [|d q IH]; [unfold rsum; cbn; lra|]. unfold rsum in *. cbn [map fold_right].
    assert (0 <= d_w d) by (apply WP; left; reflexivity). assert (0 <= residual (r_coeffs bf) k f d ^ 2) by (apply pow2_ge_0).
    specialize (IH (fun e He => WP e (or_intror He))). assert (0 <= d_w d * residual (r_coeffs bf) k f d ^ 2) by (apply Rmult_le_pos; assumption). lra.
Qed.
Print Assumptions C183_weights.

(* a table with complete uncertainties *)
Definition obs_unit : list obs :=
  map (fun i => mkobs (INR i / 20) (Some (10 * cos (4 * PI * (INR i / 20)) + 1)) (Some 1) (Some "r") None (Some 1) (Some 1) (Some 0)) (seq 0 40).
Example C183_weights_case lstsq hgfit f_cdf f_ppf light : exists r p, estimate lstsq hgfit f_cdf f_ppf light options40 obs_unit = Ok r /\ p_days r = Some p /\
  covered light obs_unit * eps64 <= min_rotations options40 /\ (forall ob, In ob obs_unit -> exists s, o_sigma ob = Some s /\ 0 < s).
Proof.
  assert (CV : covered light obs_unit = covered light obs40).
  { unfold covered. assert (E : map (emission light) obs_unit = map (emission light) obs40) by (unfold obs_unit, obs40; rewrite !map_map; reflexivity). rewrite E. reflexivity. }
  assert (SG : forall ob, In ob obs_unit -> o_sigma ob = Some 1) by (intros ob Hob; unfold obs_unit in Hob; apply in_map_iff in Hob; destruct Hob as (i & <- & _); reflexivity).
  assert (X : exists r p, estimate lstsq hgfit f_cdf f_ppf light options40 obs_unit = Ok r /\ p_days r = Some p).
  { apply (estimate_ok_any lstsq hgfit f_cdf f_ppf light options40 obs_unit 2).
    - exact options40_ok.
    - discriminate.
    - intros ob Hob. unfold obs_unit in Hob. apply in_map_iff in Hob. destruct Hob as (i & <- & _). do 4 eexists. cbn. repeat (split; [reflexivity|]). lra.
    - rewrite CV, covered40. lra.
    - rewrite CV, grid40_min. cbn. lra.
    - reflexivity.
    - right. exact SG.
    - left. reflexivity.
    - apply Nat.ltb_lt. vm_compute. reflexivity.
    - apply Nat.ltb_lt. vm_compute. reflexivity.
    - change (List.length obs_unit) with 40%nat. cbn [clip_sigma options40]. replace (INR 40) with 40 by (cbn; lra). lra. }
  destruct X as (r & p & A & B). exists r, p. split; [exact A|]. split; [exact B|]. split.
  - rewrite CV, covered40. cbn [min_rotations options40]. unfold eps64. assert (/ 2 ^ 52 <= / 2 ^ 3) by (apply Rinv_le_contravar; [lra|apply Rle_pow; [lra|lia]]). lra.
  - intros ob Hob. exists 1. split; [apply SG; exact Hob|lra].
Qed.
Example C182_few_case lstsq hgfit f_cdf f_ppf light : exists r, estimate lstsq hgfit f_cdf f_ppf light default_options [at_day 3; at_day 3] = Ok r /\
  early_exit default_options = true /\ In "too_few_observations" (p_reasons r).
Proof.
  destruct (C182_case light) as (A & B & C & D). pose proof (C182_zero_span lstsq hgfit f_cdf f_ppf light default_options _ A B C D) as H. cbn in H.
  destruct H as (r & H & _). exists r. split; [exact H|]. split; [reflexivity|].
  apply (C182_few lstsq hgfit f_cdf f_ppf light default_options _ r H eq_refl). left. cbn. lia.
Qed.
