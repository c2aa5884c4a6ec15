(* Properties of the rotation period search. *)
From Coq Require Import Reals Lra.
From Coq Require Import List String Bool Permutation Sorted.
From Verif Require Import Base ListLemmas StrOrder PhotModel PhotH RotModel RotScore RotFit RotClus RotDerive RotEst RotMain RotMore RotWrap RotToy RotSingle RotClip.
Import ListNotations.
Open Scope string_scope.
Open Scope list_scope.
Open Scope R_scope.
Opaque fit_with_period amplitude search fit_frequency fit_unclipped.

(* ---- C167: what a verdict promises ---- *)
Theorem C167_verdict lstsq hgfit f_cdf f_ppf light o l r : estimate lstsq hgfit f_cdf f_ppf light o l = Ok r ->
  In (p_verdict r, p_code r) [("single_period", "3"); ("period_family", "2"); ("insufficient_data", "1")] /\
  (p_reliable r = true <-> p_verdict r = "single_period") /\
  (p_valid r = true <-> p_verdict r <> "insufficient_data") /\
  (p_verdict r = "insufficient_data" -> p_reasons r <> []).
Proof. exact (verdict_cases lstsq hgfit f_cdf f_ppf light o l r). Qed.
Theorem C167_single lstsq hgfit f_cdf f_ppf light o l r : estimate lstsq hgfit f_cdf f_ppf light o l = Ok r ->
  p_verdict r = "single_period" -> covered light l * eps64 <= min_rotations o ->
  exists p lo hi snr cov, p_days r = Some p /\ 0 < p /\ p * 24 <= 240 /\
    p_snr r = Some snr /\ 3 <= snr /\ p_coverage r = Some cov /\ 7 / 10 <= cov /\
    p_rotations r = Some (covered light l / p) /\ min_rotations o <= covered light l / p /\
    p_alternates r = [] /\ p_aliases r = Some 1%nat /\ p_reasons r = [] /\
    (exists b, (30 <= List.length (filter (fun ob => String.eqb b (band ob)) l))%nat) /\
    p_lower r = Some lo /\ p_upper r = Some hi /\ Rabs (lo - p) <= Rmax (2 * p) (7 / 24) /\ Rabs (hi - p) <= Rmax (2 * p) (7 / 24) /\
    (p_doubled r = true -> claim_doubled o = true /\ In "doubled_fold_assumed" (p_flags r)).
Proof. exact (single_spec lstsq hgfit f_cdf f_ppf light o l r). Qed.
Print Assumptions C167_verdict.
Print Assumptions C167_single.
Example C167_case hgfit f_cdf f_ppf light : exists r, estimate lstsq40 hgfit f_cdf f_ppf light options40 obs40 = Ok r /\
  p_verdict r = "single_period" /\ covered light obs40 * eps64 <= min_rotations options40.
Proof.
  destruct (single40 hgfit f_cdf f_ppf light) as (r & p & A & _ & B). exists r. split; [exact A|]. split; [exact B|].
  rewrite covered40. cbn [min_rotations options40]. unfold eps64. assert (/ 2 ^ 52 <= / 2 ^ 2) by (apply Rinv_le_contravar; [lra|apply Rle_pow; [lra|lia]]). lra.
Qed.

(* ---- C168: the interval around the period ---- *)
Theorem C168_interval lstsq hgfit f_cdf f_ppf light o l r p : estimate lstsq hgfit f_cdf f_ppf light o l = Ok r -> p_days r = Some p ->
  covered light l * eps64 <= min_rotations o ->
  exists lo hi, p_lower r = Some lo /\ p_upper r = Some hi /\ lo <= p <= hi /\
    (forall q, In q (p_alternates r) -> q < lo \/ hi < q) /\
    p_relunc r = (if rle p 0 then None else Some (Rmax (p - lo) (hi - p) / p)) /\
    p_aliases r = Some (S (List.length (p_alternates r))).
Proof. exact (interval_spec lstsq hgfit f_cdf f_ppf light o l r p). Qed.
Print Assumptions C168_interval.
Example C168_case lstsq hgfit f_cdf f_ppf light : exists r p, estimate lstsq hgfit f_cdf f_ppf light ignoring obs16 = Ok r /\ p_days r = Some p /\
  covered light obs16 * eps64 <= min_rotations ignoring.
Proof.
  destruct (ignore16 lstsq hgfit f_cdf f_ppf light) as (r & p & A & B). exists r, p. split; [exact A|]. split; [exact B|].
  rewrite covered16. cbn [min_rotations ignoring]. unfold eps64. assert (/ 2 ^ 52 <= / 2 ^ 4) by (apply Rinv_le_contravar; [lra|apply Rle_pow; [lra|lia]]). lra.
Qed.

(* ---- C169: session labels and the default mode ---- *)
(* the full claim: labels can only help in the automatic mode, so a table solved without them is solved with them *)
Theorem C169_auto_refuted lstsq hgfit f_cdf f_ppf light : exists l r p,
  estimate lstsq hgfit f_cdf f_ppf light ignoring l = Ok r /\ p_days r = Some p /\
  mode default_options = Auto /\ (forall m, ignoring = mkoptions (staged default_options) (orders default_options) (clip_sigma default_options)
    (min_rotations default_options) (max_frequency default_options) (grid_scale default_options) (max_period default_options)
    (early_exit default_options) m (min_per_group default_options) (bic_improvement default_options) (claim_doubled default_options) <-> m = Ignore) /\
  estimate lstsq hgfit f_cdf f_ppf light default_options l = Err ValueError.
Proof.
  destruct (ignore16 lstsq hgfit f_cdf f_ppf light) as (r & p & A & B). exists obs16, r, p. split; [exact A|]. split; [exact B|].
  split; [reflexivity|]. split; [|apply auto16]. intros m. split; [intros [= <-]; reflexivity|intros ->; reflexivity].
Qed.
Theorem C169_auto_partial lstsq hgfit f_cdf f_ppf light o l : has_sessions l = true -> mode o <> Ignore ->
  (forall k, In k (match orders o with [] => profile_orders | ks => ks end) -> (List.length l <= n_fixed true (pairs l) + 2 * k)%nat) ->
  forall r, estimate lstsq hgfit f_cdf f_ppf light o l = Ok r -> p_days r = None /\ early_exit o = true.
Proof. exact (sessions_few lstsq hgfit f_cdf f_ppf light o l). Qed.
Theorem C169_ignore_partial lstsq hgfit f_cdf f_ppf light o l k : options_ok o = true -> l <> [] -> (forall ob, In ob l -> usable ob) ->
  0 < covered light l -> grid_min (covered light l) (min_rotations o) (max_period o) < max_frequency o ->
  (early_exit o = true -> pre_solve (List.length l) (map band l) (covered light l) (map reduced l) (map o_sigma l) 2 (min_rotations o) (max_frequency o) = []) ->
  (has_sessions l = false \/ mode o = Ignore) -> weighted_of l = false ->
  In k (match orders o with [] => profile_orders | ks => ks end) ->
  (n_fixed false (pairs l) + 2 * k < List.length l)%nat ->
  INR (List.length l - (n_fixed false (pairs l) + 2 * k)) <= clip_sigma o * clip_sigma o ->
  exists r p, estimate lstsq hgfit f_cdf f_ppf light o l = Ok r /\ p_days r = Some p.
Proof. exact (estimate_ok lstsq hgfit f_cdf f_ppf light o l k). Qed.
Print Assumptions C169_auto_refuted.
Print Assumptions C169_auto_partial.
Print Assumptions C169_ignore_partial.
Example C169_case : has_sessions obs16 = true /\ mode default_options <> Ignore /\
  forall k, In k profile_orders -> (List.length obs16 <= n_fixed true (pairs obs16) + 2 * k)%nat.
Proof. split; [reflexivity|]. split; [discriminate|]. intros k _. vm_compute. lia. Qed.

(* ---- C170: which periods can be reported ---- *)
Theorem C170_grid span min_rot f_max scale max_period freqs : build_grid span min_rot f_max scale max_period = Ok freqs ->
  let f_min := match max_period with Some p => Rmax (min_rot / span) (24 / p) | None => min_rot / span end in
  (2 <= List.length freqs)%nat /\ nth 0 freqs 0 = f_min /\ nth (List.length freqs - 1) freqs 0 = f_max /\
  (forall i, (i < List.length freqs)%nat -> f_min <= nth i freqs 0 <= f_max) /\
  (0 < span -> 0 < scale -> grid_capped span min_rot f_max scale max_period = false -> forall f, f_min <= f <= f_max ->
     exists i, (i < List.length freqs)%nat /\ Rabs (f - nth i freqs 0) <= / (2 * (scale * span))).
Proof.
  intros H. destruct (grid_ends _ _ _ _ _ _ H) as (A & B & C). cbv zeta. split; [exact A|]. split; [exact B|]. split; [exact C|].
  split; [intros i Hi; exact (grid_range _ _ _ _ _ _ i H Hi)|]. intros S1 S2 G f Hf. exact (grid_dense _ _ _ _ _ _ f H S1 S2 G Hf).
Qed.
Theorem C170_period lstsq hgfit f_cdf f_ppf light o l r p : estimate lstsq hgfit f_cdf f_ppf light o l = Ok r -> p_days r = Some p ->
  let k := if p_doubled r then 2 else 1 in
  k / max_frequency o <= p /\ p <= k * (covered light l / min_rotations o) /\
  forall m, max_period o = Some m -> p * 24 <= k * m.
Proof. exact (period_range lstsq hgfit f_cdf f_ppf light o l r p). Qed.
Theorem C170_best lstsq hgfit f_cdf f_ppf light o l r p : estimate lstsq hgfit f_cdf f_ppf light o l = Ok r -> p_days r = Some p ->
  covered light l * eps64 <= min_rotations o ->
  exists data freqs k i f, map d_t data = elapsed light l /\ map d_y data = map reduced l /\
    build_grid (covered light l) (min_rotations o) (max_frequency o) (grid_scale o) (max_period o) = Ok freqs /\
    (i < List.length freqs)%nat /\ p = (if p_doubled r then 2 else 1) / nth i freqs 0 /\
    p_order r = Some k /\ p_sigma r = Some (r_sigma f) /\
    let fit j := fit_frequency lstsq hgfit (weighted_of l) (clip_sigma o) data (n_fixed (p_offsets r) (pairs l)) k (nth j freqs 0) in
    fit i = Some f /\ forall j g, (j < List.length freqs)%nat -> fit j = Some g -> r_sigma f <= r_sigma g.
Proof. exact (minimal_spec lstsq hgfit f_cdf f_ppf light o l r p). Qed.
Print Assumptions C170_grid.
Print Assumptions C170_period.
Print Assumptions C170_best.
Example C170_case : exists freqs, build_grid 10 2 1 1 None = Ok freqs /\ grid_capped 10 2 1 1 None = false.
Proof.
  assert (G : grid_min 10 2 None = 1 / 5) by (unfold grid_min; lra).
  assert (E1 : rle (1 / 5) 0 = false) by (apply rle_false; lra). assert (E2 : rle 1 (1 / 5) = false) by (apply rle_false; lra).
  unfold build_grid, grid_capped. rewrite G, E1, E2. eexists. split; [reflexivity|]. cbn [orb]. apply Z.ltb_ge. unfold grid_size, max_samples.
  destruct (Rceil_spec (1 * 10 * (1 - 1 / 5))) as [_ B]. assert (Rceil (1 * 10 * (1 - 1 / 5)) < 10)%Z by (apply lt_IZR; lra). lia.
Qed.

(* ---- C171: counts and clipping ---- *)
Theorem C171_counts lstsq hgfit f_cdf f_ppf light o l r : estimate lstsq hgfit f_cdf f_ppf light o l = Ok r -> p_nobs r = List.length l /\
  (p_days r = None -> p_nfit r = 0%nat /\ p_nclip r = 0%nat /\ p_verdict r = "insufficient_data") /\
  (forall p, p_days r = Some p -> (p_nfit r + p_nclip r = List.length l)%nat /\
     exists k s, p_order r = Some k /\ In k (match orders o with [] => profile_orders | ks => ks end) /\
       p_sigma r = Some s /\ 0 <= s /\ (n_fixed (p_offsets r) (pairs l) + 2 * k < p_nfit r)%nat).
Proof. exact (counts_spec lstsq hgfit f_cdf f_ppf light o l r). Qed.
Theorem C171_clipped lstsq hgfit weighted clip all nf order freq r :
  fit_frequency lstsq hgfit weighted clip all nf order freq = Some r ->
  (r_nfit r + r_nclip r = List.length all)%nat /\ (nf + 2 * order < r_nfit r)%nat /\
  exists kept, sub kept all /\ List.length kept = r_nfit r /\
    ((forall d, In d kept -> Rabs (residual (r_coeffs r) order freq d) <= clip * r_sigma r) \/ (8 <= r_nclip r)%nat).
Proof.
  intros H. apply fit_inv in H. destruct H as (_ & _ & A & B & C & kept & D & E & _ & F). split; [exact C|]. split; [rewrite <- A; exact B|].
  exists kept. auto.
Qed.
Print Assumptions C171_counts.
Print Assumptions C171_clipped.
Example C171_case hgfit : exists r, fit_frequency lstsq0 hgfit false 3 rows16 3 1 1 = Some r /\ r_nclip r = 1%nat.
Proof. destruct (fit16 hgfit false 1) as (r & A & _ & B & _). eauto. Qed.

(* ---- C172: equal uncertainties ---- *)
(* the full claim: stating the same uncertainty for every observation changes nothing *)
Theorem C172_scatter_refuted : exists lstsq hgfit all w nf order freq r s, 0 < w /\ (forall d, In d all -> d_w d = w) /\
  fit_frequency lstsq hgfit true 3 all nf order freq = Some r /\ fit_frequency lstsq hgfit false 3 all nf order freq = Some s /\
  r_coeffs r = r_coeffs s /\ r_nfit r = r_nfit s /\ r_nclip r = r_nclip s /\ r_sigma s < r_sigma r.
Proof.
  exists lstsq0, (fun _ _ => (0, 0)), rows16, 1, 3%nat, 1%nat, 1.
  destruct (fit16 (fun _ _ => (0, 0)) true 1) as (r & R1 & R2 & R3 & R4 & R5).
  destruct (fit16 (fun _ _ => (0, 0)) false 1) as (s & S1 & S2 & S3 & S4 & S5).
  exists r, s. split; [lra|]. split.
  - intros d Hd. unfold rows16, rows15 in Hd. apply in_app_or in Hd. destruct Hd as [Hd|[<-|[]]]; [apply repeat_spec in Hd; subst; reflexivity|reflexivity].
  - split; [exact R1|]. split; [exact S1|]. split; [congruence|]. split; [congruence|]. split; [congruence|]. rewrite R5, S5. apply sqrt_lt_1; lra.
Qed.
(* what the scatter is in that case: too large by the root of the ratio of all to the kept observations *)
Theorem C172_scatter_partial lstsq hgfit clip w all nf order freq r : 0 < w -> (forall d, In d all -> d_w d = w) ->
  fit_frequency lstsq hgfit true clip all nf order freq = Some r ->
  exists kept, sub kept all /\ List.length kept = r_nfit r /\
    r_sigma r = sqrt (INR (r_nfit r + r_nclip r) / INR (r_nfit r)) *
                sqrt (rsum (map (fun d => residual (r_coeffs r) order freq d * residual (r_coeffs r) order freq d) kept) / INR (r_nfit r - r_npar r)).
Proof. exact (fit_equal lstsq hgfit clip w all nf order freq r). Qed.
Print Assumptions C172_scatter_refuted.
Print Assumptions C172_scatter_partial.

(* ---- C173: the Fourier order ---- *)
Theorem C173_order f_cdf l c : select_order f_cdf l = Some c ->
  exists low high, l = low ++ c :: high /\
    (forall h, In h high -> f_test f_cdf c h <= 9 / 10) /\
    (forall b, In b low -> exists h, In h (skipn 1 l) /\ 9 / 10 < f_test f_cdf b h).
Proof. exact (select_spec f_cdf l c). Qed.
Theorem C173_total f_cdf l : l <> [] -> exists c, select_order f_cdf l = Some c.
Proof. exact (select_total f_cdf l). Qed.
Print Assumptions C173_order.
Print Assumptions C173_total.
Example C173_case : let f k s := mkfitres 1 k [] s 1 20 (3 + 2 * k) 30 0 in
  select_order (fun _ _ _ => 1) [f 2%nat 2; f 3%nat 1; f 4%nat 1] = Some (f 3%nat 1).
Proof.
  cbv zeta. cbn [select_order existsb]. unfold f_test. cbn [r_npar r_df r_sigma Nat.leb Nat.add Nat.mul orb Z.leb Z.compare].
  assert (A1 : rle (2 * 2) (1 * 1) = false) by (apply rle_false; lra). assert (A2 : rle (1 * 1) 0 = false) by (apply rle_false; lra).
  assert (A3 : rle (2 * 2 / (1 * 1)) 1 = false) by (apply rle_false; lra). assert (A4 : rlt (9 / 10) 1 = true) by (apply rlt_true; lra).
  assert (A5 : rle (1 * 1) (1 * 1) = true) by (apply rle_true; lra). assert (A6 : rlt (9 / 10) 0 = false) by (apply rlt_false; lra).
  rewrite A1, A2, A5. cbn [orb]. rewrite A3, A4. cbn [orb]. rewrite A6. reflexivity.
Qed.

(* ---- C174: scoring against a known period ---- *)
Theorem C174_harmonic p_rec p_true : let '(e, f) := harmonic_error p_rec p_true in
  In f harmonic_factors /\ e = 100 * (Rabs (p_rec * f - p_true) / p_true) /\
  (forall g, In g harmonic_factors -> e <= 100 * (Rabs (p_rec * g - p_true) / p_true)) /\ alias_bucket f <> "other".
Proof.
  pose proof (harmonic_spec p_rec p_true) as H. destruct (harmonic_error p_rec p_true) as [e f]. destruct H as (A & B & C).
  split; [exact A|]. split; [exact B|]. split; [exact C|]. apply bucket_label. exact A.
Qed.
Print Assumptions C174_harmonic.
Example C174_case : fst (harmonic_error 3 6) = 0.
Proof.
  pose proof (C174_harmonic 3 6) as H. destruct (harmonic_error 3 6) as [e f]. destruct H as (A & B & C & _). cbn [fst].
  assert (I : In 2 harmonic_factors) by (unfold harmonic_factors; cbn; tauto). specialize (C 2 I).
  replace (3 * 2 - 6) with 0 in C by lra. rewrite Rabs_R0 in C. pose proof (Rabs_pos (3 * f - 6)). lra.
Qed.

(* ---- C175: the one-day alias flag ---- *)
(* the full claim: a recovered period equal to the true period is not flagged as a one-day alias *)
Theorem C175_self_refuted : exists p, 0 < p /\ near_day_alias p p (2 / 100) = true.
Proof. exists (4 / 10). split; [lra|]. apply near_self; lra. Qed.
Theorem C175_self_partial p tol : 0 < p -> near_day_alias p p tol = true <-> p / 24 <= tol.
Proof. exact (near_self p tol). Qed.
Print Assumptions C175_self_refuted.
Print Assumptions C175_self_partial.

(* ---- C176: apparitions ---- *)
Theorem C176_apparitions gap ts : let t i := nth i ts 0 in
  Permutation (concat (apparitions gap ts)) (seq 0 (List.length ts)) /\
  StronglySorted (fun i j => t i <= t j) (concat (apparitions gap ts)) /\
  Forall (Sorted (fun i j => t j - t i <= gap)) (apparitions gap ts) /\
  ForallOrdPairs (fun g h => forall i j, In i g -> In j h -> gap < t j - t i) (apparitions gap ts) /\
  (ts <> [] -> Forall (fun g => g <> []) (apparitions gap ts)).
Proof. exact (apparitions_spec gap ts). Qed.
Print Assumptions C176_apparitions.
Lemma apparitions3 : apparitions 30 [0; 100; 1] = [[0; 2]; [1]]%nat.
Proof.
  unfold apparitions. cbn [List.length seq combine sort insert]. unfold time_leb. cbn [snd].
  assert (A : rle 100 1 = false) by (apply rle_false; lra). rewrite A. cbn [insert]. cbn [snd]. assert (B : rle 0 1 = true) by (apply rle_true; lra). rewrite B.
  cbn [split_gaps]. assert (C : rlt 30 (1 - 0) = false) by (apply rlt_false; lra). rewrite C. cbn [split_gaps app].
  assert (D : rlt 30 (100 - 1) = true) by (apply rlt_true; lra). rewrite D. reflexivity.
Qed.
Example C176_case : apparitions 30 [0; 100; 1] = [[0; 2]; [1]]%nat.
Proof. exact apparitions3. Qed.

(* ---- C177: the best apparition ---- *)
Theorem C177_best lstsq hgfit f_cdf f_ppf light o gap l r k n : best_apparition lstsq hgfit f_cdf f_ppf light o gap l = Ok (r, (k, n)) ->
  let gs := apparitions gap (map o_time l) in
  (1 <= k <= n)%nat /\
  ((List.length gs <= 1)%nat /\ k = 1%nat /\ n = 1%nat /\ estimate lstsq hgfit f_cdf f_ppf light o l = Ok r \/
   n = List.length gs /\ (2 <= n)%nat /\
   (exists g, nth_error gs (k - 1) = Some g /\ guarded (List.length g) (estimate lstsq hgfit f_cdf f_ppf light o (take l g)) = Ok r) /\
   forall j g, nth_error gs j = Some g -> exists s, guarded (List.length g) (estimate lstsq hgfit f_cdf f_ppf light o (take l g)) = Ok s /\ as_good r s).
Proof. exact (best_spec lstsq hgfit f_cdf f_ppf light o gap l r k n). Qed.
Theorem C177_total lstsq hgfit f_cdf f_ppf light o gap l : (2 <= List.length (apparitions gap (map o_time l)))%nat ->
  exists x, best_apparition lstsq hgfit f_cdf f_ppf light o gap l = Ok x.
Proof.
  intros H. unfold best_apparition. assert (L : Nat.leb (List.length (apparitions gap (map o_time l))) 1 = false) by (apply Nat.leb_gt; lia). rewrite L.
  set (gs := apparitions gap (map o_time l)) in *. clearbody gs.
  destruct (mapM _ gs) as [rows|e] eqn:M.
  - cbn [bind]. apply mapM_length in M. destruct gs as [|g gs]; [cbn in H; lia|]. destruct rows as [|r rows]; [discriminate|]. cbn. eauto.
  - exfalso. destruct (mapM_err _ _ _ M) as (g & _ & E). unfold guarded in E. destruct (estimate _ _ _ _ _ o (take l g)) as [x|e0] eqn:EE; [discriminate|].
    apply estimate_errors in EE. subst e0. discriminate.
Qed.
Print Assumptions C177_best.
Print Assumptions C177_total.
Definition at_day (t : R) : obs := mkobs t (Some 15) None (Some "r") None (Some 1) (Some 1) (Some 10).
Example C177_case lstsq hgfit f_cdf f_ppf light : exists r k, best_apparition lstsq hgfit f_cdf f_ppf light default_options 30 (map at_day [0; 100; 1]) = Ok (r, (k, 2%nat)).
Proof.
  assert (E : map o_time (map at_day [0; 100; 1]) = [0; 100; 1]) by reflexivity.
  destruct (C177_total lstsq hgfit f_cdf f_ppf light default_options 30 (map at_day [0; 100; 1])) as ([r [k n]] & H).
  - rewrite E, apparitions3. cbn. lia.
  - pose proof (C177_best _ _ _ _ _ _ _ _ _ _ _ H) as [_ [(A & _)|(A & _)]].
    + rewrite E, apparitions3 in A. cbn in A. lia.
    + rewrite E, apparitions3 in A. exists r, k. rewrite H, A. reflexivity.
Qed.

(* ---- C178: many objects in one call ---- *)
Theorem C178_grouped lstsq hgfit f_cdf f_ppf light (detection exposure coords : Type) (d_exposure : detection -> option string)
    (e_id : exposure -> string) (heliocentric : coords -> bool) (geometry : detection -> exposure -> coords -> result obs) o es ds ids rows :
  estimate_grouped lstsq hgfit f_cdf f_ppf light detection exposure coords d_exposure e_id heliocentric geometry o es ds ids = Ok rows -> ds <> [] ->
  List.length ids = List.length ds /\
  StronglySorted (fun i j => str_leb i j = true /\ i <> j) (map fst rows) /\
  (forall i, In i (map fst rows) <-> In (Some i) ids) /\
  forall i r, In (i, r) rows ->
    let mine := map snd (filter (fun p => match fst p with Some j => String.eqb j i | None => false end) (combine ids ds)) in
    let solo := bind (build_observations detection exposure coords d_exposure e_id heliocentric geometry es mine) (estimate lstsq hgfit f_cdf f_ppf light o) in
    solo = Ok r \/ solo = Err ValueError /\ r = insufficient_row ["solve_error"] ["solve_error"] (List.length mine) 0 0.
Proof. exact (grouped_spec lstsq hgfit f_cdf f_ppf light detection exposure coords d_exposure e_id heliocentric geometry o es ds ids rows). Qed.
Print Assumptions C178_grouped.
Opaque estimate.
Example C178_case lstsq hgfit f_cdf f_ppf light : exists r p rows,
  estimate_grouped lstsq hgfit f_cdf f_ppf light obs unit unit (fun _ => Some "x") (fun _ => "x") (fun _ => true) (fun d _ _ => Ok d) ignoring [tt]
    ((hd (at_day 0) obs16, tt) :: map (fun d => (d, tt)) obs16) (None :: map (fun _ => Some "A") obs16) = Ok rows /\ In ("A", r) rows /\ p_days r = Some p.
Proof.
  destruct (ignore16 lstsq hgfit f_cdf f_ppf light) as (r & p & A & B). exists r, p, [("A", r)]. split; [|split; [left; reflexivity|exact B]].
  assert (E : estimate_grouped lstsq hgfit f_cdf f_ppf light obs unit unit (fun _ => Some "x") (fun _ => "x") (fun _ => true) (fun d _ _ => Ok d) ignoring [tt]
    ((hd (at_day 0) obs16, tt) :: map (fun d => (d, tt)) obs16) (None :: map (fun _ => Some "A") obs16)
    = bind (bind (guarded 16 (estimate lstsq hgfit f_cdf f_ppf light ignoring obs16)) (fun r => Ok ("A", r))) (fun x => Ok [x])) by reflexivity.
  rewrite E, A. reflexivity.
Qed.
Transparent estimate.

(* ---- C179: only time differences matter ---- *)
Theorem C179_shift lstsq hgfit f_cdf f_ppf light c o l :
  estimate lstsq hgfit f_cdf f_ppf light o (map (shift c) l) = estimate lstsq hgfit f_cdf f_ppf light o l.
Proof. exact (estimate_shift lstsq hgfit f_cdf f_ppf light c o l). Qed.
Print Assumptions C179_shift.
Example C179_case : map o_time (map (shift 5) obs16) <> map o_time obs16.
Proof. unfold obs16, keys16. cbn [map shift o_time row16 fst]. intros [= H _]. lra. Qed.

(* ---- C180: the phase coverage ---- *)
Theorem C180_coverage lstsq hgfit f_cdf f_ppf light o l r p : estimate lstsq hgfit f_cdf f_ppf light o l = Ok r -> p_days r = Some p -> 0 < p ->
  exists bins, NoDup bins /\ p_coverage r = Some (INR (List.length bins) / 20) /\ (1 <= List.length bins <= 20)%nat /\
  forall b, In b bins <-> (0 <= b <= 19)%Z /\ exists t, In t (elapsed light l) /\ IZR b / 20 <= frac_part (t / p) < (IZR b + 1) / 20.
Proof.
  intros H HP P0. apply estimate_inv in H. destruct H as (OK & _ & [(_ & rs & nfil & ns & Hr & _ & ->)|(SP & freqs & all & nf & sol & half & v & S)]); [discriminate|].
  destruct S as (S1 & S2 & S3 & S4 & S5 & S6 & EV & S7 & E0 & E1 & E2 & E3 & E4 & E5 & E6 & E7 & E8 & E9 & E10 & E11 & E12 & E13 & E14 & E15 & E16 & E17 & E18 & E19 & E20 & _ & E21 & _).
  assert (p = w_period (s_chosen sol)) by congruence. subst p.
  destruct (E20 P0) as (c & HC). rewrite HC. apply rlt_true in P0. rewrite HC, P0 in E21. symmetry in E21. pose proof (coverage_inv _ _ _ E21) as (_ & k & K1 & _ & K2).
  apply coverage_bins in E21. destruct E21 as (bins & ND & EC & HB). exists bins. split; [exact ND|]. split; [rewrite EC; reflexivity|]. split; [|exact HB].
  assert (INR k = INR (List.length bins)) by lra. apply INR_eq in H. rewrite <- H. exact K1.
Qed.
Print Assumptions C180_coverage.

(* ---- C181: the staged search ---- *)
Theorem C181_full exact quick n st f : search exact quick st n = Some f -> st = false \/ (n <= 2 ^ 11)%nat ->
  forall i g, (i < n)%nat -> exact i = Some g -> r_sigma f <= r_sigma g.
Proof. exact (search_full exact quick n st f). Qed.
Theorem C181_staged exact quick n f : search exact quick true n = Some f ->
  forall c q, coarse_index n c -> quick c = Some q ->
  exists m qm, coarse_index n m /\ quick m = Some qm /\
    (forall c' q', coarse_index n c' -> quick c' = Some q' -> r_sigma qm <= r_sigma q') /\
    forall i g, (i < n)%nat -> (i <= m + radius_of n)%nat -> (m <= i + radius_of n)%nat -> exact i = Some g -> r_sigma f <= r_sigma g.
Proof. exact (search_staged exact quick n f). Qed.
Theorem C181_found exact quick n st i f : (i < n)%nat -> exact i = Some f -> exists g, search exact quick st n = Some g.
Proof. exact (search_total exact quick n st i f). Qed.
Print Assumptions C181_full.
Print Assumptions C181_staged.
Print Assumptions C181_found.
Example C181_case : exists f, search (fun _ => Some (mkfitres 1 2 [] 1 1 20 7 30 0)) (fun _ => Some (mkfitres 1 2 [] 1 1 20 7 30 0)) true 5 = Some f /\ coarse_index 5 0.
Proof.
  destruct (C181_found (fun _ => Some (mkfitres 1 2 [] 1 1 20 7 30 0)) (fun _ => Some (mkfitres 1 2 [] 1 1 20 7 30 0)) 5 true 0 (mkfitres 1 2 [] 1 1 20 7 30 0)) as (g & G);
    [lia|reflexivity|]. exists g. split; [exact G|]. split; [lia|]. left. exists 0%nat. reflexivity.
Qed.

(* ---- C182: what can go wrong ---- *)
Theorem C182_errors lstsq hgfit f_cdf f_ppf light o l e : estimate lstsq hgfit f_cdf f_ppf light o l = Err e -> e = ValueError.
Proof. exact (estimate_errors lstsq hgfit f_cdf f_ppf light o l e). Qed.
Theorem C182_zero_span lstsq hgfit f_cdf f_ppf light o l : options_ok o = true -> l <> [] -> (forall ob, In ob l -> usable ob) -> covered light l <= 0 ->
  if early_exit o then exists r, estimate lstsq hgfit f_cdf f_ppf light o l = Ok r /\ p_verdict r = "insufficient_data" /\ In "insufficient_time_span" (p_reasons r) /\ p_days r = None
  else estimate lstsq hgfit f_cdf f_ppf light o l = Err ValueError.
Proof. exact (estimate_zero lstsq hgfit f_cdf f_ppf light o l). Qed.
Print Assumptions C182_errors.
Print Assumptions C182_zero_span.
Example C182_case light : options_ok default_options = true /\ [at_day 3; at_day 3] <> [] /\ (forall ob, In ob [at_day 3; at_day 3] -> usable ob) /\
  covered light [at_day 3; at_day 3] <= 0.
Proof.
  split; [apply options_default|]. split; [discriminate|]. split.
  - intros ob [<-|[<-|[]]]; exists 15, 1, 1, 10; cbn; repeat (split; [reflexivity|]); lra.
  - unfold covered. cbn [map emission at_day o_delta o_time fmax fmin fold_left]. rewrite Rmax_left, Rmin_left by lra. lra.
Qed.

(* ---- C183: one unknown uncertainty drops all of them ---- *)
Theorem C183_unsigned lstsq hgfit f_cdf f_ppf light o l : early_exit o = false ->
  (exists ob, In ob l /\ match o_sigma ob with Some v => v <= 0 | None => True end) ->
  estimate lstsq hgfit f_cdf f_ppf light o (map unsigned l) = estimate lstsq hgfit f_cdf f_ppf light o l.
Proof. exact (estimate_unsigned lstsq hgfit f_cdf f_ppf light o l). Qed.
Print Assumptions C183_unsigned.
Example C183_case : early_exit options40 = false /\ exists ob, In ob obs40 /\ match o_sigma ob with Some v => v <= 0 | None => True end.
Proof. split; [reflexivity|]. exists (row40 0). split; [apply in_map; apply in_seq; lia|exact I]. Qed.
