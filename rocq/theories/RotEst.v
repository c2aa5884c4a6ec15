(* What a row of the rotation period estimator satisfies. *)
From Coq Require Import Reals Lra.
From Coq Require Import List String Bool Permutation Sorted.
From Verif Require Import Base ListLemmas StrOrder PhotModel PhotH RotModel RotScore RotFit RotClus RotDerive.
Import ListNotations.
Open Scope string_scope.
Open Scope list_scope.
Open Scope R_scope.
Opaque fit_with_period amplitude search fit_frequency fit_unclipped.

(* the time at which the light left the object *)
Definition emission (light : R) (o : obs) : R := match o_delta o with Some d => o_time o - d / light | None => o_time o end.
(* the length of time covered by the observations *)
Definition covered (light : R) (l : list obs) : R := fmax (map (emission light) l) - fmin (map (emission light) l).
(* the filter of an observation; a missing one is a label of its own *)
Definition band (o : obs) : string := match o_filter o with Some s => s | None => "__missing_filter__" end.
Definition night (o : obs) : string := match o_session o with Some s => s | None => "__missing_session__" end.
Definition has_sessions (l : list obs) : bool := existsb (fun o => match o_session o with Some _ => true | None => false end) l.
Definition pairs (l : list obs) : list (string * string) := map (fun o => (band o, night o)) l.
(* magnitude reduced to unit distances *)
Definition reduced (o : obs) : R :=
  match o_mag o, o_r o, o_delta o with Some m, Some r, Some d => m - 5 * log10 (r * d) | _, _, _ => 0 end.
(* emission times counted from the first *)
Definition elapsed (light : R) (l : list obs) : list R := map (fun t => t - fmin (map (emission light) l)) (map (emission light) l).

Lemma fold_rmax_shift a l : forall x, fold_left Rmax (map (fun t => t - a) l) (x - a) = fold_left Rmax l x - a.
Proof.
  induction l as [|y l IH]; intros x; cbn [map fold_left]; [reflexivity|]. rewrite <- IH. f_equal.
  unfold Rmax. destruct (Rle_dec (x - a) (y - a)), (Rle_dec x y); lra.
Qed.
Lemma fold_rmin_shift a l : forall x, fold_left Rmin (map (fun t => t - a) l) (x - a) = fold_left Rmin l x - a.
Proof.
  induction l as [|y l IH]; intros x; cbn [map fold_left]; [reflexivity|]. rewrite <- IH. f_equal.
  unfold Rmin. destruct (Rle_dec (x - a) (y - a)), (Rle_dec x y); lra.
Qed.
Lemma span_shift a l : fmax (map (fun t => t - a) l) - fmin (map (fun t => t - a) l) = fmax l - fmin l.
Proof. destruct l as [|x l]; cbn [map fmax fmin]; [lra|]. rewrite fold_rmax_shift, fold_rmin_shift. lra. Qed.

Lemma all_some_nth {A} (l : list (option A)) v : all_some l = Some v -> l = map Some v.
Proof. revert v. induction l as [|[x|] l IH]; intros v; cbn; [intros H; injection H as <-; reflexivity| |discriminate].
  destruct (all_some l) as [w|]; [|discriminate]. intros H. injection H as <-. cbn. f_equal. apply IH. reflexivity. Qed.

Lemma validate_row_inv o v : validate_row o = Some v ->
  v_time v = o_time o /\ o_mag o = Some (v_mag v) /\ v_sigma v = o_sigma o /\ v_filter v = band o /\ v_session v = o_session o /\
  o_r o = Some (v_r v) /\ o_delta o = Some (v_delta v) /\ o_phase o = Some (v_phase v) /\ 0 < v_r v /\ 0 < v_delta v.
Proof.
  unfold validate_row. destruct (o_mag o) as [mm|], (o_r o) as [rr|], (o_delta o) as [dd|], (o_phase o) as [aa|]; try discriminate.
  destruct (rle rr 0 || rle dd 0) eqn:E; [discriminate|]. apply orb_false_elim in E. destruct E as [E1 E2].
  apply rle_false in E1, E2. intros H. injection H as <-. cbn. repeat (split; [reflexivity|]). auto.
Qed.

Lemma validate_inv l vs : validate l = Ok vs -> l <> [] /\ map validate_row l = map Some vs.
Proof.
  unfold validate. destruct l as [|x l]; [discriminate|]. destruct (all_some _) as [v|] eqn:E; [|discriminate].
  intros H. injection H as <-. split; [discriminate|]. apply all_some_nth. exact E.
Qed.
Lemma validate_map {B} (f : valid_obs -> B) (g : obs -> B) l vs : (forall o v, validate_row o = Some v -> f v = g o) ->
  validate l = Ok vs -> map f vs = map g l.
Proof.
  intros H V. apply validate_inv in V. destruct V as [_ V]. revert vs V. induction l as [|x l IH]; intros [|v vs] V; try discriminate; [reflexivity|].
  cbn [map] in *. injection V as V1 V2. f_equal; [apply H; exact V1|apply IH; exact V2].
Qed.
Lemma validate_length l vs : validate l = Ok vs -> List.length vs = List.length l.
Proof. intros V. apply validate_inv in V. destruct V as [_ V]. apply (f_equal (@List.length _)) in V. rewrite !map_length in V. auto. Qed.

Lemma data_length use fs t y w vs : List.length t = List.length vs -> List.length y = List.length vs -> List.length fs = List.length vs ->
  List.length w = List.length vs -> List.length (data_of use fs t y w vs) = List.length vs.
Proof. intros. unfold data_of. rewrite map_length, !combine_length. lia. Qed.

Lemma weights_length s w : weights_from_sigma s = Some w -> List.length w = List.length s.
Proof.
  unfold weights_from_sigma. destruct (all_some s) as [v|] eqn:E; [|discriminate]. destruct (forallb _ v); [|discriminate].
  intros H. injection H as <-. apply all_some_nth in E. subst s. rewrite !map_length. reflexivity.
Qed.

Lemma pre_solve_reason n fs span y s m r f : pre_solve n fs span y s m r f <> [] ->
  forall x, In x (pre_solve n fs span y s m r f) -> In x ["too_few_observations"; "insufficient_time_span"; "amplitude_below_noise"].
Proof.
  intros _ x. unfold pre_solve, emitted. rewrite in_map_iff. intros ((b & z) & <- & H). apply filter_In in H. destruct H as [H _].
  cbn [In] in H. cbn. destruct H as [H|[H|[H|[]]]]; injection H as _ <-; auto.
Qed.

Lemma ok_inj {A} (x y : A) : @Ok A x = Ok y -> y = x.
Proof. congruence. Qed.

Lemma flat_map_len {A B C} (f : A -> list B) (g : A -> list C) l : (forall x, List.length (f x) = List.length (g x)) ->
  List.length (flat_map f l) = List.length (flat_map g l).
Proof. intros H. induction l as [|x l IH]; [reflexivity|]. cbn. rewrite !app_length, IH, H. reflexivity. Qed.
Lemma data_fix use fs t y w vs d : In d (data_of use fs t y w vs) -> List.length (d_fix d) = n_fixed use fs.
Proof.
  unfold data_of. rewrite in_map_iff. intros (q & <- & _). cbn [d_fix]. unfold design_row, n_fixed.
  rewrite !app_length, map_length. destruct use; [|cbn; lia].
  rewrite (flat_map_len _ (fun l => tl (sessions_of fs l))) by (intros; apply map_length). cbn. lia.
Qed.
Lemma data_times use fs t y w vs : List.length t = List.length vs -> List.length y = List.length vs -> List.length fs = List.length vs ->
  List.length w = List.length vs -> map d_t (data_of use fs t y w vs) = t /\ map d_y (data_of use fs t y w vs) = y.
Proof.
  unfold data_of. intros A B C D. rewrite !map_map. cbn [d_t d_y]. generalize (design_row use fs). intros dr.
  revert t y fs w A B C D. induction vs as [|v vs IH]; intros [|a t] [|b y] [|c fs] [|d w]; cbn; try lia; [auto|].
  intros A B C D. destruct (IH t y fs w) as [-> ->]; [lia..|]. auto.
Qed.
Lemma data_weights use fs t y w vs : List.length t = List.length vs -> List.length y = List.length vs -> List.length fs = List.length vs ->
  List.length w = List.length vs -> map d_w (data_of use fs t y w vs) = w.
Proof.
  unfold data_of. intros A B C D. rewrite !map_map. cbn [d_w]. generalize (design_row use fs). intros dr.
  revert t y fs w A B C D. induction vs as [|v vs IH]; intros [|a t] [|b y] [|c fs] [|d w]; cbn; try lia; [auto|].
  intros A B C D. rewrite (IH t y fs w); [reflexivity|lia..].
Qed.

Section Est.
Variable lstsq : list (list R) -> list R -> list R.
Variable hgfit : R -> R -> R * R.
Variable f_cdf : R -> Z -> Z -> R.
Variable f_ppf : R -> Z -> Z -> option R.
Variable light : R.
Let est := estimate lstsq hgfit f_cdf f_ppf light.

Definition weighted_of (l : list obs) : bool := match weights_from_sigma (map o_sigma l) with Some _ => true | None => false end.

(* a solved row: the grid, the data, the solution and the verdict it comes from *)
Definition solved (o : options) (l : list obs) (r : row) (freqs : list R) (all : list datum) (nf : nat) (sol : solution)
    (half : option fitres) (v : string * list string * list string) : Prop :=
  let p := w_period (s_chosen sol) in
  let bf := w_fit (s_chosen sol) in
  build_grid (covered light l) (min_rotations o) (max_frequency o) (grid_scale o) (max_period o) = Ok freqs /\
  List.length all = List.length l /\ nf = n_fixed (p_offsets r) (pairs l) /\
  (p_offsets r = true -> has_sessions l = true /\ mode o <> Ignore) /\
  (has_sessions l = true -> mode o <> Ignore -> exists s data, List.length data = List.length l /\
     derive lstsq hgfit f_cdf f_ppf o (weighted_of l) data (n_fixed true (pairs l)) freqs = Ok s) /\
  derive lstsq hgfit f_cdf f_ppf o (weighted_of l) all nf freqs = Ok sol /\
  v = guard_half p (nth 0 freqs 0) (r_sigma bf) half
        (guard_long p (classify (p_snr r) (p_coverage r) (p_rotations r) (min_rotations o) (List.length (s_clusters sol))
                                (w_doubled (s_chosen sol)) (count_sufficient (map band l)) (s_reliable sol) (claim_doubled o))) /\
  half = fit_frequency lstsq hgfit (weighted_of l) (clip_sigma o) all nf 6 (1 / 2 / p) /\
  p_days r = Some p /\ p_verdict r = fst (fst v) /\ p_code r = code_of (fst (fst v)) /\ p_reasons r = snd v /\
  p_valid r = (String.eqb (fst (fst v)) "single_period" || String.eqb (fst (fst v)) "period_family") /\
  p_reliable r = String.eqb (fst (fst v)) "single_period" /\
  p_lower r = Some (c_lo (s_primary sol)) /\ p_upper r = Some (c_hi (s_primary sol)) /\ p_relunc r = s_relunc sol /\
  p_alternates r = s_alternates sol /\ p_order r = Some (r_order bf) /\ p_sigma r = Some (r_sigma bf) /\
  p_aliases r = Some (List.length (s_clusters sol)) /\ p_nobs r = List.length l /\ p_nfit r = r_nfit bf /\ p_nclip r = r_nclip bf /\
  p_doubled r = w_doubled (s_chosen sol) /\
  p_rotations r = (if rlt 0 p then Some (covered light l / p) else None) /\
  p_snr r = snr_of (s_amplitude sol) (r_sigma bf) /\
  (forall c, p_coverage r = Some c -> 0 < p /\ exists k, (1 <= k <= 20)%nat /\ (k <= List.length l)%nat /\ c = INR k / 20) /\
  (0 < p -> exists c, p_coverage r = Some c) /\
  (exists d, p_flags r = snd (fst v) ++ d /\ 
     (In "grid_capped" d <-> grid_capped (covered light l) (min_rotations o) (max_frequency o) (grid_scale o) (max_period o) = true)) /\
  p_coverage r = (if rlt 0 p then coverage (elapsed light l) p else None) /\
  map d_t all = elapsed light l /\ map d_y all = map reduced l /\ (forall d, In d all -> List.length (d_fix d) = nf) /\
  (weighted_of l = true -> map (fun d => Some (d_w d)) all = map (fun ob => option_map (fun s => 1 / (s * s)) (o_sigma ob)) l).

Lemma bins_range l : NoDup l -> (forall z, In z l -> (0 <= z <= 19)%Z) -> (List.length l <= 20)%nat.
Proof.
  intros N H. assert (I : incl l (map Z.of_nat (seq 0 20))).
  { intros z Hz. apply H in Hz. apply in_map_iff. exists (Z.to_nat z). split; [lia|]. apply in_seq. lia. }
  apply NoDup_incl_length in I; [|exact N]. rewrite map_length, seq_length in I. exact I.
Qed.
Lemma uniq_short l : (List.length (uniq Z.eqb l) <= List.length l)%nat.
Proof.
  apply NoDup_incl_length; [apply (uniq_NoDup Z.eqb Z.eqb_eq)|]. intros z Hz. apply (proj1 (uniq_In Z.eqb Z.eqb_eq _ _)) in Hz. exact Hz.
Qed.
Lemma coverage_inv ts p c : coverage ts p = Some c -> 0 < p /\ exists k, (1 <= k <= 20)%nat /\ (k <= List.length ts)%nat /\ c = INR k / 20.
Proof.
  unfold coverage. destruct (rle p 0) eqn:E; [discriminate|]. apply rle_false in E. destruct ts as [|t ts]; [discriminate|].
  set (k := List.length (uniq Z.eqb (map (fun t => phase_bin t p) (t :: ts)))).
  assert (K : (1 <= k <= 20)%nat /\ (k <= List.length (t :: ts))%nat).
  { unfold k. split; [split|].
    - assert (X : In (phase_bin t p) (uniq Z.eqb (map (fun t => phase_bin t p) (t :: ts)))) by (apply (uniq_In Z.eqb Z.eqb_eq); left; reflexivity).
      destruct (uniq Z.eqb (map (fun t => phase_bin t p) (t :: ts))); [destruct X|cbn; lia].
    - apply bins_range; [apply (uniq_NoDup Z.eqb Z.eqb_eq)|]. intros z Hz. rewrite (uniq_In Z.eqb Z.eqb_eq) in Hz.
      apply in_map_iff in Hz. destruct Hz as (u & <- & _). apply phase_bin_range.
    - eapply Nat.le_trans; [apply uniq_short|]. rewrite map_length. reflexivity. }
  clearbody k. intros H. split; [exact E|]. exists k. split; [apply K|]. split; [apply K|]. congruence.
Qed.

Lemma estimate_inv o l r : est o l = Ok r ->
  options_ok o = true /\ (exists vs, validate l = Ok vs) /\
  ((early_exit o = true /\ exists reasons nfil ns, reasons <> [] /\
      (forall x, In x reasons -> In x ["too_few_observations"; "insufficient_time_span"; "amplitude_below_noise"]) /\
      r = insufficient_row reasons [] (List.length l) nfil ns) \/
   (0 < covered light l /\ exists freqs all nf sol half v, solved o l r freqs all nf sol half v)).
Proof.
  unfold est, estimate. destruct (options_ok o) eqn:OK; cbn [negb]; [|discriminate].
  destruct (validate l) as [vs|] eqn:V; cbn [bind]; [|discriminate].
  intros H. split; [reflexivity|]. split; [eauto|]. revert H.
  assert (T : map (fun v => v_time v - v_delta v / light) vs = map (emission light) l).
  { eapply validate_map; [|exact V]. intros ob v Hv. apply validate_row_inv in Hv. unfold emission.
    destruct Hv as (-> & _ & _ & _ & _ & _ & -> & _). reflexivity. }
  assert (FS : map (fun v => (v_filter v, label "__missing_session__" (v_session v))) vs = pairs l).
  { eapply validate_map; [|exact V]. intros ob v Hv. apply validate_row_inv in Hv. destruct Hv as (_ & _ & _ & -> & -> & _). reflexivity. }
  assert (SG : map v_sigma vs = map o_sigma l).
  { eapply validate_map; [|exact V]. intros ob v Hv. apply validate_row_inv in Hv. tauto. }
  assert (US : existsb (fun v => match v_session v with Some _ => true | None => false end) vs = has_sessions l).
  { unfold has_sessions.
    pose proof (validate_map (fun v => match v_session v with Some _ => true | None => false end)
                  (fun o => match o_session o with Some _ => true | None => false end) l vs) as M.
    assert (G : forall A (f : A -> bool) m, existsb f m = existsb (fun b => b) (map f m)) by (induction m; cbn; congruence).
    rewrite (G _ _ vs), (G _ _ l). f_equal. apply M; [|exact V]. intros ob v Hv. apply validate_row_inv in Hv.
    destruct Hv as (_ & _ & _ & _ & -> & _). reflexivity. }
  pose proof (validate_length _ _ V) as LEN.
  rewrite T, FS, SG, US.
  assert (BD : map fst (pairs l) = map band l) by (unfold pairs; rewrite map_map; reflexivity).
  rewrite BD.
  set (t_rel := map (fun t => t - fmin (map (emission light) l)) (map (emission light) l)).
  assert (SP : fmax t_rel - fmin t_rel = covered light l) by apply span_shift.
  rewrite SP.
  assert (LT : List.length t_rel = List.length vs) by (unfold t_rel; rewrite !map_length; lia).
  set (y := map (fun v => v_mag v - 5 * log10 (v_r v * v_delta v)) vs).
  assert (LY : List.length y = List.length vs) by (unfold y; rewrite map_length; reflexivity).
  assert (LF : List.length (pairs l) = List.length vs) by (unfold pairs; rewrite map_length; lia).
  cbv zeta.
  set (sum := summarize (has_sessions l) (map (emission light) l) (pairs l)).
  destruct (if early_exit o then pre_solve (List.length l) (map band l) (covered light l) y (map o_sigma l) 2 (min_rotations o) (max_frequency o) else []) as [|e es] eqn:P.
  2:{ intros H. injection H as <-. left. destruct (early_exit o); [|discriminate]. split; [reflexivity|].
      exists (e :: es), (List.length (ordered_unique (map band l))), (n_sessions sum). split; [discriminate|]. split; [|reflexivity].
      rewrite <- P. apply pre_solve_reason. rewrite P. discriminate. }
  destruct (rle (covered light l) 0) eqn:SPN; [discriminate|]. apply rle_false in SPN.
  set (ws := match weights_from_sigma (map o_sigma l) with Some w => w | None => map (fun _ => 1) vs end).
  assert (LW : List.length ws = List.length vs).
  { unfold ws. destruct (weights_from_sigma (map o_sigma l)) as [w|] eqn:W; [|rewrite map_length; reflexivity].
    apply weights_length in W. rewrite map_length in W. lia. }
  change (match weights_from_sigma (map o_sigma l) with Some _ => true | None => false end) with (weighted_of l).
  destruct (build_grid _ _ _ _ _) as [freqs|] eqn:BG; cbn [bind]; [|discriminate].
  set (base := data_of false (pairs l) t_rel y ws vs).
  set (sess := data_of true (pairs l) t_rel y ws vs).
  destruct (derive _ _ _ _ o (weighted_of l) base (n_fixed false (pairs l)) freqs) as [bsol|] eqn:DB; cbn [bind]; [|discriminate].
  match goal with |- context [bind ?su _] => destruct su as [[sol offsets]|] eqn:SU; cbn [bind]; [|discriminate] end.
  assert (SOL : derive lstsq hgfit f_cdf f_ppf o (weighted_of l) (if offsets then sess else base) (n_fixed offsets (pairs l)) freqs = Ok sol
                /\ (offsets = true -> has_sessions l = true /\ mode o <> Ignore)
                /\ (has_sessions l = true -> mode o <> Ignore -> exists s data, List.length data = List.length l /\
                      derive lstsq hgfit f_cdf f_ppf o (weighted_of l) data (n_fixed true (pairs l)) freqs = Ok s)).
  { destruct (has_sessions l && _) eqn:U.
    - apply andb_prop in U. destruct U as [U1 U2].
      assert (U3 : mode o <> Ignore) by (destruct (mode o); [discriminate|discriminate|discriminate]).
      destruct (derive _ _ _ _ o (weighted_of l) sess (n_fixed true (pairs l)) freqs) as [ssol|] eqn:DS; cbn [bind] in SU; [|discriminate].
      assert (DX : exists s data, List.length data = List.length l /\
                      derive lstsq hgfit f_cdf f_ppf o (weighted_of l) data (n_fixed true (pairs l)) freqs = Ok s).
      { exists ssol, sess. split; [unfold sess; rewrite data_length by assumption; exact LEN|exact DS]. }
      destruct (mode o); [congruence| |].
      + injection SU as <- <-. split; [exact DS|auto].
      + destruct (_ && _) in SU; injection SU as <- <-; (split; [first [exact DS|exact DB]|auto]).
    - injection SU as <- <-. split; [exact DB|]. split; [discriminate|]. intros U1 U2. exfalso. rewrite U1 in U.
      destruct (mode o); [congruence|discriminate|discriminate]. }
  clear SU. destruct SOL as (SOL & OFF & SX). cbn [fst snd].
  intros H. apply ok_inj in H. subst r. right. split; [exact SPN|].
  exists freqs, (if offsets then sess else base), (n_fixed offsets (pairs l)), sol.
  eexists. eexists. unfold solved.
  cbn [p_days p_verdict p_code p_flags p_reasons p_valid p_reliable p_lower p_upper p_relunc p_alternates p_order p_sigma p_coverage p_rotations
       p_snr p_aliases p_nobs p_nfit p_nclip p_nfilters p_nsessions p_offsets p_doubled].
  cbv zeta.
  split; [exact BG|]. split.
  { destruct offsets; unfold sess, base; rewrite data_length by assumption; exact LEN. }
  split; [reflexivity|]. split; [exact OFF|]. split; [exact SX|]. split; [exact SOL|]. split; [reflexivity|]. split; [reflexivity|].
  assert (DT : map d_t (if offsets then sess else base) = t_rel /\ map d_y (if offsets then sess else base) = y).
  { destruct offsets; apply data_times; assumption. }
  assert (Y : y = map reduced l).
  { unfold y. eapply validate_map; [|exact V]. intros ob v Hv. apply validate_row_inv in Hv. unfold reduced.
    destruct Hv as (_ & -> & _ & _ & _ & -> & -> & _). reflexivity. }
  repeat (split; [reflexivity|]). split; [|split; [|split; [|split; [reflexivity|split; [apply DT|split; [rewrite <- Y; apply DT|split; [intros d Hd; destruct offsets; exact (data_fix _ _ _ _ _ _ _ Hd)|]]]]]]].
  - destruct (rlt 0 (w_period (s_chosen sol))); [|discriminate]. intros c Hc. apply coverage_inv in Hc. rewrite LT, LEN in Hc. exact Hc.
  - intros Hp. apply rlt_true in Hp. rewrite Hp. apply rlt_true in Hp. unfold coverage.
    assert (E : rle (w_period (s_chosen sol)) 0 = false) by (apply rle_false; exact Hp). rewrite E.
    destruct t_rel as [|t ts] eqn:TT; [|eauto]. exfalso. apply validate_inv in V. destruct V as [V _]. cbn in LT.
    destruct l; [congruence|cbn in LEN; lia].
  - eexists. split; [reflexivity|]. rewrite in_app_iff.
    destruct (staged o && Nat.ltb (2 ^ 11) (List.length freqs)), (grid_capped _ _ _ _ _); cbn [In]; split; intros K; auto; try discriminate;
      repeat (destruct K as [K|K]; try discriminate; try contradiction).
  - intros W. rewrite <- (map_map d_w Some). assert (DW : map d_w (if offsets then sess else base) = ws) by (destruct offsets; apply data_weights; assumption).
    rewrite DW. unfold ws. unfold weighted_of in W. destruct (weights_from_sigma (map o_sigma l)) as [w|] eqn:WW; [|discriminate].
    unfold weights_from_sigma in WW. destruct (all_some (map o_sigma l)) as [v|] eqn:AS; [|discriminate]. destruct (forallb _ v); [|discriminate].
    injection WW as <-. apply all_some_nth in AS. rewrite <- (map_map o_sigma), AS, !map_map. reflexivity.
Qed.
End Est.
