(* Sessions, shifts of the time, dropped uncertainties, equal weights. *)
From Coq Require Import Reals Lra.
From Coq Require Import List String Bool Permutation Sorted.
From Verif Require Import Base ListLemmas StrOrder PhotModel PhotH RotModel RotScore RotFit RotClus RotDerive RotEst RotMain.
Import ListNotations.
Open Scope string_scope.
Open Scope list_scope.
Open Scope R_scope.
Opaque fit_with_period amplitude search fit_frequency fit_unclipped.

(* an observation with all that is needed *)
Definition usable (o : obs) : Prop :=
  exists m r d a, o_mag o = Some m /\ o_r o = Some r /\ o_delta o = Some d /\ o_phase o = Some a /\ 0 < r /\ 0 < d.
Lemma usable_row o : usable o -> exists v, validate_row o = Some v.
Proof.
  intros (m & r & d & a & A & B & C & D & Hr & Hd). unfold validate_row. rewrite A, B, C, D.
  assert (E1 : rle r 0 = false) by (apply rle_false; exact Hr). assert (E2 : rle d 0 = false) by (apply rle_false; exact Hd).
  rewrite E1, E2. cbn [orb]. eauto.
Qed.
Lemma usable_valid l : l <> [] -> (forall o, In o l -> usable o) -> exists vs, validate l = Ok vs.
Proof.
  intros N H. unfold validate. destruct l as [|x l]; [congruence|]. set (m := x :: l) in *. clearbody m. clear N.
  assert (E : exists v, all_some (map validate_row m) = Some v).
  { induction m as [|y m IH]; [cbn; eauto|]. destruct (usable_row y (H y (or_introl eq_refl))) as (v & Hv). cbn [map all_some]. rewrite Hv.
    destruct IH as (w & ->); [intros o Ho; apply H; right; exact Ho|]. cbn. eauto. }
  destruct E as (v & ->). eauto.
Qed.

Lemma combine_map_snd {A B C} (g : B -> C) (a : list A) : forall b, combine a (map g b) = map (fun p => (fst p, g (snd p))) (combine a b).
Proof. induction a as [|x a IH]; intros [|y b]; cbn; [reflexivity..|]. f_equal. apply IH. Qed.
Lemma combine_map_fst {A B C} (g : A -> C) (a : list A) : forall b : list B, combine (map g a) b = map (fun p => (g (fst p), snd p)) (combine a b).
Proof. induction a as [|x a IH]; intros [|y b]; cbn; [reflexivity..|]. f_equal. apply IH. Qed.

Lemma data_of_map use fs t y w vs (g : valid_obs -> valid_obs) : (forall v, v_phase (g v) = v_phase v) ->
  data_of use fs t y w (map g vs) = data_of use fs t y w vs.
Proof.
  intros H. unfold data_of. rewrite !combine_map_snd, map_map. apply map_ext. intros [[a b] [c [d e]]]. cbn. rewrite H. reflexivity.
Qed.
Lemma existsb_map_ext {A B} (f : B -> bool) (g : A -> B) l : existsb f (map g l) = existsb (fun x => f (g x)) l.
Proof. induction l; cbn; congruence. Qed.

Section More.
Variable lstsq : list (list R) -> list R -> list R.
Variable hgfit : R -> R -> R * R.
Variable f_cdf : R -> Z -> Z -> R.
Variable f_ppf : R -> Z -> Z -> option R.
Variable light : R.
Let est := estimate lstsq hgfit f_cdf f_ppf light.

Lemma estimate_ok o l k : options_ok o = true -> l <> [] -> (forall ob, In ob l -> usable ob) ->
  0 < covered light l -> grid_min (covered light l) (min_rotations o) (max_period o) < max_frequency o ->
  (early_exit o = true -> pre_solve (List.length l) (map band l) (covered light l) (map reduced l) (map o_sigma l) 2 (min_rotations o) (max_frequency o) = []) ->
  (has_sessions l = false \/ mode o = Ignore) -> weighted_of l = false ->
  In k (match orders o with [] => profile_orders | ks => ks end) ->
  (n_fixed false (pairs l) + 2 * k < List.length l)%nat ->
  INR (List.length l - (n_fixed false (pairs l) + 2 * k)) <= clip_sigma o * clip_sigma o ->
  exists r p, est o l = Ok r /\ p_days r = Some p.
Proof.
  intros OK NE US SP GM PRE SES WT HK HN HC.
  destruct (usable_valid l NE US) as (vs & V).
  unfold est, estimate. rewrite OK, V. cbn [negb bind].
  assert (T : map (fun v => v_time v - v_delta v / light) vs = map (emission light) l).
  { eapply validate_map; [|exact V]. intros ob v Hv. apply validate_row_inv in Hv. unfold emission.
    destruct Hv as (-> & _ & _ & _ & _ & _ & -> & _). reflexivity. }
  assert (FS : map (fun v => (v_filter v, label "__missing_session__" (v_session v))) vs = pairs l).
  { eapply validate_map; [|exact V]. intros ob v Hv. apply validate_row_inv in Hv. destruct Hv as (_ & _ & _ & -> & -> & _). reflexivity. }
  assert (SG : map v_sigma vs = map o_sigma l).
  { eapply validate_map; [|exact V]. intros ob v Hv. apply validate_row_inv in Hv. tauto. }
  assert (Y : map (fun v => v_mag v - 5 * log10 (v_r v * v_delta v)) vs = map reduced l).
  { eapply validate_map; [|exact V]. intros ob v Hv. apply validate_row_inv in Hv. unfold reduced.
    destruct Hv as (_ & -> & _ & _ & _ & -> & -> & _). reflexivity. }
  assert (UQ : existsb (fun v => match v_session v with Some _ => true | None => false end) vs = has_sessions l).
  { pose proof (validate_map (fun v => match v_session v with Some _ => true | None => false end)
                  (fun o => match o_session o with Some _ => true | None => false end) l vs) as M.
    assert (G : forall A (f : A -> bool) m, existsb f m = existsb (fun b => b) (map f m)) by (induction m; cbn; congruence).
    unfold has_sessions. rewrite (G _ _ vs), (G _ _ l). f_equal. apply M; [|exact V]. intros ob v Hv. apply validate_row_inv in Hv.
    destruct Hv as (_ & _ & _ & _ & -> & _). reflexivity. }
  pose proof (validate_length _ _ V) as LEN.
  rewrite T, FS, SG, UQ, Y.
  assert (BD : map fst (pairs l) = map band l) by (unfold pairs; rewrite map_map; reflexivity).
  rewrite BD.
  set (t_rel := map (fun t => t - fmin (map (emission light) l)) (map (emission light) l)).
  assert (SPE : fmax t_rel - fmin t_rel = covered light l) by apply span_shift.
  rewrite SPE.
  assert (LT : List.length t_rel = List.length vs) by (unfold t_rel; rewrite !map_length; lia).
  assert (LF : List.length (pairs l) = List.length vs) by (unfold pairs; rewrite map_length; lia).
  cbv zeta.
  assert (P : (if early_exit o then pre_solve (List.length l) (map band l) (covered light l) (map reduced l) (map o_sigma l) 2 (min_rotations o) (max_frequency o) else []) = []).
  { destruct (early_exit o); [apply PRE; reflexivity|reflexivity]. }
  rewrite P.
  assert (E0 : rle (covered light l) 0 = false) by (apply rle_false; exact SP). rewrite E0.
  change (match weights_from_sigma (map o_sigma l) with Some _ => true | None => false end) with (weighted_of l).
  set (ws := match weights_from_sigma (map o_sigma l) with Some w => w | None => map (fun _ => 1) vs end).
  assert (LW : List.length ws = List.length vs).
  { unfold ws. destruct (weights_from_sigma (map o_sigma l)) as [w|] eqn:W; [|rewrite map_length; reflexivity].
    apply weights_length in W. rewrite map_length in W. lia. }
  destruct (options_inv _ OK) as (CP & MR & MF & _).
  pose proof (grid_min_pos (covered light l) (min_rotations o) (max_period o) SP MR) as GP.
  destruct (build_grid (covered light l) (min_rotations o) (max_frequency o) (grid_scale o) (max_period o)) as [freqs|e] eqn:BG.
  2:{ exfalso. unfold build_grid in BG. assert (E1 : rle (grid_min (covered light l) (min_rotations o) (max_period o)) 0 = false) by (apply rle_false; exact GP).
      assert (E2 : rle (max_frequency o) (grid_min (covered light l) (min_rotations o) (max_period o)) = false) by (apply rle_false; exact GM).
      rewrite E1, E2 in BG. discriminate. }
  cbn [bind]. set (base := data_of false (pairs l) t_rel (map reduced l) ws vs).
  assert (LB : List.length base = List.length l) by (unfold base; rewrite data_length; [exact LEN|exact LT|rewrite map_length; lia|exact LF|exact LW]).
  destruct (grid_ends _ _ _ _ _ _ BG) as (GL & _).
  destruct (fit_no_clip lstsq hgfit (clip_sigma o) base (n_fixed false (pairs l)) k (nth 0 freqs 0)) as (f & F & _); [lia|lra|rewrite LB; exact HC|].
  rewrite WT.
  destruct (derive_ok lstsq hgfit f_cdf f_ppf o false base (n_fixed false (pairs l)) freqs k 0 f) as (sol & D);
    [apply used_orders_in; exact HK|lia|exact F|].
  rewrite D. cbn [bind].
  assert (SS : has_sessions l && match mode o with Ignore => false | _ => true end = false).
  { destruct SES as [-> | ->]; [reflexivity|apply andb_false_r]. }
  rewrite SS. cbn [bind fst snd]. eexists. eexists. split; reflexivity.
Qed.

(* times shifted by a constant *)
Definition shift (c : R) (o : obs) : obs :=
  mkobs (o_time o + c) (o_mag o) (o_sigma o) (o_filter o) (o_session o) (o_r o) (o_delta o) (o_phase o).
Definition vshift (c : R) (v : valid_obs) : valid_obs :=
  mkvalid (v_time v + c) (v_mag v) (v_sigma v) (v_filter v) (v_session v) (v_r v) (v_delta v) (v_phase v).
Lemma validate_gen (g : obs -> obs) (h : valid_obs -> valid_obs) l : (forall o, validate_row (g o) = option_map h (validate_row o)) ->
  validate (map g l) = match validate l with Ok vs => Ok (map h vs) | Err e => Err e end.
Proof.
  intros H. destruct l as [|x l]; [reflexivity|]. unfold validate. cbn [map]. set (m := x :: l).
  change (validate_row (g x) :: map validate_row (map g l)) with (map validate_row (map g m)).
  change (validate_row x :: map validate_row l) with (map validate_row m).
  assert (E : all_some (map validate_row (map g m)) = option_map (map h) (all_some (map validate_row m))).
  { induction m as [|y m IH]; [reflexivity|]. cbn [map all_some]. rewrite H, IH. destruct (validate_row y); [|reflexivity].
    cbn [option_map]. destruct (all_some (map validate_row m)); reflexivity. }
  rewrite E. destruct (all_some (map validate_row m)); reflexivity.
Qed.

Lemma fmin_plus c l : l <> [] -> fmin (map (fun t => t + c) l) = fmin l + c.
Proof.
  destruct l as [|x l]; [congruence|]. intros _. cbn [map fmin].
  replace (x + c) with (x - - c) by ring. rewrite (map_ext _ (fun t => t - - c)) by (intros; ring).
  rewrite fold_rmin_shift. ring.
Qed.
Lemma span_plus c l : fmax (map (fun t => t + c) l) - fmin (map (fun t => t + c) l) = fmax l - fmin l.
Proof. rewrite (map_ext _ (fun t => t - - c)) by (intros; ring). apply span_shift. Qed.
Lemma t_rel_plus c l : map (fun t => t - fmin (map (fun t => t + c) l)) (map (fun t => t + c) l) = map (fun t => t - fmin l) l.
Proof.
  destruct l as [|x l]; [reflexivity|]. set (m := x :: l). rewrite fmin_plus by discriminate. rewrite map_map. apply map_ext. intros; ring.
Qed.
Lemma filter_combine_map (h : R -> R) (P : string * string -> bool) ts : forall fs,
  map fst (filter (fun p => P (snd p)) (combine (map h ts) fs)) = map h (map fst (filter (fun p => P (snd p)) (combine ts fs))).
Proof.
  induction ts as [|t ts IH]; intros [|x fs]; cbn; try reflexivity. destruct (P x); cbn; rewrite IH; reflexivity.
Qed.
Lemma summarize_plus c use ts fs : summarize use (map (fun t => t + c) ts) fs = summarize use ts fs.
Proof.
  unfold summarize. destruct use; [|reflexivity]. cbn [negb]. f_equal. f_equal. apply map_ext. intros s.
  rewrite (filter_combine_map (fun t => t + c) (fun q => String.eqb (snd q) s)). apply span_plus.
Qed.

Lemma estimate_shift c o l : est o (map (shift c) l) = est o l.
Proof.
  unfold est, estimate. destruct (negb (options_ok o)); [reflexivity|].
  rewrite (validate_gen (shift c) (vshift c)).
  2:{ intros ob. unfold validate_row, shift. cbn. destruct (o_mag ob), (o_r ob), (o_delta ob), (o_phase ob); try reflexivity.
      destruct (rle _ 0 || rle _ 0); reflexivity. }
  destruct (validate l) as [vs|]; [|reflexivity]. cbn [bind]. rewrite map_length.
  assert (T : map (fun v => v_time v - v_delta v / light) (map (vshift c) vs) = map (fun t => t + c) (map (fun v => v_time v - v_delta v / light) vs)).
  { rewrite !map_map. apply map_ext. intros v. cbn. ring. }
  rewrite T. rewrite t_rel_plus, summarize_plus, !(existsb_map_ext _ (vshift c)). 
  assert (W : map (fun _ => 1) (map (vshift c) vs) = map (fun _ : valid_obs => 1) vs) by (rewrite map_map; reflexivity).
  rewrite W.
  assert (Y : map (fun v => v_mag v - 5 * log10 (v_r v * v_delta v)) (map (vshift c) vs) = map (fun v => v_mag v - 5 * log10 (v_r v * v_delta v)) vs)
    by (rewrite map_map; reflexivity). rewrite Y.
  assert (SG : map v_sigma (map (vshift c) vs) = map v_sigma vs) by (rewrite map_map; reflexivity). rewrite SG.
  assert (FS : map (fun v => (v_filter v, label "__missing_session__" (v_session v))) (map (vshift c) vs) = map (fun v => (v_filter v, label "__missing_session__" (v_session v))) vs)
    by (rewrite map_map; reflexivity). rewrite FS.
  cbv zeta. rewrite !(data_of_map _ _ _ _ _ vs (vshift c)) by reflexivity. reflexivity.
Qed.

(* uncertainties removed *)
Definition unsigned (o : obs) : obs :=
  mkobs (o_time o) (o_mag o) None (o_filter o) (o_session o) (o_r o) (o_delta o) (o_phase o).
Definition vunsigned (v : valid_obs) : valid_obs :=
  mkvalid (v_time v) (v_mag v) None (v_filter v) (v_session v) (v_r v) (v_delta v) (v_phase v).
Lemma weights_none s : (exists x, In x s /\ match x with Some v => v <= 0 | None => True end) -> weights_from_sigma s = None.
Proof.
  intros (x & Hx & C). unfold weights_from_sigma. destruct (all_some s) as [v|] eqn:E; [|reflexivity].
  apply all_some_nth in E. subst s. apply in_map_iff in Hx. destruct Hx as (y & <- & Hy).
  destruct (forallb _ v) eqn:F; [|reflexivity]. rewrite forallb_forall in F. specialize (F y Hy). destruct (Rlt_dec 0 y); [lra|discriminate].
Qed.

Lemma estimate_unsigned o l : early_exit o = false ->
  (exists ob, In ob l /\ match o_sigma ob with Some v => v <= 0 | None => True end) -> est o (map unsigned l) = est o l.
Proof.
  intros EE (ob & Hob & C). unfold est, estimate. destruct (negb (options_ok o)); [reflexivity|].
  rewrite (validate_gen unsigned vunsigned).
  2:{ intros x. unfold validate_row, unsigned. cbn. destruct (o_mag x), (o_r x), (o_delta x), (o_phase x); try reflexivity.
      destruct (rle _ 0 || rle _ 0); reflexivity. }
  destruct (validate l) as [vs|] eqn:V; [|reflexivity]. cbn [bind]. rewrite map_length, EE.
  assert (SG : map v_sigma vs = map o_sigma l).
  { eapply validate_map; [|exact V]. intros x v Hv. apply validate_row_inv in Hv. tauto. }
  assert (W1 : weights_from_sigma (map v_sigma vs) = None).
  { rewrite SG. apply weights_none. exists (o_sigma ob). split; [apply in_map; exact Hob|exact C]. }
  assert (W2 : weights_from_sigma (map v_sigma (map vunsigned vs)) = None).
  { rewrite map_map. cbn. apply weights_none. exists None. split; [|exact I]. apply in_map_iff.
    pose proof (validate_length _ _ V) as LEN. destruct l; [destruct Hob|]. destruct vs as [|v vs]; [discriminate|]. exists v. split; [reflexivity|left; reflexivity]. }
  rewrite W1, W2.
  assert (T : map (fun v => v_time v - v_delta v / light) (map vunsigned vs) = map (fun v => v_time v - v_delta v / light) vs) by (rewrite map_map; reflexivity).
  rewrite T. rewrite !(existsb_map_ext _ vunsigned).
  assert (W : map (fun _ => 1) (map vunsigned vs) = map (fun _ : valid_obs => 1) vs) by (rewrite map_map; reflexivity).
  rewrite W.
  assert (Y : map (fun v => v_mag v - 5 * log10 (v_r v * v_delta v)) (map vunsigned vs) = map (fun v => v_mag v - 5 * log10 (v_r v * v_delta v)) vs)
    by (rewrite map_map; reflexivity). rewrite Y.
  assert (FS : map (fun v => (v_filter v, label "__missing_session__" (v_session v))) (map vunsigned vs) = map (fun v => (v_filter v, label "__missing_session__" (v_session v))) vs)
    by (rewrite map_map; reflexivity). rewrite FS.
  cbv zeta. rewrite !(data_of_map _ _ _ _ _ vs vunsigned) by reflexivity. reflexivity.
Qed.

(* all light emitted at the same time *)
Lemma estimate_zero o l : options_ok o = true -> l <> [] -> (forall ob, In ob l -> usable ob) -> covered light l <= 0 ->
  if early_exit o then exists r, est o l = Ok r /\ p_verdict r = "insufficient_data" /\ In "insufficient_time_span" (p_reasons r) /\ p_days r = None
  else est o l = Err ValueError.
Proof.
  intros OK NE US SP. destruct (usable_valid l NE US) as (vs & V).
  unfold est, estimate. rewrite OK, V. cbn [negb bind].
  assert (T : map (fun v => v_time v - v_delta v / light) vs = map (emission light) l).
  { eapply validate_map; [|exact V]. intros ob v Hv. apply validate_row_inv in Hv. unfold emission.
    destruct Hv as (-> & _ & _ & _ & _ & _ & -> & _). reflexivity. }
  rewrite T, span_shift. change (fmax (map (emission light) l) - fmin (map (emission light) l)) with (covered light l).
  apply rle_true in SP. cbv zeta. destruct (early_exit o); [|rewrite SP; reflexivity].
  match goal with |- context [pre_solve ?a ?b ?c ?d ?e ?f ?g ?h] => remember (pre_solve a b c d e f g h) as pre eqn:P end.
  assert (I : In "insufficient_time_span" pre).
  { subst pre. unfold pre_solve, emitted. rewrite SP. cbn [orb]. apply in_map_iff. exists (true, "insufficient_time_span"). split; [reflexivity|].
    apply filter_In. split; [right; left; reflexivity|reflexivity]. }
  destruct pre as [|x r]; [destruct I|]. eexists. split; [reflexivity|]. cbn. auto.
Qed.

(* a weighted fit where all weights are the same *)
Lemma fit_equal clip w all nf order freq r : 0 < w -> (forall d, In d all -> d_w d = w) ->
  fit_frequency lstsq hgfit true clip all nf order freq = Some r ->
  exists kept, sub kept all /\ List.length kept = r_nfit r /\
    r_sigma r = sqrt (INR (r_nfit r + r_nclip r) / INR (r_nfit r)) *
                sqrt (rsum (map (fun d => residual (r_coeffs r) order freq d * residual (r_coeffs r) order freq d) kept) / INR (r_nfit r - r_npar r)).
Proof.
  intros Hw HA H. apply fit_inv in H. destruct H as (_ & _ & B3 & B4 & B5 & kept & K1 & K2 & K3 & _). exists kept. split; [exact K1|]. split; [exact K2|].
  assert (E : map d_w kept = map (fun _ => w) (map (residual (r_coeffs r) order freq) kept)).
  { rewrite map_map. apply map_ext_in. intros d Hd. apply HA. apply (sub_In _ _ _ K1 Hd). }
  cbn iota in K3. rewrite E in K3.
  assert (LR : List.length (map (residual (r_coeffs r) order freq) kept) = r_nfit r) by (rewrite map_length; exact K2).
  pose proof (paper_sigma_equal (map (residual (r_coeffs r) order freq) kept) w (List.length all) (r_npar r) Hw) as (s & rss & df & P1 & P2); [lia|].
  rewrite LR in *. rewrite P2 in K3. injection K3 as K3 _ _. rewrite <- K3, B5. f_equal.
  unfold paper_sigma in P1. destruct (_ <=? 0)%Z eqn:Z0; [discriminate|]. injection P1 as P1 P3 P4. rewrite <- P1, map_map.
  assert (D : IZR (Z.of_nat (r_nfit r) - Z.of_nat (r_npar r)) = INR (r_nfit r - r_npar r)) by (rewrite INR_IZR_INZ; f_equal; lia).
  rewrite D. rewrite Rmax_left; [reflexivity|].
  apply Rmult_le_pos; [|left; apply Rinv_0_lt_compat, lt_0_INR; lia].
  rewrite <- (map_map (residual (r_coeffs r) order freq) (fun x => x * x)). apply rsum_sq_nonneg.
Qed.
End More.
