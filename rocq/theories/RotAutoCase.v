(* A table of observations for which the automatic mode chooses session offsets. *)
From Coq Require Import Reals Lra.
From Coq Require Import List String Bool Lia Arith Sorted Permutation.
From Verif Require Import Base ListLemmas PhotModel RotModel RotScore RotFit RotClus RotDerive RotEst RotMain RotMore RotSingle RotAuto.
Import ListNotations.
Open Scope string_scope.
Open Scope list_scope.
Open Scope R_scope.

(* unit weights give the fits without weights *)
Lemma rsum_ones (l : list datum) : (forall d, In d l -> d_w d = 1) -> rsum (map d_w l) = INR (List.length l).
Proof.
  induction l as [|d l IH]; intros H; [reflexivity|]. cbn [map List.length]. rewrite S_INR, <- IH by (intros e He; apply H; right; exact He).
  unfold rsum. cbn [fold_right]. rewrite (H d (or_introl eq_refl)). ring.
Qed.
Lemma fit_unit lstsq hgfit clip all nf order freq : (forall d, In d all -> d_w d = 1) ->
  (nf + 2 * order < List.length all)%nat -> 0 <= clip -> INR (List.length all - (nf + 2 * order)) <= clip * clip ->
  exists r, fit_frequency lstsq hgfit true clip all nf order freq = Some r.
Proof.
  intros W Hn Hc Hd.
  assert (SE : solve lstsq hgfit true all nf order freq all = solve lstsq hgfit false all nf order freq all).
  { unfold solve. cbv zeta. rewrite (map_ext_in (fun d => d_w d) (fun _ => 1) all W).
    set (c := weighted_lstsq _ _ _ _). rewrite combine_map_r, !map_map. cbn [fst snd]. unfold paper_sigma.
    destruct (_ <=? 0)%Z; [reflexivity|]. rewrite (rsum_ones all W). set (res := map (fun x => d_y x - dotp (d_fix x ++ fourier (d_t x) freq order) c) all).
    assert (E : map (fun p => fst p * (snd p * snd p)) (combine (map d_w all) res) = map (fun r => r * r) res).
    { unfold res. rewrite combine_maps, !map_map. apply map_ext_in. intros d Hd'. cbn. rewrite (W d Hd'). ring. }
    rewrite E. assert (N : 0 < INR (List.length all)) by (apply lt_0_INR; lia). destruct (Rle_dec _ 0); [lra|].
    unfold res. replace (INR (List.length all) / INR (List.length all)) with 1 by (field; lra). rewrite Rmult_1_l. reflexivity. }
  destruct (fit_no_clip lstsq hgfit clip all nf order freq Hn Hc Hd) as (r & E & NC). exists r. revert E NC. unfold fit_frequency.
  destruct (Nat.leb _ _); [discriminate|]. cbn [clip_loop]. destruct (Nat.leb _ _); [discriminate|]. rewrite SE.
  destruct (solve lstsq hgfit false all nf order freq all) as [[[[[c res] s] q] df]|] eqn:SV; [|discriminate].
  destruct (forallb _ _) eqn:F; [auto|]. intros E NC. exfalso.
  assert (LM : List.length (map (fun r => rle (Rabs r) (clip * s)) res) = List.length all).
  { apply solve_inv in SV. destruct SV as [-> _]. rewrite !map_length. reflexivity. }
  pose proof (masked_sub _ all LM) as M. pose proof (masked_shorter _ all LM F) as MS.
  apply (clip_loop_inv lstsq hgfit false clip all nf order freq 7 _ r M) in E. destruct E as (_ & _ & _ & _ & E & kept & K1 & K2 & _).
  apply sub_length in K1. lia.
Qed.

Section Ok.
Variable lstsq : list (list R) -> list R -> list R.
Variable hgfit : R -> R -> R * R.
Variable f_cdf : R -> Z -> Z -> R.
Variable f_ppf : R -> Z -> Z -> option R.
Variable light : R.
Let est := estimate lstsq hgfit f_cdf f_ppf light.

(* as [estimate_ok], for every session mode *)
Lemma estimate_ok_any o l k : options_ok o = true -> l <> [] -> (forall ob, In ob l -> usable ob) ->
  0 < covered light l -> grid_min (covered light l) (min_rotations o) (max_period o) < max_frequency o ->
  early_exit o = false -> weighted_of l = false \/ (forall ob, In ob l -> o_sigma ob = Some 1) ->
  In k (match orders o with [] => profile_orders | ks => ks end) ->
  (n_fixed false (pairs l) + 2 * k < List.length l)%nat -> (n_fixed true (pairs l) + 2 * k < List.length l)%nat ->
  INR (List.length l) <= clip_sigma o * clip_sigma o ->
  exists r p, est o l = Ok r /\ p_days r = Some p.
Proof.
  intros OK NE US SP GM PRE WT HK HN HN2 HC.
  destruct (usable_valid l NE US) as (vs & V).
  unfold est, estimate. rewrite OK, V. cbn [negb bind].
  assert (T : map (fun v => v_time v - v_delta v / light) vs = map (emission light) l).
  { eapply validate_map; [|exact V]. intros ob v Hv. apply validate_row_inv in Hv. unfold emission.
    destruct Hv as (-> & _ & _ & _ & _ & _ & -> & _). reflexivity. }
  assert (FS : map (fun v => (v_filter v, label "__missing_session__" (v_session v))) vs = pairs l).
  { eapply validate_map; [|exact V]. intros ob v Hv. apply validate_row_inv in Hv. destruct Hv as (_ & _ & _ & -> & -> & _). reflexivity. }
  assert (SG : map v_sigma vs = map o_sigma l).
  { eapply validate_map; [|exact V]. intros ob v Hv. apply validate_row_inv in Hv. tauto. }
  pose proof (validate_length _ _ V) as LEN.
  rewrite T, FS, SG.
  set (t_rel := map (fun t => t - fmin (map (emission light) l)) (map (emission light) l)).
  assert (SPE : fmax t_rel - fmin t_rel = covered light l) by apply span_shift.
  rewrite SPE.
  assert (LT : List.length t_rel = List.length vs) by (unfold t_rel; rewrite !map_length; lia).
  assert (LF : List.length (pairs l) = List.length vs) by (unfold pairs; rewrite map_length; lia).
  set (y := map (fun v => v_mag v - 5 * log10 (v_r v * v_delta v)) vs).
  assert (LY : List.length y = List.length vs) by (unfold y; rewrite map_length; reflexivity).
  cbv zeta. rewrite PRE.
  assert (E0 : rle (covered light l) 0 = false) by (apply rle_false; exact SP). rewrite E0.
  change (match weights_from_sigma (map o_sigma l) with Some _ => true | None => false end) with (weighted_of l).
  set (ws := match weights_from_sigma (map o_sigma l) with Some w => w | None => map (fun _ => 1) vs end).
  assert (LW : List.length ws = List.length vs).
  { unfold ws. destruct (weights_from_sigma (map o_sigma l)) as [w|] eqn:W; [|rewrite map_length; reflexivity].
    apply weights_length in W. rewrite map_length in W. lia. }
  destruct (options_inv _ OK) as (CP & MR & MF & _).
  pose proof (grid_min_pos (covered light l) (min_rotations o) (max_period o) SP MR) as GP.
  destruct (build_grid (covered light l) (min_rotations o) (max_frequency o) (grid_scale o) (max_period o)) as [freqs|e] eqn:BG.
  2:{ exfalso. unfold build_grid in BG. assert (E1 : rle (grid_min (covered light l) (min_rotations o) (max_period o)) 0 = false) by (apply rle_false; exact GP).
      assert (E2 : rle (max_frequency o) (grid_min (covered light l) (min_rotations o) (max_period o)) = false) by (apply rle_false; exact GM).
      rewrite E1, E2 in BG. discriminate. }
  cbn [bind].
  destruct (grid_ends _ _ _ _ _ _ BG) as (GL & _).
  assert (D : forall off, exists sol, derive lstsq hgfit f_cdf f_ppf o (weighted_of l) (data_of off (pairs l) t_rel y ws vs) (n_fixed off (pairs l)) freqs = Ok sol).
  { intros off. set (base := data_of off (pairs l) t_rel y ws vs).
    assert (LB : List.length base = List.length l) by (unfold base; rewrite data_length; [exact LEN|exact LT|exact LY|exact LF|exact LW]).
    assert (F : exists f, fit_frequency lstsq hgfit (weighted_of l) (clip_sigma o) base (n_fixed off (pairs l)) k (nth 0 freqs 0) = Some f).
    { assert (CL : INR (List.length base - (n_fixed off (pairs l) + 2 * k)) <= clip_sigma o * clip_sigma o) by (eapply Rle_trans; [apply le_INR|exact HC]; lia).
      destruct WT as [WT|WT].
      - rewrite WT. destruct (fit_no_clip lstsq hgfit (clip_sigma o) base (n_fixed off (pairs l)) k (nth 0 freqs 0)) as (f & F & _); [destruct off; lia|lra|exact CL|eauto].
      - assert (U : forall (m : list obs), (forall ob, In ob m -> o_sigma ob = Some 1) -> weights_from_sigma (map o_sigma m) = Some (map (fun _ => 1) m)).
        { intros m Hm. unfold weights_from_sigma. assert (A : all_some (map o_sigma m) = Some (map (fun _ => 1) m)).
          { induction m as [|a m IH]; [reflexivity|]. cbn [map all_some]. rewrite (Hm a (or_introl eq_refl)), IH by (intros ob Hob; apply Hm; right; exact Hob). reflexivity. }
          rewrite A. assert (FB : forallb (fun v => if Rlt_dec 0 v then true else false) (map (fun _ : obs => 1) m) = true).
          { apply forallb_forall. intros x Hx. apply in_map_iff in Hx. destruct Hx as (_ & <- & _). destruct (Rlt_dec 0 1); [reflexivity|lra]. }
          rewrite FB, map_map. f_equal. apply map_ext. intros _. field. }
        assert (WV : weighted_of l = true) by (unfold weighted_of; rewrite (U l WT); reflexivity). rewrite WV.
        apply fit_unit; [|destruct off; lia|lra|exact CL].
        intros d Hd. assert (DW : map d_w base = ws) by (apply data_weights; assumption). apply (in_map d_w) in Hd. rewrite DW in Hd. unfold ws in Hd. rewrite (U l WT) in Hd.
        apply in_map_iff in Hd. destruct Hd as (_ & E & _). symmetry. exact E. }
    destruct F as (f & F).
    exact (derive_ok lstsq hgfit f_cdf f_ppf o (weighted_of l) base (n_fixed off (pairs l)) freqs k 0 f (proj2 (used_orders_in o k) HK) ltac:(lia) F). }
  destruct (D false) as (b & ->), (D true) as (s & ->). cbn [bind].
  match goal with |- exists r p, bind ?su _ = _ /\ _ => assert (SU : exists q, su = Ok q) end.
  { destruct (_ && _); [|eauto]. destruct (mode o); [|eauto|]; destruct (_ && _); eauto. }
  destruct SU as (q & ->). cbn [bind]. eexists. eexists. split; reflexivity.
Qed.

(* the reported fit is one of the fits of the data and no other frequency fits better *)
Lemma reported_fit o l r p : est o l = Ok r -> p_days r = Some p -> covered light l * eps64 <= min_rotations o ->
  exists data freqs k i f, map d_t data = elapsed light l /\ map d_y data = map reduced l /\ List.length data = List.length l /\
    (forall d, In d data -> List.length (d_fix d) = n_fixed (p_offsets r) (pairs l)) /\
    build_grid (covered light l) (min_rotations o) (max_frequency o) (grid_scale o) (max_period o) = Ok freqs /\
    In k (match orders o with [] => profile_orders | ks => ks end) /\
    (i < List.length freqs)%nat /\ p_order r = Some k /\ p_sigma r = Some (r_sigma f) /\ p_nfit r = r_nfit f /\
    let fit j := fit_frequency lstsq hgfit (weighted_of l) (clip_sigma o) data (n_fixed (p_offsets r) (pairs l)) k (nth j freqs 0) in
    fit i = Some f /\ forall j g, (j < List.length freqs)%nat -> fit j = Some g -> r_sigma f <= r_sigma g.
Proof.
  intros H HP EPS. pose proof (counts_spec _ _ _ _ _ _ _ _ H) as (_ & _ & CS). destruct (CS p HP) as (_ & k0 & s0 & K0 & IK & _).
  apply estimate_inv in H. destruct H as (OK & _ & [(_ & rs & nfil & ns & Hr & _ & ->)|(SP & freqs & all & nf & sol & half & v & S)]); [discriminate|].
  destruct S as (S1 & S2 & S3 & S4 & S5 & S6 & EV & S7 & E0 & E1 & E2 & E3 & E4 & E5 & E6 & E7 & E8 & E9 & E10 & E11 & E12 & E13 & E14 & E15 & E16 & E17 & E18 & E19 & E20 & _ & _ & DT & DY & DF & _).
  assert (p = w_period (s_chosen sol)) by congruence. subst p.
  assert (FR : forall i, (i < List.length freqs)%nat -> eps64 <= nth i freqs 0).
  { intros i Hi. destruct (grid_range _ _ _ _ _ _ i S1 Hi) as [G _]. eapply Rle_trans; [|exact G].
    apply Rle_trans with (min_rotations o / covered light l).
    - apply (Rmult_le_reg_r (covered light l)); [exact SP|]. unfold Rdiv. rewrite Rmult_assoc, Rinv_l, Rmult_1_r by lra. lra.
    - unfold grid_min. destruct (max_period o); [apply Rmax_l|lra]. }
  destruct (derive_spec _ _ _ _ _ _ _ _ _ _ FR S6) as (ch & i & bf & _ & HI & HF & HC & HM & _).
  pose proof (fit_inv _ _ _ _ _ _ _ _ _ HF) as (K1 & K2 & _).
  rewrite HC in E10, E11, E14. cbn [fit_with_period w_fit] in E10, E11, E14. rewrite K2 in E10.
  exists all, freqs, (r_order ch), i, bf. split; [exact DT|]. split; [exact DY|]. split; [exact S2|]. split; [rewrite <- S3; exact DF|]. split; [exact S1|].
  split; [congruence|]. split; [exact HI|]. split; [exact E10|]. split; [exact E11|]. split; [exact E14|]. rewrite <- S3. split; [exact HF|]. exact HM.
Qed.
End Ok.

(* ---- 40 observations of two sessions; the fit is good only if the session offset is there ---- *)
Definition row2 (i : nat) : obs :=
  mkobs (INR i / 20) (Some (10 * cos (4 * PI * (INR i / 20)) + 1)) None (Some "r") (Some (if Nat.ltb i 20 then "a" else "b")) (Some 1) (Some 1) (Some 0).
Definition obs2 : list obs := map row2 (seq 0 40).
Definition options2 : options := mkoptions true [2%nat] 100 (1 / 2) (101 / 100) 30 (Some 24) false Auto 6 10 true.
Definition coeffs2 : list R := [0; 0; 0; 0; 0; 0; 10; 0].
Definition lstsq2 : list (list R) -> list R -> list R := fun rows _ => if Nat.eqb (List.length (hd [] rows)) 8 then coeffs2 else [].

Section Case2.
Variable hgfit : R -> R -> R * R.
Variable f_cdf : R -> Z -> Z -> R.
Variable f_ppf : R -> Z -> Z -> option R.
Variable light : R.
Let est := estimate lstsq2 hgfit f_cdf f_ppf light.

Lemma emission2 : map (emission light) obs2 = map (emission light) obs40.
Proof. unfold obs2, obs40. rewrite !map_map. reflexivity. Qed.
Lemma covered2 : covered light obs2 = 39 / 20.
Proof. unfold covered. rewrite emission2. apply covered40. Qed.
Lemma elapsed2 : elapsed light obs2 = elapsed light obs40.
Proof. unfold elapsed. rewrite emission2. reflexivity. Qed.
Lemma reduced2 : map reduced obs2 = map reduced obs40.
Proof. unfold obs2, obs40. rewrite !map_map. reflexivity. Qed.

Lemma fourier_len t f k : List.length (fourier t f k) = (2 * k)%nat.
Proof.
  unfold fourier. match goal with |- List.length (flat_map ?g _) = _ => set (h := g); assert (H : forall m, List.length (h m) = 2%nat) by reflexivity; clearbody h end.
  assert (G : forall l, List.length (flat_map h l) = (2 * List.length l)%nat).
  { induction l as [|m l IH]; [reflexivity|]. cbn [flat_map]. rewrite app_length, IH, H. cbn [List.length]. lia. }
  rewrite G, seq_length. reflexivity.
Qed.
Lemma coeffs_of weighted clip all nf order freq r : (forall d, In d all -> List.length (d_fix d) = nf) ->
  fit_frequency lstsq2 hgfit weighted clip all nf order freq = Some r -> r_coeffs r = if Nat.eqb (nf + 2 * order) 8 then coeffs2 else [].
Proof.
  intros HF. unfold fit_frequency. destruct (Nat.leb _ _); [discriminate|].
  assert (S1 : forall rows c res s q df, (forall d, In d rows -> List.length (d_fix d) = nf) -> (0 < List.length rows)%nat ->
            solve lstsq2 hgfit weighted all nf order freq rows = Some (c, res, s, q, df) -> c = if Nat.eqb (nf + 2 * order) 8 then coeffs2 else []).
  { intros rows c res s q df HR N. unfold solve. cbv zeta. destruct (paper_sigma _ _ _ _ _) as [[[s' q'] df']|]; [|discriminate].
    intros H. assert (E : c = weighted_lstsq lstsq2 (map (fun d => d_fix d ++ fourier (d_t d) freq order) rows ++ [unit_row (nf + 2 * order) (nf - 2); unit_row (nf + 2 * order) (nf - 1)])
       (map d_y rows ++ [fst (fst (prior hgfit (fmin (map (fun d => nth (nf - 2) (d_fix d) 0) all)))); snd (fst (prior hgfit (fmin (map (fun d => nth (nf - 2) (d_fix d) 0) all))))])
       (map (fun d => if weighted then d_w d else 1) rows ++ [fst (snd (prior hgfit (fmin (map (fun d => nth (nf - 2) (d_fix d) 0) all)))); snd (snd (prior hgfit (fmin (map (fun d => nth (nf - 2) (d_fix d) 0) all))))])) by congruence.
    rewrite E. unfold weighted_lstsq, lstsq2. destruct rows as [|d rows]; [cbn in N; lia|]. cbn [map app combine hd fst].
    rewrite map_length, app_length, fourier_len, (HR d (or_introl eq_refl)). reflexivity. }
  set (w := if Nat.eqb (nf + 2 * order) 8 then coeffs2 else []) in *. clearbody w.
  assert (G : forall k rows, sub rows all -> clip_loop lstsq2 hgfit k weighted clip all nf order freq rows = Some r -> r_coeffs r = w); [|apply (G 8%nat all); apply sub_refl].
  intros k. induction k as [|k IH]; intros rows SB; cbn [clip_loop];
    (destruct (Nat.leb (List.length rows) _) eqn:L; [discriminate|]; apply Nat.leb_gt in L;
     destruct (solve _ _ _ _ _ _ _ rows) as [[[[[c res] s] q] df]|] eqn:SV; [|discriminate]).
  - intros H. injection H as <-. cbn [result_of r_coeffs]. eapply (S1 rows); [|lia|exact SV]. intros d Hd. apply HF. exact (sub_In _ _ _ SB Hd).
  - destruct (forallb _ _) eqn:F.
    + intros H. injection H as <-. cbn [result_of r_coeffs]. eapply (S1 rows); [|lia|exact SV]. intros d Hd. apply HF. exact (sub_In _ _ _ SB Hd).
    + apply IH. eapply sub_trans; [|exact SB]. apply masked_sub. apply solve_inv in SV. destruct SV as [-> _]. rewrite !map_length. reflexivity.
Qed.

Definition sq (c : list R) (k : nat) (f : R) (data : list datum) : R := rsum (map (fun x => x * x) (map (residual c k f) data)).
Lemma fit_value data nf k f r : List.length data = 40%nat -> (nf + 2 * k < 40)%nat ->
  fit_frequency lstsq2 hgfit false 100 data nf k f = Some r ->
  r_nfit r = 40%nat /\ 0 <= r_sigma r /\ r_sigma r * r_sigma r * (INR 40 - INR (nf + 2 * k)) = sq (r_coeffs r) k f data.
Proof.
  intros L N E. assert (D : INR (40 - (nf + 2 * k)) <= 100 * 100).
  { apply Rle_trans with (INR 40); [apply le_INR; lia|]. replace (INR 40) with 40 by (cbn; lra). lra. }
  destruct (fit_no_clip lstsq2 hgfit 100 data nf k f) as (r' & E' & NC); [rewrite L; lia|lra|rewrite L; exact D|].
  assert (r' = r) by congruence. subst r'.
  apply fit_inv in E. destruct E as (F1 & F2 & F3 & F4 & F5 & kept & K1 & K2 & K3 & _).
  rewrite NC, Nat.add_0_r in F5. assert (kept = data) by (apply sub_full; [exact K1|lia]). subst kept.
  split; [lia|]. pose proof (paper_sigma_inv _ _ _ _ _ _ _ _ K3) as (_ & _ & SP). split; [exact SP|].
  rewrite F3, F5, L in K3. unfold paper_sigma in K3. destruct (_ <=? 0)%Z; [discriminate|].
  assert (K4 : sqrt (Rmax (sq (r_coeffs r) k f data / IZR (Z.of_nat 40 - Z.of_nat (nf + 2 * k))) 0) = r_sigma r) by (unfold sq; congruence).
  clear K3. rename K4 into K3. rewrite minus_IZR, <- !INR_IZR_INZ in K3.
  assert (P : 0 < INR 40 - INR (nf + 2 * k)) by (apply lt_INR in N; lra).
  assert (Q : 0 <= sq (r_coeffs r) k f data) by apply rsum_sq_nonneg.
  assert (Q2 : 0 <= sq (r_coeffs r) k f data / (INR 40 - INR (nf + 2 * k))) by (apply Rmult_le_pos; [exact Q|left; apply Rinv_0_lt_compat; exact P]).
  rewrite Rmax_left in K3 by exact Q2. rewrite <- K3, sqrt_sqrt by exact Q2. field. lra.
Qed.
Lemma residual_2 d f : List.length (d_fix d) = 4%nat -> residual coeffs2 2 f d = d_y d - 10 * cos (2 * (2 * PI * f * d_t d)).
Proof.
  intros L. unfold residual. destruct (d_fix d) as [|a [|b [|c [|e [|]]]]]; try discriminate.
  unfold fourier, dotp, coeffs2. cbn [seq flat_map app combine map fst snd rsum fold_right INR]. replace (1 + 1) with 2 by ring. ring.
Qed.
Lemma residual_0 d f k : residual [] k f d = d_y d.
Proof. unfold residual, dotp. destruct (d_fix d ++ _); cbn; ring. Qed.

Lemma options2_ok m : options_ok (with_mode m options2) = true.
Proof. exact options40_ok. Qed.
Lemma usable2 ob : In ob obs2 -> usable ob.
Proof. unfold obs2. rewrite in_map_iff. intros (i & <- & _). do 4 eexists. cbn. repeat (split; [reflexivity|]). lra. Qed.
Lemma long2 s : In s ["a"; "b"] -> is_long light obs2 s = true.
Proof.
  intros Hs. unfold is_long. rewrite existsb_exists.
  assert (G : forall i, (Datatypes.S i < 40)%nat -> night (row2 i) = s -> night (row2 (Datatypes.S i)) = s ->
    exists x, In x obs2 /\ existsb (fun b => String.eqb (night x) s && String.eqb (night b) s && rlt (emission light x) (emission light b)) obs2 = true).
  { intros i Hi A B. exists (row2 i). split; [unfold obs2; apply in_map; apply in_seq; lia|]. rewrite existsb_exists. exists (row2 (Datatypes.S i)).
    split; [unfold obs2; apply in_map; apply in_seq; lia|]. rewrite A, B, !String.eqb_refl. cbn [andb]. apply rlt_true.
    unfold emission, row2. cbn [o_delta o_time]. rewrite S_INR. lra. }
  destruct Hs as [<-|[<-|[]]]; [apply (G 0%nat)|apply (G 20%nat)]; try reflexivity; lia.
Qed.
Lemma eligible2 : eligible light options2 obs2.
Proof.
  split; [|split].
  - exists (row2 0), (row2 20). split; [unfold obs2; apply in_map; apply in_seq; lia|]. split; [unfold obs2; apply in_map; apply in_seq; lia|]. discriminate.
  - intros a Ha. unfold obs2 in Ha. apply in_map_iff in Ha. destruct Ha as (i & <- & Hi).
    assert (N : night (row2 i) = "a" \/ night (row2 i) = "b") by (unfold night, row2; cbn [o_session]; destruct (Nat.ltb i 20); auto).
    assert (B : band (row2 i) = "r") by reflexivity. rewrite B. destruct N as [-> | ->]; apply Nat.leb_le; vm_compute; reflexivity.
  - unfold half_long. assert (E : nodup string_dec (map night obs2) = ["a"; "b"]) by (unfold obs2; rewrite map_map; vm_compute; reflexivity). rewrite E.
    cbn [filter]. rewrite !long2 by (cbn; auto). cbn. lia.
Qed.

Lemma case2 : exists r p, est options2 obs2 = Ok r /\ p_days r = Some p /\ p_offsets r = true.
Proof.
  assert (PAIRS : n_fixed false (pairs obs2) = 3%nat /\ n_fixed true (pairs obs2) = 4%nat) by (split; vm_compute; reflexivity).
  destruct PAIRS as [N3 N4].
  assert (GM : grid_min (covered light obs2) (min_rotations options2) (max_period options2) = 1).
  { rewrite covered2, <- (covered40 light). apply grid40_min. }
  assert (L40 : List.length obs2 = 40%nat) by reflexivity.
  assert (WT : weighted_of obs2 = false) by reflexivity.
  assert (OKS : exists r p, est options2 obs2 = Ok r /\ p_days r = Some p).
  { apply (estimate_ok_any lstsq2 hgfit f_cdf f_ppf light options2 obs2 2).
    - apply (options2_ok Auto).
    - discriminate.
    - exact usable2.
    - rewrite covered2. lra.
    - rewrite GM. cbn. lra.
    - reflexivity.
    - left. exact WT.
    - left. reflexivity.
    - rewrite N3, L40. lia.
    - rewrite N4, L40. lia.
    - rewrite L40. cbn [clip_sigma options2]. replace (INR 40) with 40 by (cbn; lra). lra. }
  destruct OKS as (r & p & E & HP). exists r, p. split; [exact E|]. split; [exact HP|].
  destruct (auto_choice lstsq2 hgfit f_cdf f_ppf light options2 obs2 r p E HP eq_refl) as (b & B1 & B2 & B3 & HS).
  change (has_sessions obs2) with true in HS. cbn iota in HS. destruct HS as (s & S1 & S2 & S3 & _ & HS). specialize (HS WT).
  assert (EPS : forall m, covered light obs2 * eps64 <= min_rotations (with_mode m options2)).
  { intros m. rewrite covered2. cbn [min_rotations with_mode options2]. unfold eps64.
    assert (/ 2 ^ 52 <= / 2 ^ 3) by (apply Rinv_le_contravar; [lra|apply Rle_pow; [lra|lia]]). lra. }
  assert (FREQ : forall freqs, build_grid (covered light obs2) (1 / 2) (101 / 100) 30 (Some 24) = Ok freqs -> freqs = [1; 101 / 100]).
  { intros freqs. rewrite covered2, <- (covered40 light). apply grid40. }
  assert (IS : exists q, 0 < q <= 40 /\ information obs2 s = Some (40 * ln (q / 40) + 8 * ln 40)).
  { destruct (p_days s) as [ps|] eqn:PS; [|congruence].
    destruct (reported_fit lstsq2 hgfit f_cdf f_ppf light (with_mode Use options2) obs2 s ps S1 PS (EPS Use)) as (data & freqs & k & i & f & DT & DY & DL & DF & BG & IK & HI & PO & PG & PN & FI & FM).
    cbn [with_mode options2 min_rotations max_frequency grid_scale max_period orders clip_sigma] in BG, IK, FI, FM.
    apply FREQ in BG. subst freqs. destruct IK as [<-|[]]. rewrite S2, N4 in *. rewrite WT in FI, FM. rewrite L40 in DL. rewrite elapsed2 in DT. rewrite reduced2 in DY.
    pose proof (coeffs_of _ _ _ _ _ _ _ DF FI) as CF. cbn in CF.
    destruct (fit_value data 4 2 (nth i [1; 101 / 100] 0) f DL ltac:(lia) FI) as (V1 & V2 & V3). rewrite CF in V3.
    set (q := sq coeffs2 2 (nth i [1; 101 / 100] 0) data) in *.
    assert (QL : 1 <= q).
    { destruct (at40 light data DT DY 0 ltac:(lia)) as (d & Hd & E1 & E2).
      assert (G : residual coeffs2 2 (nth i [1; 101 / 100] 0) d * residual coeffs2 2 (nth i [1; 101 / 100] 0) d <= q) by (apply sq_le_rsum; apply in_map; exact Hd).
      rewrite (residual_2 d _ (DF d Hd)), E1, E2 in G. cbn [INR] in G.
      replace (2 * (2 * PI * nth i [1; 101 / 100] 0 * (0 / 20))) with 0 in G by (unfold Rdiv; ring).
      replace (4 * PI * (0 / 20)) with 0 in G by (unfold Rdiv; ring). rewrite cos_0 in G. lra. }
    assert (QU : q <= 40).
    { assert (D : INR (List.length data - (4 + 2 * 2)) <= 100 * 100).
      { rewrite DL. apply Rle_trans with (INR 40); [apply le_INR; lia|]. replace (INR 40) with 40 by (cbn; lra). lra. }
      destruct (fit_no_clip lstsq2 hgfit 100 data 4 2 1) as (g & G1 & _); [lia|lra|exact D|].
      assert (SG : r_sigma f <= r_sigma g) by (apply (FM 0%nat g); [cbn; lia|exact G1]).
      pose proof (coeffs_of _ _ _ _ _ _ _ DF G1) as CG. cbn in CG.
      destruct (fit_value data 4 2 1 g DL ltac:(lia) G1) as (W1 & W2 & W3). rewrite CG in W3.
      assert (SS : sq coeffs2 2 1 data = 40).
      { unfold sq. rewrite map_map. rewrite (map_ext_in _ (fun _ => 1)).
        - assert (G : forall l : list datum, rsum (map (fun _ => 1) l) = INR (List.length l)).
          { induction l as [|x l IH]; [reflexivity|]. cbn [map List.length]. rewrite S_INR, <- IH. unfold rsum. cbn [fold_right]. ring. }
          rewrite G, DL. cbn; lra.
        - intros d Hd. destruct (datum40 light data DT DY d Hd) as (j & E1 & E2). rewrite (residual_2 d 1 (DF d Hd)). rewrite E1, E2.
          replace (2 * (2 * PI * 1 * (INR j / 20))) with (4 * PI * (INR j / 20)) by ring. ring. }
      rewrite SS in W3. replace (INR 40 - INR (4 + 2 * 2)) with 32 in V3, W3 by (cbn; lra). nra. }
    exists q. split; [lra|]. unfold information. rewrite PG, PO, PN, V1, S2, N4. cbv zeta. rewrite V3.
    destruct (Rle_dec q 0); [lra|]. replace (INR 40) with 40 by (cbn; lra). replace (INR (4 + 2 * 2)) with 8 by (cbn; lra). reflexivity. }
  assert (IB : exists q, 121 <= q /\ information obs2 b = Some (40 * ln (q / 40) + 7 * ln 40)).
  { destruct (p_days b) as [pb|] eqn:PB; [|congruence].
    destruct (reported_fit lstsq2 hgfit f_cdf f_ppf light (with_mode Ignore options2) obs2 b pb B1 PB (EPS Ignore)) as (data & freqs & k & i & f & DT & DY & DL & DF & BG & IK & HI & PO & PG & PN & FI & FM).
    cbn [with_mode options2 min_rotations max_frequency grid_scale max_period orders clip_sigma] in BG, IK, FI, FM.
    apply FREQ in BG. subst freqs. destruct IK as [<-|[]]. rewrite B2, N3 in *. rewrite WT in FI, FM. rewrite L40 in DL. rewrite elapsed2 in DT. rewrite reduced2 in DY.
    pose proof (coeffs_of _ _ _ _ _ _ _ DF FI) as CF. cbn in CF.
    destruct (fit_value data 3 2 (nth i [1; 101 / 100] 0) f DL ltac:(lia) FI) as (V1 & V2 & V3). rewrite CF in V3.
    set (q := sq [] 2 (nth i [1; 101 / 100] 0) data) in *.
    assert (QL : 121 <= q).
    { destruct (at40 light data DT DY 0 ltac:(lia)) as (d & Hd & E1 & E2).
      assert (G : residual [] 2 (nth i [1; 101 / 100] 0) d * residual [] 2 (nth i [1; 101 / 100] 0) d <= q) by (apply sq_le_rsum; apply in_map; exact Hd).
      rewrite residual_0, E2 in G. cbn [INR] in G.
      replace (4 * PI * (0 / 20)) with 0 in G by (unfold Rdiv; ring). rewrite cos_0 in G. lra. }
    exists q. split; [exact QL|]. unfold information. rewrite PG, PO, PN, V1, B2, N3. cbv zeta. rewrite V3.
    destruct (Rle_dec q 0); [lra|]. replace (INR 40) with 40 by (cbn; lra). replace (INR (3 + 2 * 2)) with 7 by (cbn; lra). reflexivity. }
  destruct IS as (qs & QS & IS), IB as (qb & QB & IB).
  assert (RS : r = s).
  { apply HS. split; [exact eligible2|]. rewrite IS, IB. unfold improves. cbn [bic_improvement options2].
    assert (L1 : ln (qs / 40) <= 0). { rewrite <- ln_1. destruct (Req_dec (qs / 40) 1) as [->|Hne]; [lra|]. left. apply ln_increasing; lra. }
    assert (L2 : 1 < ln (qb / 40)). { rewrite <- (ln_exp 1). apply ln_increasing; [apply exp_pos|]. pose proof exp_le_3. lra. }
    assert (L3 : ln 40 < 30).
    { rewrite <- (ln_exp 30). apply ln_increasing; [lra|]. replace 30 with (15 + 15) by ring. rewrite exp_plus.
      assert (1 + 15 < exp 15) by (apply exp_ineq1; lra). nra. }
    lra. }
  rewrite RS. exact S2.
Qed.
End Case2.
