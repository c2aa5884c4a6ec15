(* One frequency: the masked, padded fit with a fixed number of rounds does what the numpy fit does on the kept
   rows, when the least-squares program is the ridge fit. *)
From Coq Require Import Reals Lra Lia.
From Coq Require Import List String Bool ZArith.
From Verif Require Import Base StrOrder PhotModel RotModel RotScore RotFit JaxModel JaxSpec JaxLinear.
Import ListNotations.
Open Scope list_scope.
Open Scope R_scope.

Lemma masked_map {A B} (f : A -> B) m : forall l, masked m (map f l) = map f (masked m l).
Proof. induction m as [|b m IH]; intros [|x l]; try reflexivity. cbn. destruct b; cbn; rewrite IH; reflexivity. Qed.
Lemma masked_app {A} m1 : forall m2 (l1 l2 : list A), List.length m1 = List.length l1 ->
  masked (m1 ++ m2) (l1 ++ l2) = masked m1 l1 ++ masked m2 l2.
Proof. induction m1 as [|b m1 IH]; intros m2 [|x l1] l2 H; try discriminate; [reflexivity|]. injection H as H. cbn. rewrite IH by exact H. destruct b; reflexivity. Qed.
Lemma masked_false {A} n (l : list A) : masked (repeat false n) l = [].
Proof. revert l. induction n as [|n IH]; intros [|x l]; try reflexivity. exact (IH l). Qed.
Lemma masked_true {A} (l : list A) : masked (repeat true (List.length l)) l = l.
Proof. induction l as [|x l IH]; [reflexivity|]. cbn. rewrite IH. reflexivity. Qed.
Lemma masked_length {A} m : forall l : list A, List.length m = List.length l -> List.length (masked m l) = count m.
Proof. unfold count. induction m as [|b m IH]; intros [|x l] H; try discriminate; [reflexivity|]. injection H as H. destruct b; cbn; rewrite IH by exact H; reflexivity. Qed.
Lemma masked_combine {A B} m : forall (l : list A) (k : list B), List.length m = List.length l -> List.length m = List.length k ->
  masked m (combine l k) = combine (masked m l) (masked m k).
Proof. induction m as [|b m IH]; intros [|x l] [|y k] H K; try discriminate; [reflexivity|]. injection H as H. injection K as K. cbn. rewrite IH by assumption. destruct b; reflexivity. Qed.
Lemma rsum_masked {A} (g : A -> R) m : forall l, List.length m = List.length l ->
  rsum (map (fun p => if fst p : bool then g (snd p) else 0) (combine m l)) = rsum (map g (masked m l)).
Proof.
  induction m as [|b m IH]; intros [|x l] H; try discriminate; [reflexivity|]. injection H as H. specialize (IH l H).
  cbn [combine map masked fst snd]. destruct b; cbn [map].
  - transitivity (g x + rsum (map (fun p => if fst p : bool then g (snd p) else 0) (combine m l))); [reflexivity|]. rewrite IH. reflexivity.
  - transitivity (0 + rsum (map (fun p => if fst p : bool then g (snd p) else 0) (combine m l))); [reflexivity|]. rewrite IH. lra.
Qed.
Lemma combine_app_eq {A B} (a : list A) : forall (b : list A) (c : list B) d, List.length a = List.length c ->
  combine (a ++ b) (c ++ d) = combine a c ++ combine b d.
Proof. induction a as [|x a IH]; intros b [|y c] d H; try discriminate; [reflexivity|]. injection H as H. cbn. rewrite IH by exact H. reflexivity. Qed.
Lemma combine_maps {A B C} (f : A -> B) (g : A -> C) l : combine (map f l) (map g l) = map (fun x => (f x, g x)) l.
Proof. induction l as [|x l IH]; [reflexivity|]. cbn. rewrite IH. reflexivity. Qed.
Lemma masked_In {A} m : forall (l : list A) x, In x (masked m l) -> In x l.
Proof. induction m as [|b m IH]; intros [|y l] x H; try (destruct H; fail). cbn in H. destruct b; [destruct H as [<-|H]; [left; reflexivity|right; exact (IH l x H)]|right; exact (IH l x H)]. Qed.

Definition scale (k : R) (r : list R) : list R := map (fun x => x * k) r.
Lemma scale_length k r : List.length (scale k r) = List.length r.
Proof. apply map_length. Qed.
Lemma scale_zeros k n : scale k (zeros n) = zeros n.
Proof. unfold zeros, scale. induction n as [|n IH]; [reflexivity|]. cbn. rewrite IH, Rmult_0_l. reflexivity. Qed.
Lemma scale_pad k nf p r : scale k (pad_cols nf p r) = pad_cols nf p (scale k r).
Proof. unfold pad_cols. rewrite <- (scale_zeros k p) at 2. unfold scale. rewrite !map_app, firstn_map, skipn_map. reflexivity. Qed.
Lemma nth_scale0 i r : nth i (scale (sqrt 0) r) 0 = 0.
Proof. rewrite sqrt_0. revert i. induction r as [|x r IH]; intros [|i]; cbn; [reflexivity|reflexivity|lra|exact (IH i)]. Qed.
Lemma pad_app nf p a b : List.length a = nf -> pad_cols nf p (a ++ b) = (a ++ zeros p) ++ b.
Proof.
  intros <-. unfold pad_cols. rewrite firstn_app, firstn_all, Nat.sub_diag, firstn_O, app_nil_r.
  rewrite skipn_app, skipn_all, Nat.sub_diag, skipn_O. cbn [app]. rewrite app_assoc. reflexivity.
Qed.
Lemma pad_none nf r : pad_cols nf 0 r = r.
Proof. unfold pad_cols, zeros. cbn. apply firstn_skipn. Qed.
Lemma fourier_length t f order : List.length (fourier t f order) = (2 * order)%nat.
Proof.
  unfold fourier. assert (H : forall s, List.length (flat_map (fun h => [cos (INR h * (2 * PI * f * t)); sin (INR h * (2 * PI * f * t))]) (seq s order)) = (2 * order)%nat).
  { induction order as [|o IH]; intros s; [reflexivity|]. cbn [seq flat_map app List.length]. rewrite IH. lia. }
  apply H.
Qed.
Lemma unit_row_length n i : List.length (unit_row n i) = n.
Proof. unfold unit_row. rewrite map_length, seq_length. reflexivity. Qed.

Section Loop.
Variable solver : list (list R) -> list R -> list R.
Variable hgfit : R -> R -> R * R.
Variable weighted : bool.
Variable clip : R.
Variable all : list datum.
Variables nf order pad : nat.
Variable freq : R.
Variable P : list datum.
Hypothesis exact : solves solver.
Hypothesis HP : forall d, In d P -> List.length (d_fix d) = nf.
Hypothesis HN : P <> [].

Definition adj (d : datum) : datum := mkdatum (d_t d) (d_y d) (d_fix d) (if weighted then d_w d else 1).
Definition row_of (d : datum) : list R := d_fix d ++ fourier (d_t d) freq order.
Let n_par := (nf + 2 * order)%nat.
Let pr := prior hgfit (fmin (map (fun d => nth (nf - 2) (d_fix d) 0) all)).
Let prior_rows := [unit_row n_par (nf - 2); unit_row n_par (nf - 1)].
Let step := solve_with_mask solver weighted (List.length all) (Z.of_nat n_par) (map (pad_cols nf pad) prior_rows)
  [fst (fst pr); snd (fst pr)] [fst (snd pr); snd (snd pr)]
  (map (fun d => (d_fix d ++ zeros pad) ++ fourier (d_t d) freq order) P) (map d_y P) (map d_w P).

Lemma row_length d : In d P -> List.length (row_of d) = n_par.
Proof. intros H. unfold row_of, n_par. rewrite app_length, fourier_length, (HP d H). reflexivity. Qed.

(* the coefficients *)
Lemma step_coeffs active rows : List.length active = List.length P -> masked active P = map adj rows ->
  exists c resid rss sigma, step active = (pad_cols nf pad c, resid, rss, sigma) /\
    List.length c = n_par /\
    c = weighted_lstsq (ridge_lstsq solver) (map row_of rows ++ prior_rows) (map d_y rows ++ [fst (fst pr); snd (fst pr)])
          (map (fun d => if weighted then d_w d else 1) rows ++ [fst (snd pr); snd (snd pr)]) /\
    resid = map (fun d => d_y d - dotp (row_of d) c) P /\
    (rss, sigma) = (let w := masked active (map d_w P) in let rs := masked active resid in
             let df := (Z.of_nat (count active) - Z.of_nat n_par)%Z in
             if weighted then
               let q := rsum (map (fun p => fst p * (snd p * snd p)) (combine w rs)) in
               (q, if (0 <? df)%Z && rlt 0 (rsum w) then Some (sqrt (Rmax (INR (List.length all) / rsum w * q / IZR df) 0)) else None)
             else
               let q := rsum (map (fun r => r * r) rs) in
               (q, if (0 <? df)%Z then Some (sqrt (Rmax (q / IZR df) 0)) else None)).
Proof.
  intros HL HM.
  set (w_eff := map (fun p => if fst p : bool then snd p else 0) (combine active (map d_w P))).
  set (X0 := map (fun p => scale (sqrt (snd p)) (fst p)) (combine (map row_of P) w_eff)
             ++ map (fun p => scale (sqrt (snd p)) (fst p)) (combine prior_rows [fst (snd pr); snd (snd pr)])).
  set (t0 := map (fun p => fst p * sqrt (snd p)) (combine (map d_y P) w_eff)
                  ++ map (fun p => fst p * sqrt (snd p)) (combine [fst (fst pr); snd (fst pr)] [fst (snd pr); snd (snd pr)])).
  assert (LW : List.length w_eff = List.length P) by (unfold w_eff; rewrite map_length, combine_length, map_length; lia).
  assert (HX : forall r, In r X0 -> List.length r = n_par).
  { intros r Hr. unfold X0 in Hr. apply in_app_or in Hr. destruct Hr as [Hr|Hr]; apply in_map_iff in Hr; destruct Hr as ([a k] & <- & Hr);
      apply in_combine_l in Hr; cbn [fst snd]; rewrite scale_length.
    - apply in_map_iff in Hr. destruct Hr as (d & <- & Hd). apply row_length. exact Hd.
    - destruct Hr as [<-|[<-|[]]]; apply unit_row_length. }
  assert (ED : map (fun d => (d_fix d ++ zeros pad) ++ fourier (d_t d) freq order) P = map (pad_cols nf pad) (map row_of P)).
  { rewrite map_map. apply map_ext_in. intros d Hd. symmetry. apply pad_app. exact (HP d Hd). }
  set (c := solver (normal_matrix n_par X0) (normal_rhs n_par X0 t0)).
  destruct (solver_ok solver X0 n_par t0 exact HX) as [Lc _]. fold c in Lc.
  (* the padded design *)
  assert (DW : map (fun p => map (fun x => x * sqrt (snd p)) (fst p)) (combine (map (pad_cols nf pad) (map row_of P)) w_eff)
     ++ map (fun p => map (fun x => x * sqrt (snd p)) (fst p)) (combine (map (pad_cols nf pad) prior_rows) [fst (snd pr); snd (snd pr)])
     = map (pad_cols nf pad) X0).
  { unfold X0. rewrite map_app. f_equal; rewrite combine_map_l, !map_map; apply map_ext; intros [a k]; cbn [fst snd];
      rewrite <- scale_pad; reflexivity. }
  assert (NC : List.length (hd [] (map (pad_cols nf pad) (map row_of P))) = (n_par + pad)%nat).
  { assert (HD : exists d, In d P /\ hd [] (map (pad_cols nf pad) (map row_of P)) = pad_cols nf pad (row_of d)).
    { clear - HN. destruct P as [|d l]; [destruct (HN eq_refl)|]. exists d. split; [left; reflexivity|reflexivity]. }
    destruct HD as (d & Hd & ->). rewrite pad_length; rewrite (row_length d Hd); [reflexivity|unfold n_par; lia]. }
  assert (CE : solver (normal_matrix (n_par + pad) (map (pad_cols nf pad) X0)) (normal_rhs (n_par + pad) (map (pad_cols nf pad) X0) t0)
     = pad_cols nf pad c).
  { unfold c. apply padded_solver; [exact exact|unfold n_par; lia|exact HX]. }
  set (resid := map (fun p => fst p - dotp (snd p) (pad_cols nf pad c)) (combine (map d_y P) (map (pad_cols nf pad) (map row_of P)))).
  assert (ER : resid = map (fun d => d_y d - dotp (row_of d) c) P).
  { unfold resid. rewrite map_map, combine_maps, map_map. apply map_ext_in. intros d Hd. cbn [fst snd].
    rewrite pad_dotp by (rewrite (row_length d Hd); congruence). reflexivity. }
  assert (LR : List.length active = List.length resid) by (rewrite ER, map_length; exact HL).
  assert (EW : masked active w_eff = masked active (map d_w P)).
  { unfold w_eff. clear. generalize (map d_w P) as ws. intros ws. revert ws. induction active as [|b m IH]; intros [|y ws]; try reflexivity.
    cbn. destruct b; cbn; try rewrite IH; reflexivity. }
  assert (SW : rsum w_eff = rsum (masked active (map d_w P))).
  { unfold w_eff. rewrite (rsum_masked (fun x => x)) by (rewrite map_length; exact HL). rewrite map_id. reflexivity. }
  assert (EC : c = weighted_lstsq (ridge_lstsq solver) (map row_of rows ++ prior_rows) (map d_y rows ++ [fst (fst pr); snd (fst pr)])
          (map (fun d => if weighted then d_w d else 1) rows ++ [fst (snd pr); snd (snd pr)])).
  { set (keep := active ++ [true; true]).
    assert (LX : List.length keep = List.length X0).
    { unfold keep, X0. rewrite !app_length, !map_length, combine_length, map_length, LW. cbn. lia. }
    assert (LT : List.length t0 = List.length X0).
    { unfold t0, X0. rewrite !app_length, !map_length, !combine_length, !map_length, LW. reflexivity. }
    assert (ZR : forall r b, In (b, r) (combine keep X0) -> b = false -> forall i, nth i r 0 = 0).
    { unfold keep, X0. rewrite combine_app_eq.
      2:{ rewrite map_length, combine_length, map_length, LW. lia. }
      intros r b H -> i. apply in_app_or in H. destruct H as [H|H].
      2:{ destruct H as [H|[H|[]]]; discriminate. }
      unfold w_eff in H. clear - H HL. generalize (map row_of P) as A, (map d_w P) as B, H. clear.
      induction active as [|b m IH]; intros A B H; [destruct H|]. destruct A as [|a A]; [destruct H|]. destruct B as [|y B]; [destruct H|].
      cbn [combine map fst snd] in H. destruct H as [H|H]; [|exact (IH A B H)].
      injection H as Hb <-. rewrite Hb. cbn [fst snd]. apply nth_scale0. }
    unfold c. rewrite (filtered_matrix n_par X0 keep LX ZR), (filtered_rhs n_par X0 keep t0 LX LT ZR).
    assert (MX : masked keep X0 = map (fun p => scale (sqrt (snd p)) (fst p))
       (combine (map row_of rows ++ prior_rows) (map (fun d => if weighted then d_w d else 1) rows ++ [fst (snd pr); snd (snd pr)]))).
    { unfold keep, X0. rewrite masked_app by (rewrite map_length, combine_length, map_length, LW; lia).
      rewrite combine_app_eq by (rewrite !map_length; reflexivity). rewrite map_app. f_equal.
      rewrite masked_map, masked_combine by (rewrite ?map_length; congruence).
      rewrite EW, !masked_map, HM, !map_map. reflexivity. }
    assert (MT : masked keep t0 = map (fun p => fst p * sqrt (snd p))
       (combine (map d_y rows ++ [fst (fst pr); snd (fst pr)]) (map (fun d => if weighted then d_w d else 1) rows ++ [fst (snd pr); snd (snd pr)]))).
    { unfold keep, t0. rewrite masked_app by (rewrite map_length, combine_length, map_length, LW; lia).
      rewrite combine_app_eq by (rewrite !map_length; reflexivity). rewrite map_app. f_equal.
      rewrite masked_map, masked_combine by (rewrite ?map_length; congruence).
      rewrite EW, !masked_map, HM, !map_map. reflexivity. }
    unfold weighted_lstsq, ridge_lstsq.
    change (map (fun p => map (fun x => x * sqrt (snd p)) (fst p))
         (combine (map row_of rows ++ prior_rows) (map (fun d => if weighted then d_w d else 1) rows ++ [fst (snd pr); snd (snd pr)])))
      with (map (fun p => scale (sqrt (snd p)) (fst p))
         (combine (map row_of rows ++ prior_rows) (map (fun d => if weighted then d_w d else 1) rows ++ [fst (snd pr); snd (snd pr)]))).
    rewrite <- MX, <- MT.
    replace (List.length (hd [] (masked keep X0))) with n_par; [reflexivity|].
    assert (IN : In (hd [] (masked keep X0)) X0).
    { assert (NE : masked keep X0 <> []).
      { rewrite MX. destruct rows; cbn; discriminate. }
      apply (masked_In keep). destruct (masked keep X0); [destruct (NE eq_refl)|left; reflexivity]. }
    symmetry. apply HX. exact IN. }
  assert (SD := rsum_masked (fun z : R * R => fst z * (snd z * snd z)) active (combine w_eff resid) ltac:(rewrite combine_length; lia)). cbv beta in SD.
  unfold step, solve_with_mask. fold w_eff. rewrite ED, DW, NC. fold t0. rewrite CE. fold resid.
  destruct weighted.
  - eexists c, resid, _, _. split; [reflexivity|]. split; [exact Lc|]. split; [exact EC|]. split; [exact ER|].
    cbv zeta. rewrite SD. rewrite masked_combine by lia. rewrite EW, SW. reflexivity.
  - eexists c, resid, _, _. split; [reflexivity|]. split; [exact Lc|]. split; [exact EC|]. split; [exact ER|].
    cbv zeta. rewrite (rsum_masked (fun r => r * r)) by lia. reflexivity.
Qed.

(* one step against the numpy solve *)
Lemma step_solve active rows : List.length active = List.length P -> masked active P = map adj rows ->
  exists c resid rss sigma, step active = (pad_cols nf pad c, resid, rss, sigma) /\ List.length c = n_par /\
    List.length resid = List.length active /\ count active = List.length rows /\
    masked active resid = map (fun d => d_y d - dotp (row_of d) c) rows /\
    solve (ridge_lstsq solver) hgfit weighted all nf order freq rows =
      match sigma with
      | Some s => Some (c, masked active resid, s, rss, (Z.of_nat (List.length rows) - Z.of_nat n_par)%Z)
      | None => None
      end /\
    (sigma <> None -> (0 < Z.of_nat (List.length rows) - Z.of_nat n_par)%Z).
Proof.
  intros HL HM. destruct (step_coeffs active rows HL HM) as (c & resid & rss & sigma & E & Lc & EC & ER & ES).
  assert (CN : count active = List.length rows).
  { rewrite <- (masked_length active P HL), HM, map_length. reflexivity. }
  assert (MR : masked active resid = map (fun d => d_y d - dotp (row_of d) c) rows).
  { rewrite ER, masked_map, HM, map_map. reflexivity. }
  exists c, resid, rss, sigma. split; [exact E|]. split; [exact Lc|]. split; [rewrite ER, map_length; congruence|].
  split; [exact CN|]. split; [exact MR|].
  assert (WM : masked active (map d_w P) = map d_w (map adj rows)) by (rewrite masked_map, HM; reflexivity).
  unfold solve. fold n_par. fold pr.
  change (map (fun d => d_fix d ++ fourier (d_t d) freq order) rows) with (map row_of rows).
  change [unit_row n_par (nf - 2); unit_row n_par (nf - 1)] with prior_rows. rewrite <- EC.
  rewrite combine_map_r, map_map. cbn [fst snd]. rewrite <- MR. rewrite CN, WM in ES.
  unfold paper_sigma. cbv zeta in ES. destruct weighted eqn:W.
  - assert (AW : map d_w (map adj rows) = map d_w rows) by (rewrite map_map; unfold adj; rewrite W; reflexivity). rewrite AW in ES.
    injection ES as E1 E2. rewrite E2.
    destruct (Z.leb_spec (Z.of_nat (List.length rows) - Z.of_nat n_par) 0) as [A|A].
    + rewrite (proj2 (Z.ltb_ge _ _) A). cbn [andb]. split; [reflexivity|intros K; destruct (K eq_refl)].
    + rewrite (proj2 (Z.ltb_lt _ _) A). cbn [andb]. unfold rlt. destruct (Rle_dec (rsum (map d_w rows)) 0) as [B|B], (Rlt_dec 0 (rsum (map d_w rows))) as [C|C]; try lra.
      * split; [reflexivity|intros _; exact A].
      * split; [|intros _; exact A]. rewrite E1. reflexivity.
  - injection ES as E1 E2. rewrite E2.
    destruct (Z.leb_spec (Z.of_nat (List.length rows) - Z.of_nat n_par) 0) as [A|A].
    + rewrite (proj2 (Z.ltb_ge _ _) A). split; [reflexivity|intros K; destruct (K eq_refl)].
    + rewrite (proj2 (Z.ltb_lt _ _) A). split; [|intros _; exact A]. rewrite E1. reflexivity.
Qed.

Lemma clip_stay k c resid rss sigma active : step active = (c, resid, rss, sigma) -> clip_mask clip resid sigma active = active ->
  jax_rounds k true clip step (Z.of_nat n_par) active = jax_rounds 0 true clip step (Z.of_nat n_par) active.
Proof. intros E S. induction k as [|k IH]; [reflexivity|]. cbn [jax_rounds]. rewrite E, S. rewrite IH. cbn [jax_rounds]. rewrite E. reflexivity. Qed.
Lemma clip_mask_none resid active : List.length resid = List.length active -> clip_mask clip resid None active = active.
Proof.
  unfold clip_mask. revert resid. induction active as [|b m IH]; intros [|r l] H; try discriminate; [reflexivity|]. injection H as H.
  cbn. rewrite (IH l H), andb_true_r. reflexivity.
Qed.
Lemma clip_mask_length resid s active : List.length resid = List.length active -> List.length (clip_mask clip resid s active) = List.length active.
Proof. intros H. unfold clip_mask. rewrite map_length, combine_length. lia. Qed.
Lemma clip_mask_keep resid s : forall active, List.length resid = List.length active ->
  forallb (fun b => b) (map (fun r => rle (Rabs r) (clip * s)) (masked active resid)) = true -> clip_mask clip resid (Some s) active = active.
Proof.
  unfold clip_mask. induction resid as [|r l IH]; intros [|b m] H K; try discriminate; [reflexivity|]. injection H as H.
  cbn in K |- *. destruct b; cbn in K |- *.
  - apply andb_prop in K. destruct K as [K1 K2]. rewrite K1, (IH m H K2). reflexivity.
  - rewrite (IH m H K). reflexivity.
Qed.
Lemma clip_mask_drop {A} resid s : forall active (l : list A), List.length resid = List.length active -> List.length active = List.length l ->
  masked (clip_mask clip resid (Some s) active) l = masked (map (fun r => rle (Rabs r) (clip * s)) (masked active resid)) (masked active l).
Proof.
  unfold clip_mask. induction resid as [|r rs IH]; intros [|b m] [|x l] H K; try discriminate; [reflexivity|]. injection H as H. injection K as K.
  cbn [combine map masked fst snd]. destruct b; cbn [andb masked map].
  - rewrite (IH m l H K). reflexivity.
  - exact (IH m l H K).
Qed.

(* the rounds against the numpy loop *)
Lemma rounds_loop k : forall active rows, List.length active = List.length P -> masked active P = map adj rows ->
  let j := jax_rounds k true clip step (Z.of_nat n_par) active in
  match clip_loop (ridge_lstsq solver) hgfit k weighted clip all nf order freq rows with
  | Some r => j_coeffs j = pad_cols nf pad (r_coeffs r) /\ List.length (r_coeffs r) = n_par /\ j_sigma j = Some (r_sigma r) /\ j_rss j = r_rss r /\
              j_df j = r_df r /\ (0 < r_df r)%Z /\ j_nfit j = r_nfit r /\ r_freq r = freq /\ r_order r = order /\ r_npar r = n_par /\
              r_nclip r = (List.length all - r_nfit r)%nat /\ List.length (j_mask j) = List.length P /\
              List.length (masked (j_mask j) P) = r_nfit r
  | None => j_score true j = None
  end.
Proof.
  induction k as [|k IH]; intros active rows HL HM; destruct (step_solve active rows HL HM) as (c & resid & rss & sigma & E & Lc & LR & CN & MR & SV & DF).
  - cbn [jax_rounds clip_loop]. cbv zeta. rewrite E. fold n_par. rewrite SV. destruct (Nat.leb_spec (List.length rows) n_par) as [A|A].
    + unfold j_score. cbn [j_df j_sigma andb]. rewrite CN. rewrite (proj2 (Z.ltb_ge _ _)) by lia. reflexivity.
    + destruct sigma as [s|].
      * cbn [result_of j_coeffs j_sigma j_rss j_df j_nfit j_mask r_coeffs r_sigma r_rss r_df r_nfit r_freq r_order r_npar r_nclip]. rewrite CN.
        repeat split; try assumption; try lia. rewrite HM, map_length. reflexivity.
      * unfold j_score. cbn [j_df j_sigma andb]. destruct (0 <? _)%Z; reflexivity.
  - cbn [clip_loop]. fold n_par. rewrite SV. destruct (Nat.leb_spec (List.length rows) n_par) as [A|A].
    + destruct sigma as [s|]; [specialize (DF ltac:(discriminate)); lia|].
      rewrite (clip_stay _ _ _ _ _ _ E (clip_mask_none resid active LR)). cbv zeta. cbn [jax_rounds]. rewrite E. unfold j_score. cbn [j_df j_sigma andb].
      destruct (0 <? _)%Z; reflexivity.
    + destruct sigma as [s|].
      * destruct (forallb (fun b => b) (map (fun r => rle (Rabs r) (clip * s)) (masked active resid))) eqn:F.
        -- rewrite (clip_stay _ _ _ _ _ _ E (clip_mask_keep resid s active LR F)). cbv zeta. cbn [jax_rounds]. rewrite E.
           cbn [result_of j_coeffs j_sigma j_rss j_df j_nfit j_mask r_coeffs r_sigma r_rss r_df r_nfit r_freq r_order r_npar r_nclip]. rewrite CN.
           repeat split; try assumption; try lia. rewrite HM, map_length. reflexivity.
        -- cbn [jax_rounds]. rewrite E. apply IH.
           ++ rewrite clip_mask_length by exact LR. exact HL.
           ++ rewrite clip_mask_drop by assumption. rewrite HM. rewrite masked_map. reflexivity.
      * rewrite (clip_stay _ _ _ _ _ _ E (clip_mask_none resid active LR)). cbv zeta. cbn [jax_rounds]. rewrite E. unfold j_score. cbn [j_df j_sigma andb].
        destruct (0 <? _)%Z; reflexivity.
Qed.
End Loop.
