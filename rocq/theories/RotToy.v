(* Sixteen observations, one per session, used as the concrete case of the statements about rotation periods. *)
From Coq Require Import Reals Lra.
From Coq Require Import List String Bool Permutation Sorted.
From Verif Require Import Base ListLemmas StrOrder PhotModel PhotH RotModel RotScore RotFit RotClus RotDerive RotEst RotMain RotMore.
Import ListNotations.
Open Scope string_scope.
Open Scope list_scope.
Open Scope R_scope.
Opaque fit_with_period amplitude search fit_frequency fit_unclipped.

Definition row16 (p : Z * string) : obs :=
  mkobs (IZR (fst p)) (Some (b2r (Z.odd (fst p)))) None (Some "r") (Some (snd p)) (Some 1) (Some 1) (Some 10).
Definition keys16 : list (Z * string) :=
  [(0, "a"); (1, "b"); (2, "c"); (3, "d"); (4, "e"); (5, "f"); (6, "g"); (7, "h"); (8, "i"); (9, "j"); (10, "k"); (11, "l"); (12, "m");
   (13, "n"); (14, "o"); (15, "p")]%Z.
Definition obs16 : list obs := map row16 keys16.

Lemma sort_map {A B} (la : A -> A -> bool) (lb : B -> B -> bool) (f : A -> B) (H : forall x y, lb (f x) (f y) = la x y) l :
  sort lb (map f l) = map f (sort la l).
Proof.
  induction l as [|x l IH]; [reflexivity|]. cbn [map sort]. rewrite IH. generalize (sort la l). intros m.
  induction m as [|y m IHm]; [reflexivity|]. cbn [map insert]. rewrite H. destruct (la x y); [reflexivity|]. cbn [map]. rewrite IHm. reflexivity.
Qed.
Lemma fmax_map_Z c l x : fold_left Rmax (map (fun z => IZR z - c) l) (IZR x - c) = IZR (fold_left Z.max l x) - c.
Proof.
  revert x. induction l as [|y l IH]; intros x; [reflexivity|]. cbn [map fold_left]. rewrite <- IH. f_equal.
  destruct (Z.max_spec x y) as [[A ->]|[A ->]].
  - apply Rmax_right. apply IZR_lt in A. lra.
  - apply Rmax_left. apply IZR_le in A. lra.
Qed.
Lemma fmin_map_Z c l x : fold_left Rmin (map (fun z => IZR z - c) l) (IZR x - c) = IZR (fold_left Z.min l x) - c.
Proof.
  revert x. induction l as [|y l IH]; intros x; [reflexivity|]. cbn [map fold_left]. rewrite <- IH. f_equal.
  destruct (Z.min_spec x y) as [[A ->]|[A ->]].
  - apply Rmin_left. apply IZR_lt in A. lra.
  - apply Rmin_right. apply IZR_le in A. lra.
Qed.

Lemma emission16 light : map (emission light) obs16 = map (fun z => IZR z - 1 / light) (map fst keys16).
Proof. unfold obs16. rewrite !map_map. apply map_ext. intros [z s]. reflexivity. Qed.
Lemma covered16 light : covered light obs16 = 15.
Proof.
  unfold covered. rewrite emission16. cbn [map fst keys16 fmax fmin].
  change (fold_left Rmax ?l (IZR 0 - 1 / light)) with (fold_left Rmax l (IZR 0 - 1 / light)).
  match goal with |- fold_left Rmax ?l ?x - fold_left Rmin ?l ?x = _ =>
    change l with (map (fun z => IZR z - 1 / light) [1; 2; 3; 4; 5; 6; 7; 8; 9; 10; 11; 12; 13; 14; 15]%Z) end.
  rewrite fmax_map_Z, fmin_map_Z. cbn [fold_left Z.max Z.min Z.compare Pos.compare Pos.compare_cont]. lra.
Qed.
Lemma bands16 : map band obs16 = repeat "r" 16.
Proof. reflexivity. Qed.
Lemma reduced16 : map reduced obs16 = map b2r (map Z.odd (map fst keys16)).
Proof.
  unfold obs16. rewrite !map_map. apply map_ext. intros [z s]. unfold reduced, row16. cbn [o_mag o_r o_delta fst].
  unfold log10. rewrite Rmult_1_r, ln_1. unfold Rdiv. ring.
Qed.
Lemma bool_rle x y : rle (b2r x) (b2r y) = implb x y.
Proof. destruct x, y; cbn; first [apply rle_true; lra|apply rle_false; lra]. Qed.
Lemma median_bits bs : median (map b2r bs) = let s := map b2r (sort implb bs) in let n := List.length bs in
  if Nat.even n then (nth (n / 2 - 1) s 0 + nth (n / 2) s 0) / 2 else nth (n / 2) s 0.
Proof. unfold median. rewrite (sort_map implb rle b2r bool_rle), map_length. reflexivity. Qed.
Lemma median_const {A} (c : R) (l : list A) : l <> [] -> median (map (fun _ => c) l) = c.
Proof.
  intros NE. unfold median. rewrite (sort_map (fun _ _ => true) rle (fun _ : A => c)) by (intros; apply rle_true; lra). rewrite map_length.
  assert (N : forall k, (k < List.length l)%nat -> nth k (map (fun _ => c) (sort (fun _ _ => true) l)) 0 = c).
  { intros k Hk. assert (L : List.length (sort (fun _ _ : A => true) l) = List.length l) by apply sort_length.
    revert Hk. rewrite <- L. generalize (sort (fun _ _ : A => true) l). intros m. revert k. induction m as [|y m IH]; intros [|k] Hk; cbn in *; try lia; [reflexivity|]. apply IH. lia. }
  assert (LP : (0 < List.length l)%nat) by (destruct l; [congruence|cbn; lia]).
  assert (H2 : (List.length l / 2 < List.length l)%nat) by (apply Nat.div_lt; lia).
  destruct (Nat.even (List.length l)); rewrite !N; lra || lia.
Qed.
Lemma pre16 light : pre_solve 16 (map band obs16) (covered light obs16) (map reduced obs16) (map o_sigma obs16) 2 2 1000 = [].
Proof.
  rewrite covered16, reduced16. unfold pre_solve.
  assert (S1 : rle 15 0 = false) by (apply rle_false; lra). assert (S2 : rle 1000 (2 / 15) = false) by (apply rle_false; lra).
  assert (M : median (map b2r (map Z.odd (map fst keys16))) = 1 / 2).
  { rewrite median_bits. cbn. lra. }
  rewrite M.
  assert (D : map (fun v => Rabs (v - 1 / 2)) (map b2r (map Z.odd (map fst keys16))) = map (fun _ => 1 / 2) keys16).
  { rewrite !map_map. apply map_ext. intros [z s]. cbn [fst]. destruct (Z.odd z); cbn; [rewrite Rabs_right; lra|rewrite Rabs_left; lra]. }
  rewrite D, median_const by discriminate.
  change (keep_some (map o_sigma obs16)) with (@nil R). cbv iota zeta.
  assert (S3 : rlt (14826 / 10000 * (1 / 2)) (3 / 2 * (2 / 100)) = false) by (apply rlt_false; lra).
  rewrite S1, S2, S3. reflexivity.
Qed.
Lemma usable16 ob : In ob obs16 -> usable ob.
Proof. unfold obs16. rewrite in_map_iff. intros (p & <- & _). exists (b2r (Z.odd (fst p))), 1, 1, 10. cbn. repeat (split; [reflexivity|]). lra. Qed.

Definition ignoring : options := mkoptions true [] 3 2 1000 30 None true Ignore 6 10 true.
Lemma options_default m : options_ok (mkoptions true [] 3 2 1000 30 None true m 6 10 true) = true.
Proof.
  unfold options_ok. cbn [clip_sigma min_rotations max_frequency grid_scale max_period min_per_group bic_improvement].
  assert (rle 3 0 = false /\ rle 2 0 = false /\ rle 1000 0 = false /\ rle 30 0 = false /\ rle 0 10 = true) as (-> & -> & -> & -> & ->)
    by (repeat split; first [apply rle_false; lra|apply rle_true; lra]).
  reflexivity.
Qed.

(* ignoring the sessions there is a period, for every least squares routine *)
Lemma ignore16 lstsq hgfit f_cdf f_ppf light : exists r p, estimate lstsq hgfit f_cdf f_ppf light ignoring obs16 = Ok r /\ p_days r = Some p.
Proof.
  apply (estimate_ok lstsq hgfit f_cdf f_ppf light ignoring obs16 2).
  - apply options_default.
  - discriminate.
  - exact usable16.
  - rewrite covered16. lra.
  - rewrite covered16. unfold grid_min. cbn [min_rotations max_period max_frequency ignoring]. lra.
  - intros _. apply pre16.
  - right. reflexivity.
  - reflexivity.
  - left. reflexivity.
  - vm_compute. lia.
  - change (List.length obs16 - (n_fixed false (pairs obs16) + 2 * 2))%nat with 9%nat. cbn [clip_sigma ignoring INR]. lra.
Qed.
(* a table that passes the checks made before the search has a period or is an error *)
Lemma estimate_started lstsq hgfit f_cdf f_ppf light o l r :
  pre_solve (List.length l) (map band l) (covered light l) (map reduced l) (map o_sigma l) 2 (min_rotations o) (max_frequency o) = [] ->
  estimate lstsq hgfit f_cdf f_ppf light o l = Ok r -> p_days r <> None.
Proof.
  intros P. unfold estimate. destruct (negb (options_ok o)); [discriminate|].
  destruct (validate l) as [vs|] eqn:V; cbn [bind]; [|discriminate].
  assert (T : map (fun v => v_time v - v_delta v / light) vs = map (emission light) l).
  { eapply validate_map; [|exact V]. intros ob v Hv. apply validate_row_inv in Hv. unfold emission.
    destruct Hv as (-> & _ & _ & _ & _ & _ & -> & _). reflexivity. }
  assert (FS : map (fun v => (v_filter v, label "__missing_session__" (v_session v))) vs = pairs l).
  { eapply validate_map; [|exact V]. intros ob v Hv. apply validate_row_inv in Hv. destruct Hv as (_ & _ & _ & -> & -> & _). reflexivity. }
  assert (SG : map v_sigma vs = map o_sigma l).
  { eapply validate_map; [|exact V]. intros ob v Hv. apply validate_row_inv in Hv. tauto. }
  assert (Y : map (fun v => v_mag v - 5 * log10 (v_r v * v_delta v)) vs = map reduced l).
  { eapply validate_map; [|exact V]. intros ob v Hv. apply validate_row_inv in Hv. unfold reduced.
    destruct Hv as (_ & -> & _ & _ & _ & -> & -> & _). reflexivity. }
  rewrite T, FS, SG, Y.
  assert (BD : map fst (pairs l) = map band l) by (unfold pairs; rewrite map_map; reflexivity).
  rewrite BD.
  set (t_rel := map (fun t => t - fmin (map (emission light) l)) (map (emission light) l)).
  assert (SPE : fmax t_rel - fmin t_rel = covered light l) by apply span_shift.
  rewrite SPE, P. cbv zeta.
  assert (P0 : (if early_exit o then @nil string else []) = []) by (destruct (early_exit o); reflexivity). rewrite P0.
  destruct (rle _ 0); [discriminate|].
  match goal with |- context [build_grid ?a ?b ?c ?d ?e] => destruct (build_grid a b c d e) as [freqs|e0] end; cbn [bind]; [|discriminate].
  match goal with |- context [bind (derive ?a ?b ?c ?d ?e ?f ?g ?h ?i) _] => destruct (derive a b c d e f g h i) as [bsol|e0] end; cbn [bind]; [|discriminate].
  match goal with |- bind ?x _ = _ -> _ => destruct x as [su|e0] end; cbn [bind]; [|discriminate].
  intros H. apply ok_inj in H. rewrite H. cbn [p_days]. discriminate.
Qed.

(* with the default options the same table is an error *)
Lemma auto16 lstsq hgfit f_cdf f_ppf light : estimate lstsq hgfit f_cdf f_ppf light default_options obs16 = Err ValueError.
Proof.
  destruct (estimate lstsq hgfit f_cdf f_ppf light default_options obs16) as [r|e] eqn:E.
  - exfalso. apply (estimate_started lstsq hgfit f_cdf f_ppf light default_options obs16 r (pre16 light) E).
    apply sessions_few in E; [tauto|reflexivity|discriminate|]. intros k Hk. vm_compute. lia.
  - apply estimate_errors in E. congruence.
Qed.
