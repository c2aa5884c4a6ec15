(* The absolute-magnitude fit. *)
From Coq Require Import Reals Lra Lia.
From Coq Require Import List String Bool Sorted.
From Verif Require Import Base StrOrder BandModel SphModel KepModel PhotModel PhotSpec PhotState.
Import ListNotations.
Open Scope R_scope.

Local Arguments rsum : simpl never.
Lemma rsum_cons x l : rsum (x :: l) = x + rsum l.
Proof. reflexivity. Qed.
Lemma rsum_nil : rsum [] = 0.
Proof. reflexivity. Qed.
Local Ltac sums := cbn [map combine fst snd List.length] in *; rewrite ?rsum_cons, ?rsum_nil in *.

Lemma rsum_scale k l : rsum (map (fun x => x * k) l) = rsum l * k.
Proof. induction l as [|x l IH]; sums; [ring|]. rewrite IH. ring. Qed.

Lemma INR_pos n : n <> 0%nat -> 0 < INR n.
Proof. intros H. apply lt_0_INR. lia. Qed.

Definition weights (sg : list R) : list R := map (fun v => 1 / (v * v)) sg.

Lemma weights_pos sg : (forall v, In v sg -> v <> 0) -> forall w, In w (weights sg) -> 0 < w.
Proof.
  intros H w Hw. apply in_map_iff in Hw as [v [<- Hv]]. specialize (H _ Hv).
  unfold Rdiv. rewrite Rmult_1_l. apply Rinv_0_lt_compat. nra.
Qed.

Lemma rsum_nonneg l : (forall x, In x l -> 0 <= x) -> 0 <= rsum l.
Proof. induction l as [|x l IH]; intros H; sums; [lra|]. pose proof (H x (or_introl eq_refl)). pose proof (IH (fun y Hy => H y (or_intror Hy))). lra. Qed.
Lemma rsum_pos l : l <> [] -> (forall x, In x l -> 0 < x) -> 0 < rsum l.
Proof.
  destruct l as [|x l]; [contradiction|]. intros _ H. sums. pose proof (H x (or_introl eq_refl)).
  assert (0 <= rsum l) by (apply rsum_nonneg; intros y Hy; left; apply H; now right). lra.
Qed.

Lemma all_some_len {A} (l : list (option A)) m : all_some l = Some m -> List.length m = List.length l /\ l = map Some m.
Proof.
  revert m. induction l as [|x l IH]; cbn; intros m H; [injection H as <-; auto|].
  destruct x as [v|]; [|discriminate]. destruct (all_some l) as [vs|]; [|discriminate]. injection H as <-.
  destruct (IH _ eq_refl) as [I1 I2]. cbn. rewrite I1. split; [reflexivity|]. now rewrite I2 at 1.
Qed.
Lemma all_some_map {A} (m : list A) : all_some (map Some m) = Some m.
Proof. induction m as [|x m IH]; cbn; [reflexivity|]. now rewrite IH. Qed.

(* weighted mean *)
Definition wmean (w h : list R) : R := rsum (map (fun p => fst p * snd p) (combine w h)) / rsum w.

Lemma wsum_bounds w h lo hi : List.length w = List.length h -> (forall x, In x w -> 0 <= x) ->
  (forall x, In x h -> lo <= x <= hi) ->
  lo * rsum w <= rsum (map (fun p => fst p * snd p) (combine w h)) <= hi * rsum w.
Proof.
  revert h. induction w as [|x w IH]; intros [|y h] L Hw Hh; sums; try discriminate; [lra|].
  injection L as L. pose proof (IH h L (fun z Hz => Hw z (or_intror Hz)) (fun z Hz => Hh z (or_intror Hz))) as B.
  pose proof (Hw x (or_introl eq_refl)). pose proof (Hh y (or_introl eq_refl)). nra.
Qed.

Lemma wmean_bounds w h lo hi : List.length w = List.length h -> (forall x, In x w -> 0 < x) -> w <> [] ->
  (forall x, In x h -> lo <= x <= hi) -> lo <= wmean w h <= hi.
Proof.
  intros L Hw Hn Hh. pose proof (wsum_bounds w h lo hi L (fun x Hx => Rlt_le _ _ (Hw x Hx)) Hh) as B.
  pose proof (rsum_pos w Hn Hw) as P. unfold wmean.
  split; apply Rmult_le_reg_r with (rsum w); auto; unfold Rdiv; rewrite Rmult_assoc, Rinv_l by lra; lra.
Qed.

Lemma misfit_expand w h x y : List.length w = List.length h ->
  misfit w h x = misfit w h y + 2 * (y - x) * (rsum (map (fun p => fst p * snd p) (combine w h)) - y * rsum w) + (y - x) * (y - x) * rsum w.
Proof.
  unfold misfit. revert h. induction w as [|a w IH]; intros [|b h] L; sums; try discriminate; [ring|].
  injection L as L. rewrite (IH h L). ring.
Qed.

Lemma wmean_minimal w h x : List.length w = List.length h -> (forall z, In z w -> 0 < z) -> w <> [] ->
  misfit w h (wmean w h) <= misfit w h x.
Proof.
  intros L Hw Hn. pose proof (rsum_pos w Hn Hw) as P.
  rewrite (misfit_expand w h x (wmean w h) L).
  replace (wmean w h * rsum w) with (rsum (map (fun p => fst p * snd p) (combine w h))) by (unfold wmean; field; lra).
  pose proof (Rle_0_sqr (wmean w h - x)) as S. unfold Rsqr in S. nra.
Qed.

(* the plain mean is the weighted mean with equal weights *)
Definition ones (h : list R) : list R := map (fun _ => 1) h.
Lemma ones_sum h : rsum (ones h) = INR (List.length h).
Proof. unfold ones. induction h as [|x h IH]; sums; [reflexivity|]. rewrite IH, S_INR. ring. Qed.
Lemma ones_dot h : rsum (map (fun p => fst p * snd p) (combine (ones h) h)) = rsum h.
Proof. unfold ones. induction h as [|x h IH]; sums; [reflexivity|]. rewrite IH. ring. Qed.
Lemma ones_mean h : wmean (ones h) h = rsum h / INR (List.length h).
Proof. unfold wmean. now rewrite ones_dot, ones_sum. Qed.

(* the weights a fit uses *)
Definition fit_weights (h : list R) (sigma : list (option R)) : list R :=
  match all_some sigma with Some sg => weights sg | None => ones h end.

Lemma fit_ok h sigma f : List.length sigma = List.length h -> fit_rows h sigma = Ok f ->
  h <> [] /\ f_n f = List.length h /\ f_H f = wmean (fit_weights h sigma) h /\
  List.length (fit_weights h sigma) = List.length h /\
  (forall w, In w (fit_weights h sigma) -> 0 < w) /\
  (forall sg, all_some sigma = Some sg -> forall v, In v sg -> v <> 0) /\
  (forall sg, all_some sigma = Some sg -> (2 <= List.length h)%nat ->
     f_chi2 f = Some (misfit (weights sg) h (f_H f) / INR (List.length h - 1)) /\
     exists hs, f_sigma f = Some hs /\
       hs = sqrt (1 / rsum (weights sg)) * (if Rlt_dec 1 (misfit (weights sg) h (f_H f) / INR (List.length h - 1))
                                    then sqrt (misfit (weights sg) h (f_H f) / INR (List.length h - 1)) else 1)).
Proof.
  intros L. unfold fit_rows, fit_weights.
  destruct (Nat.eqb_spec (List.length h) 0) as [|N]; [discriminate|].
  assert (Hn : h <> []) by (intros ->; cbn in N; lia).
  assert (CR : forall w H, rsum (map (fun p => fst p * (snd p * snd p)) (combine w (map (fun x => x - H) h))) = misfit w h H).
  { intros w H. unfold misfit. clear. revert h. induction w as [|a w IH]; intros [|b h]; sums; auto. now rewrite IH. }
  destruct (all_some sigma) as [sg|] eqn:E.
  - destruct (existsb (fun v => if Req_EM_T v 0 then true else false) sg) eqn:Ez; [discriminate|].
    assert (NZ : forall v, In v sg -> v <> 0).
    { intros v Hv ->. assert (existsb (fun v => if Req_EM_T v 0 then true else false) sg = true); [|congruence].
      apply existsb_exists. exists 0. split; [exact Hv|]. destruct (Req_EM_T 0 0); [reflexivity|contradiction]. }
    fold (weights sg).
    destruct (Rle_dec (rsum (weights sg)) 0); [discriminate|].
    destruct (all_some_len _ _ E) as [Lg _].
    assert (LW : List.length (weights sg) = List.length h) by (unfold weights; rewrite map_length; lia).
    rewrite CR. fold (wmean (weights sg) h).
    destruct (2 <=? List.length h)%nat eqn:E2; intros [= <-]; cbn [f_n f_H f_chi2 f_sigma]; split; auto; split; auto; split; auto;
      split; auto; (split; [now apply weights_pos|]); (split; [intros ? [= <-]; exact NZ|]); intros sg' [= <-] H2.
    + split; [reflexivity|]. eexists. split; [reflexivity|].
      destruct (Rlt_dec 1 _); ring.
    + apply Nat.leb_gt in E2. lia.
  - intros [= <-]. cbn. split; auto. split; auto. split; [now rewrite ones_mean|]. split; [unfold ones; apply map_length|].
    split; [|split; intros; discriminate]. intros w Hw. apply in_map_iff in Hw as [? [<- _]]. lra.
Qed.

(* when the fit succeeds *)
Lemma fit_succeeds h sigma : List.length sigma = List.length h -> h <> [] ->
  (forall v, In (Some v) sigma -> v <> 0) -> exists f, fit_rows h sigma = Ok f.
Proof.
  intros L Hn NZ. unfold fit_rows.
  destruct (Nat.eqb_spec (List.length h) 0) as [Hl|N]; [destruct h; [contradiction|discriminate]|].
  destruct (all_some sigma) as [sg|] eqn:E; [|eauto].
  destruct (all_some_len _ _ E) as [Lg Es].
  assert (Z : forall v, In v sg -> v <> 0) by (intros v Hv; apply NZ; rewrite Es; now apply in_map).
  destruct (existsb (fun v => if Req_EM_T v 0 then true else false) sg) eqn:Ez.
  { apply existsb_exists in Ez as [v [Hv Ev]]. destruct (Req_EM_T v 0); [|discriminate]. exfalso. now apply (Z v). }
  fold (weights sg). destruct (Rle_dec (rsum (weights sg)) 0) as [Hle|].
  - exfalso. assert (0 < rsum (weights sg)); [|lra]. apply rsum_pos; [|now apply weights_pos].
    intros Ew. unfold weights in Ew. apply map_eq_nil in Ew. subst sg. cbn in Lg. lia.
  - destruct (2 <=? List.length h)%nat; eauto.
Qed.

Lemma fit_fails h sigma e : fit_rows h sigma = Err e -> e = ValueError.
Proof.
  unfold fit_rows. destruct (_ =? 0)%nat; [congruence|]. destruct (all_some sigma) as [sg|]; [|discriminate].
  destruct (existsb _ sg); [congruence|]. destruct (Rle_dec _ _); [congruence|]. destruct (2 <=? _)%nat; discriminate.
Qed.

(* rows kept *)
Lemma keep_some_in {A} (l : list (option A)) x : In x (keep_some l) <-> In (Some x) l.
Proof.
  induction l as [|[y|] l IH]; cbn; [tauto| |].
  - rewrite IH. split; intros [H|H]; auto; [left; congruence|left; congruence].
  - rewrite IH. split; [auto|intros [H|H]; [discriminate|exact H]].
Qed.

Lemma usable_iff d h s : usable d = Some (h, s) <-> exists m m0, d_mag d = Some m /\ d_m0 d = Some m0 /\ h = m - m0 /\ s = d_sigma d.
Proof.
  unfold usable. destruct (d_mag d) as [m|], (d_m0 d) as [m0|]; split; intros H; try discriminate;
    try (destruct H as [? [? [H1 [H2 _]]]]; discriminate).
  - injection H as <- <-. eauto 6.
  - destruct H as [? [? [[= <-] [[= <-] [-> ->]]]]]. reflexivity.
Qed.

Lemma estimate_unfold ds f : estimate_h ds = Ok f <->
  fit_rows (map fst (keep_some (map usable ds))) (map snd (keep_some (map usable ds))) = Ok f.
Proof.
  unfold estimate_h. destruct (keep_some (map usable ds)) as [|r l]; [|tauto]. cbn. split; discriminate.
Qed.

(* ---- groups ---- *)
Section Groups.
Context {A : Type}.
Implicit Types l : list (string * A).
Definition sorted l : Prop := StronglySorted (fun p q => str_leb (fst p) (fst q) = true) l.

Lemma runs_head l i xs rest : runs l = (i, xs) :: rest -> exists x l', l = (i, x) :: l'.
Proof.
  destruct l as [|[j y] l]; cbn; [discriminate|]. destruct (runs l) as [|[k zs] r]; [intros [= -> <- <-]; eauto|].
  destruct (String.eqb j k); intros [= -> <- <-]; eauto.
Qed.

Lemma runs_in l i : In i (map fst (runs l)) <-> In i (map fst l).
Proof.
  induction l as [|[j y] l IH]; cbn; [tauto|]. destruct (runs l) as [|[k zs] r] eqn:E; cbn in *.
  - rewrite <- IH. tauto.
  - destruct (String.eqb_spec j k) as [->|]; cbn; rewrite <- IH; tauto.
Qed.

Definition sel i l : list A := map snd (filter (fun p => String.eqb (fst p) i) l).

Lemma runs_spec l : sorted l ->
  StronglySorted (fun i j => str_leb i j = true /\ i <> j) (map fst (runs l)) /\
  forall i xs, In (i, xs) (runs l) -> xs = sel i l.
Proof.
  induction l as [|[j y] l IH]; intros S; cbn; [split; [constructor|contradiction]|].
  inversion S as [|? ? S1 S2]; subst. specialize (IH S1) as [I1 I2].
  rewrite Forall_forall in S2.
  assert (IDS : forall i, In i (map fst (runs l)) -> str_leb j i = true).
  { intros i Hi. apply runs_in, in_map_iff in Hi as [p [<- Hp]]. apply (S2 _ Hp). }
  destruct (runs l) as [|[k zs] r] eqn:E.
  - cbn. split; [repeat constructor|]. intros i xs [[= <- <-]|[]]. unfold sel. cbn. rewrite String.eqb_refl. cbn.
    assert (l = []) as -> by (destruct l as [|[a b] l']; [reflexivity|]; exfalso; assert (X : In a (map fst (runs ((a, b) :: l')))) by (apply runs_in; now left); rewrite E in X; contradiction).
    reflexivity.
  - destruct (String.eqb_spec j k) as [->|Hne].
    + cbn in *. split; [exact I1|]. intros i xs [[= <- <-]|Hin].
      * unfold sel. cbn. rewrite String.eqb_refl. cbn. f_equal. apply I2. now left.
      * rewrite (I2 i xs (or_intror Hin)). unfold sel. cbn.
        destruct (String.eqb_spec k i) as [->|]; [|reflexivity]. exfalso.
        inversion I1 as [|? ? _ F]; subst. rewrite Forall_forall in F. apply (proj2 (F i (in_map fst _ _ Hin))). reflexivity.
    + assert (NJ : ~ In j (map fst (runs l))).
      { intros Hj. rewrite E in Hj. cbn in Hj. destruct Hj as [Hj|Hj]; [congruence|].
        inversion I1 as [|? ? _ F]; subst. rewrite Forall_forall in F. destruct (F j Hj) as [F1 F2].
        apply F2. apply str_leb_antisym; [exact F1|]. apply IDS. now left. }
      split.
      * cbn. constructor; [exact I1|]. apply Forall_forall. intros i Hi. split; [now apply IDS|].
        intros <-. apply NJ. now rewrite E.
      * intros i xs [[= <- <-]|Hin].
        -- unfold sel. cbn. rewrite String.eqb_refl. cbn. f_equal.
           assert (forall m, (forall p : string * A, In p m -> fst p <> j) -> filter (fun p => String.eqb (fst p) j) m = []) as Z.
           { induction m as [|p m IHm]; cbn; intros Hm; [reflexivity|].
             destruct (String.eqb_spec (fst p) j); [exfalso; apply (Hm p); auto|]. apply IHm. intros; apply Hm; now right. }
           rewrite Z; [reflexivity|]. intros p Hp Ep. apply NJ. apply runs_in. rewrite <- Ep. now apply in_map.
        -- rewrite (I2 i xs Hin). unfold sel. cbn. destruct (String.eqb_spec j i) as [->|]; [|reflexivity].
           exfalso. apply NJ. rewrite E. now apply in_map with (f := fst) in Hin.
Qed.

Lemma sort_by_id_sorted l : sorted (sort by_id l).
Proof.
  apply (sort_sorted by_id).
  - intros x y. apply str_leb_total.
  - intros x y z. apply str_leb_trans.
Qed.

Lemma sel_sort i l : sel i (sort by_id l) = sel i l.
Proof.
  unfold sel. f_equal. apply sort_filter. intros x y Hx Hy.
  apply String.eqb_eq in Hx, Hy. unfold by_id. rewrite Hx, Hy. apply str_leb_refl.
Qed.
End Groups.

Lemma sorted_nodup l : StronglySorted (fun i j => str_leb i j = true /\ i <> j) l -> NoDup l.
Proof.
  induction 1 as [|x l H IH F]; constructor; [|exact IH]. intros Hi. rewrite Forall_forall in F. now apply (proj2 (F x Hi)).
Qed.

(* the rows of one object *)
Definition of_object (i : string) (ds : list (option string * det)) : list det :=
  map snd (filter (fun d => match fst d with Some j => String.eqb j i | None => false end) ds).

Definition keyed (ds : list (option string * det)) : list (string * (R * option R)) :=
  keep_some (map (fun d => match fst d, usable (snd d) with Some i, Some u => Some (i, u) | _, _ => None end) ds).

Lemma keyed_sel i ds : sel i (keyed ds) = keep_some (map usable (of_object i ds)).
Proof.
  unfold sel, keyed, of_object. induction ds as [|[[j|] d] ds IH]; cbn.
  - reflexivity.
  - destruct (usable d) as [u|] eqn:Eu; cbn.
    + destruct (String.eqb j i); cbn; [rewrite Eu; cbn; now rewrite IH|exact IH].
    + rewrite IH. destruct (String.eqb j i); cbn; [now rewrite Eu|reflexivity].
  - exact IH.
Qed.

Lemma grouped_spec ds :
  (forall i f, In (i, f) (estimate_h_grouped ds) <-> estimate_h (of_object i ds) = Ok f) /\
  StronglySorted (fun i j => str_leb i j = true /\ i <> j) (map fst (estimate_h_grouped ds)).
Proof.
  unfold estimate_h_grouped. fold (keyed ds).
  destruct (runs_spec _ (sort_by_id_sorted (keyed ds))) as [R1 R2]. set (gs := runs (sort by_id (keyed ds))) in *.
  split.
  - intros i f. rewrite keep_some_in, in_map_iff, estimate_unfold, <- keyed_sel. split.
    + intros [[j xs] [H Hin]]. cbn in H. destruct (fit_rows (map fst xs) (map snd xs)) as [f'|e] eqn:E; [|discriminate].
      injection H as -> ->. rewrite (R2 _ _ Hin), sel_sort in E. exact E.
    + intros E. assert (Hi : In i (map fst gs)).
      { unfold gs. apply runs_in. apply in_map_iff. 
        destruct (sel i (keyed ds)) as [|u l] eqn:Es; [discriminate|].
        assert (Hu : In u (sel i (keyed ds))) by (rewrite Es; now left).
        unfold sel in Hu. apply in_map_iff in Hu as [[j v] [<- Hf]]. apply filter_In in Hf as [Hf Hj].
        cbn in Hj. apply String.eqb_eq in Hj. subst j. exists (i, v). split; [reflexivity|]. now apply sort_In. }
      apply in_map_iff in Hi as [[j xs] [Hj Hin]]. cbn in Hj. subst j.
      exists (i, xs). split; [|exact Hin]. cbn. rewrite (R2 _ _ Hin), sel_sort. now rewrite E.
  - clear R2. induction gs as [|[i xs] gs IH]; cbn; [constructor|].
    inversion R1 as [|? ? S F]; subst. specialize (IH S). cbn in F.
    destruct (fit_rows (map fst xs) (map snd xs)); cbn; [|exact IH]. constructor; [exact IH|].
    rewrite Forall_forall in *. intros j Hj. apply F. apply in_map_iff in Hj as [[j' f] [<- Hf]].
    apply keep_some_in, in_map_iff in Hf as [[j2 ys] [E Hin]]. cbn in E.
    destruct (fit_rows (map fst ys) (map snd ys)); [|discriminate]. injection E as -> ->. now apply in_map with (f := fst) in Hin.
Qed.

(* the forward model is linear in H *)
Lemma pred_row_H tab h o b f g :
  pred_row tab "V" h o b f g = option_map (fun m => h + m) (pred_row tab "V" 0 o b f g).
Proof.
  unfold pred_row, apparent_v. cbn [String.eqb]. change (String.eqb "V" "V") with true. cbv iota.
  destruct (correction_from_cos _ g); cbn; [|reflexivity]. destruct (delta_of tab f); cbn; [|reflexivity]. f_equal. ring.
Qed.
