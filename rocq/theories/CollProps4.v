(* Properties of collapsing variant orbits by object. *)
From Coq Require Import Reals Lra Lia ZArith String List Bool.
From Verif Require Import Base ListLemmas StrOrder SigmaModel CollModel CollSpec CollProofs CollStat.
Import ListNotations.
Open Scope string_scope.
Open Scope list_scope.
Open Scope R_scope.

Lemma memb_cons : forall x a s, memb oeqb_str x (a :: s) = oeqb_str x a || memb oeqb_str x s.
Proof. reflexivity. Qed.
Lemma filter_first : forall (seen : list (option string)) l, uniq_aux oeqb_str seen l = filter (fun y => negb (memb oeqb_str y seen)) (first_seen l).
Proof.
  intros seen l. revert seen. induction l as [|x l IH]; intro seen; [reflexivity|]. cbn [uniq_aux first_seen filter].
  assert (FF : forall s m, filter (fun y => negb (memb oeqb_str y s)) (filter (fun y => if object_dec x y then false else true) m) = filter (fun y => negb (memb oeqb_str y (x :: s))) m).
  { intros s m. induction m as [|y m IHm]; [reflexivity|]. cbn [filter]. rewrite memb_cons. destruct (object_dec x y) as [<-|NE].
    - assert (E : oeqb_str x x = true) by (apply oeqb_eq; reflexivity). rewrite E. cbn [orb negb]. exact IHm.
    - assert (E : oeqb_str y x = false) by (apply not_true_is_false; rewrite oeqb_eq; congruence). rewrite E. cbn [orb filter]. destruct (negb (memb oeqb_str y s)); rewrite IHm; reflexivity. }
  destruct (memb oeqb_str x seen) eqn:M; cbn [negb].
  - rewrite IH, FF. apply filter_ext. intro y. rewrite memb_cons. destruct (oeqb_str y x) eqn:E; [|reflexivity]. apply oeqb_eq in E. subst. rewrite M. reflexivity.
  - rewrite IH, FF. reflexivity.
Qed.
Lemma uniq_first : forall l, uniq oeqb_str l = first_seen l.
Proof. intro l. unfold uniq. rewrite filter_first. induction (first_seen l) as [|x m IH]; [reflexivity|]. cbn. f_equal. exact IH. Qed.
Lemma first_in : forall l x, In x (first_seen l) <-> In x l.
Proof. intros l x. rewrite <- uniq_first. apply uniq_In. exact oeqb_eq. Qed.
Lemma selects_iff : forall o p, selects o p = true <-> p = o /\ o <> None.
Proof. intros [x|] [y|]; cbn; rewrite ?String.eqb_eq; intuition congruence. Qed.
Lemma selected : forall rows s, filter (fun r => selects (Some s) (w_object r)) rows = orbits_of (Some s) rows.
Proof. intros rows s. unfold orbits_of. apply filter_ext. intro r. destruct (object_dec (w_object r) (Some s)) as [E|E]; [apply selects_iff; split; [exact E|discriminate]|]. apply not_true_is_false. rewrite selects_iff. tauto. Qed.
Lemma selected_none : forall rows, filter (fun r => selects None (w_object r)) rows = [].
Proof. induction rows as [|r rows IH]; [reflexivity|]. exact IH. Qed.
Lemma mean_equal : forall (g : list vorb) (f : vorb -> R), rsum (map (fun p => fst p * f (snd p)) (combine (equal_weights g) g)) = mean_of (map f g).
Proof.
  intros g f. unfold mean_of, equal_weights. rewrite map_length. set (k := 1 / INR (List.length g)). assert (K : k = / INR (List.length g)) by (unfold k, Rdiv; ring). clearbody k.
  assert (E : rsum (map (fun p => fst p * f (snd p)) (combine (map (fun _ : vorb => k) g) g)) = total (map f g) * k). { clear K. induction g as [|a g IH]; cbn; [ring|]. rewrite IH. ring. } rewrite E, K. reflexivity.
Qed.
Lemma weighted_mean_of : forall (g : list vorb) j, weighted_mean (map w_vals g) (equal_weights g) j = mean_of (map (fun v => w_vals v j) g).
Proof. intros g j. unfold weighted_mean. rewrite combine_map_right, map_map. rewrite <- mean_equal. reflexivity. Qed.

(* C218: one orbit for each object in the order of first appearance, with the mean and the population covariance of its variants *)
Theorem C218_orbits : forall rows out, orbits_by_object rows = Ok out ->
  map b_object out = first_seen (map w_object rows) /\
  forall b, In b out -> let g := orbits_of (b_object b) rows in
    (forall v, In v g -> w_day v = b_day b /\ w_nanos v = b_nanos b /\ w_origin v = b_origin b) /\ option_map w_phys (hd_error g) = Some (b_phys b) /\
    (forall j, b_mean b j = mean_of (map (fun v => w_vals v j) g)) /\
    (forall i j, b_cov b i j = mean_of (map (fun v => (w_vals v i - b_mean b i) * (w_vals v j - b_mean b j)) g)).
Proof.
  intros rows out H. unfold orbits_by_object in H. rewrite uniq_first in H.
  assert (ONE : forall o b, collapse_object rows o = Ok b -> b_object b = o /\ let g := orbits_of (b_object b) rows in
    (forall v, In v g -> w_day v = b_day b /\ w_nanos v = b_nanos b /\ w_origin v = b_origin b) /\ option_map w_phys (hd_error g) = Some (b_phys b) /\
    (forall j, b_mean b j = mean_of (map (fun v => w_vals v j) g)) /\ (forall i j, b_cov b i j = mean_of (map (fun v => (w_vals v i - b_mean b i) * (w_vals v j - b_mean b j)) g))).
  { intros o b E. unfold collapse_object in E. destruct o as [s|]; [|rewrite selected_none in E; discriminate]. rewrite selected in E. remember (orbits_of (Some s) rows) as g eqn:DG.
    destruct g as [|a g0]; [discriminate|]. cbv beta iota zeta in E. assert (G : exists g, g = a :: g0) by eauto. destruct G as (g & G). rewrite <- G in *. destruct (forallb (fun r => Z.eqb (w_day r) (w_day a) && Z.eqb (w_nanos r) (w_nanos a)) g) eqn:F1; [|discriminate]. destruct (forallb (fun r => String.eqb (w_origin r) (w_origin a)) g) eqn:F2; [|discriminate]. cbn [negb] in E.
    assert (E2 : b = mkcorb (Some s) (w_day a) (w_nanos a) (w_origin a) (weighted_mean (map w_vals g) (equal_weights g)) (weighted_covariance (weighted_mean (map w_vals g) (equal_weights g)) (map w_vals g) (equal_weights g)) (w_phys a)) by (cbv zeta in E; congruence).
    rewrite forallb_forall in F1, F2. rewrite E2. cbn [b_object b_day b_nanos b_origin b_mean b_cov b_phys]. split; [reflexivity|]. cbv zeta. rewrite <- DG. split; [|split; [rewrite G; reflexivity|split]].
    - intros v V. specialize (F1 v V). specialize (F2 v V). apply andb_true_iff in F1 as [A1 A2]. apply Z.eqb_eq in A1, A2. apply String.eqb_eq in F2. auto.
    - intro j. apply weighted_mean_of.
    - intros i j. unfold weighted_covariance. rewrite combine_map_right, map_map. rewrite <- mean_equal. f_equal. apply map_ext. intros [x v]. cbn [fst snd]. ring. }
  split.
  - revert out H. induction (first_seen (map w_object rows)) as [|o l IH]; intros out H; cbn in H; [injection H as <-; reflexivity|]. destruct (collapse_object rows o) as [b|] eqn:E; [|discriminate]. cbn in H. destruct (mapM (collapse_object rows) l) as [bs|] eqn:E2; [|discriminate]. cbn in H. injection H as <-. cbn [map]. rewrite (IH bs eq_refl). destruct (ONE o b E) as [-> _]. reflexivity.
  - intros b B. apply In_nth_error in B as (i & I). assert (L := mapM_length _ _ _ H). assert (LI : (i < List.length (first_seen (map w_object rows)))%nat) by (rewrite <- L; apply nth_error_Some; congruence). apply nth_error_Some in LI. destruct (nth_error (first_seen (map w_object rows)) i) as [o|] eqn:O; [|congruence]. destruct (mapM_nth _ _ _ i o H O) as (y & Y & YI). assert (b = y) as -> by congruence. exact (proj2 (ONE o y Y)).
Qed.
Print Assumptions C218_orbits.
(* C218: it fails exactly if an object id is missing or the variants of an object differ in epoch or origin *)
Theorem C218_errors : forall rows, (exists out, orbits_by_object rows = Ok out) <->
  (forall v, In v rows -> w_object v <> None) /\ (forall u v, In u rows -> In v rows -> w_object u = w_object v -> w_day u = w_day v /\ w_nanos u = w_nanos v /\ w_origin u = w_origin v).
Proof.
  intro rows. split.
  - intros (out & H). destruct (C218_orbits rows out H) as [M A].
    assert (HB : forall v, In v rows -> exists b, In b out /\ b_object b = w_object v). { intros v V. assert (I : In (w_object v) (map b_object out)) by (rewrite M; apply first_in; apply in_map; exact V). apply in_map_iff in I as (b & B1 & B2). eauto. }
    split.
    + intros v V E. unfold orbits_by_object in H. rewrite uniq_first in H. assert (I : In None (first_seen (map w_object rows))) by (apply first_in; rewrite <- E; apply in_map; exact V). apply In_nth_error in I as (i & I). destruct (mapM_nth _ _ _ i None H I) as (y & Y & _). unfold collapse_object in Y. rewrite selected_none in Y. discriminate.
    + intros u v U V E. destruct (HB u U) as (b & B1 & B2). destruct (A b B1) as (G & _). assert (IN : forall q, In q rows -> w_object q = b_object b -> In q (orbits_of (b_object b) rows)). { intros q Q1 Q2. unfold orbits_of. apply filter_In. split; [exact Q1|]. destruct (object_dec _ _); [reflexivity|contradiction]. }
      destruct (G u (IN u U (eq_sym B2))) as (U1 & U2 & U3). destruct (G v (IN v V ltac:(congruence))) as (V1 & V2 & V3). repeat split; congruence.
  - intros [N S]. apply mapM_ok. intros o O. rewrite uniq_first in O. apply (proj1 (first_in _ _)) in O. apply in_map_iff in O as (v & V1 & V2). destruct o as [s|]; [|exfalso; exact (N v V2 V1)]. unfold collapse_object. rewrite selected. assert (IG : In v (orbits_of (Some s) rows)). { unfold orbits_of. apply filter_In. split; [exact V2|]. destruct (object_dec _ _); [reflexivity|contradiction]. }
    assert (GI : forall q, In q (orbits_of (Some s) rows) -> In q rows /\ w_object q = Some s). { intros q Q. unfold orbits_of in Q. apply filter_In in Q as [Q1 Q2]. destruct (object_dec (w_object q) (Some s)); [auto|discriminate]. }
    remember (orbits_of (Some s) rows) as g eqn:DG. destruct g as [|a g0]; [destruct IG|]. cbv beta iota zeta. assert (G : exists g, g = a :: g0) by eauto. destruct G as (g & G). rewrite <- G in *. assert (AG : In a g) by (rewrite G; left; reflexivity).
    assert (F1 : forallb (fun r => Z.eqb (w_day r) (w_day a) && Z.eqb (w_nanos r) (w_nanos a)) g = true). { apply forallb_forall. intros q Q. destruct (GI q Q), (GI a AG). destruct (S q a) as (A1 & A2 & A3); try assumption; [congruence|]. rewrite A1, A2, !Z.eqb_refl. reflexivity. }
    assert (F2 : forallb (fun r => String.eqb (w_origin r) (w_origin a)) g = true). { apply forallb_forall. intros q Q. destruct (GI q Q), (GI a AG). destruct (S q a) as (A1 & A2 & A3); try assumption; [congruence|]. rewrite A3. apply String.eqb_refl. }
    rewrite F1, F2. cbn. eauto.
Qed.
Print Assumptions C218_errors.
(* the sigma points of a covariance of 1/6 on the diagonal: weighed by their weights they give it back, collapsed by object they give 2/13 *)
Definition unit_rows : SigmaModel.mat := fun i j => if Nat.eqb i j then 1 else 0.
Theorem C218_sigma_points_refuted : exists rows b, map w_vals rows = sigma_points 6 (fun _ => 0) unit_rows /\ orbits_by_object rows = Ok [b] /\
  (forall i j, (i < 6)%nat -> (j < 6)%nat -> rsum (map (fun k => unit_rows k i * unit_rows k j) (seq 0 6)) = (INR 6 + lambda_ 6 1 0) * (if Nat.eqb i j then 1/6 else 0)) /\
  weighted_covariance (fun _ => 0) (map w_vals rows) (weights_cov 6 1 0 0) 0%nat 0%nat = 1/6 /\ b_cov b 0%nat 0%nat = 2/13.
Proof.
  set (rows := map (fun v => mkvorb "o" (Some "a") 1 0 "SUN" v None) (sigma_points 6 (fun _ => 0) unit_rows)). exists rows.
  assert (E : exists b, orbits_by_object rows = Ok [b]) by (eexists; reflexivity). destruct E as (b & E). exists b.
  assert (M : map w_vals rows = sigma_points 6 (fun _ => 0) unit_rows) by reflexivity.
  assert (L : INR 6 + lambda_ 6 1 0 = 6) by (unfold lambda_; cbn; ring).
  split; [exact M|]. split; [exact E|]. split; [|split].
  - intros i j I J. rewrite L. do 6 (destruct i as [|i]; [do 6 (destruct j as [|j]; [cbn; lra|]); lia|]). lia.
  - rewrite M. assert (W : weights_cov 6 1 0 0 = 0 :: repeat (1/12) 12). { unfold weights_cov. cbv zeta. rewrite L. assert (LL : lambda_ 6 1 0 = 0) by (unfold lambda_; cbn; ring). rewrite LL. replace (0 / 6 + (1 - 1 * 1 + 0)) with 0 by field. replace (1 / (2 * 6)) with (1 / 12) by field. reflexivity. }
    rewrite W. unfold weighted_covariance. cbn. lra.
  - destruct (C218_orbits rows [b] E) as [O A]. destruct (A b (or_introl eq_refl)) as (_ & _ & A1 & A2). assert (OB : b_object b = Some "a") by (cbn in O; congruence). rewrite OB in *.
    assert (G : orbits_of (Some "a") rows = rows) by reflexivity. rewrite G in A1, A2. rewrite A2. assert (MB : b_mean b 0%nat = 0) by (rewrite A1; unfold mean_of; cbn; lra). rewrite MB. unfold mean_of. cbn. lra.
Qed.
Print Assumptions C218_sigma_points_refuted.
Example C218_case : let r := fun o x => mkvorb "i" (Some o) 3 4 "SUN" (fun _ => x) None in
  (exists out, orbits_by_object [r "b" 1; r "a" 2; r "b" 3] = Ok out /\ map b_object out = [Some "b"; Some "a"]) /\ mean_of [1; 3] = 2 /\
  orbits_by_object [r "b" 1; mkvorb "i" None 3 4 "SUN" (fun _ => 0) None] = Err AssertionError.
Proof. cbv zeta. split; [eexists; split; [reflexivity|reflexivity]|]. split; [unfold mean_of; cbn; lra|reflexivity]. Qed.
