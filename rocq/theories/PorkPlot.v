From Coq Require Import Reals Lra Psatz.
From Coq Require Import List String Bool ZArith Lia Permutation Sorted.
From Verif Require Import Base ListLemmas TimeModel KepModel PorkModel PorkSpec PorkProofs PorkMore LambertModel.
Import ListNotations.
Open Scope string_scope.
Open Scope list_scope.
Open Scope R_scope.

Lemma rle_t : forall a b, rle a b = true <-> a <= b.
Proof. intros a b. unfold rle. destruct (Rle_dec a b); split; auto; discriminate. Qed.
Lemma rlt_t : forall a b, rlt a b = true <-> a < b.
Proof. intros a b. unfold rlt. destruct (Rlt_dec a b); split; auto; discriminate. Qed.

(* ---- bounds ---- *)
Definition mx (m v : option R) := match m, v with Some a, Some b => Some (Rmax a b) | _, _ => None end.
Lemma fold_none : forall l, fold_left mx l None = None.
Proof. induction l as [|[v|] l IH]; cbn; auto. Qed.
Lemma fold_has_none : forall l x, In None (x :: l) -> fold_left mx l x = None.
Proof.
  induction l as [|v l IH]; intros x H.
  - destruct H as [->|[]]. reflexivity.
  - cbn. destruct H as [->|[->|H]].
    + cbn. apply fold_none.
    + replace (mx x None) with (@None R) by (destruct x; reflexivity). apply fold_none.
    + apply IH. right. exact H.
Qed.
Lemma fold_ge : forall l x m, fold_left mx l x = Some m -> forall v, In v (x :: l) -> exists u, v = Some u /\ u <= m.
Proof.
  induction l as [|y l IH]; intros x m H v V.
  - cbn in H. subst x. destruct V as [<-|[]]. exists m. split; [reflexivity|lra].
  - cbn in H. specialize (IH _ _ H). destruct (IH (mx x y) (or_introl eq_refl)) as (w & W & L).
    destruct x as [a|]; [|discriminate]. destruct y as [b|]; [|discriminate]. cbn in W. injection W as <-. pose proof (Rmax_l a b). pose proof (Rmax_r a b).
    destruct V as [<-|[<-|V]]; [exists a; split; [reflexivity|lra]|exists b; split; [reflexivity|lra]|]. apply IH. right. exact V.
Qed.
Lemma fold_some : forall l x, Forall (fun v => v <> None) (x :: l) -> exists m, fold_left mx l x = Some m /\ In (Some m) (x :: l).
Proof.
  induction l as [|y l IH]; intros x F.
  - inversion F; subst. destruct x as [a|]; [|congruence]. exists a. split; [reflexivity|left; reflexivity].
  - inversion F as [|? ? X F1]; subst. inversion F1 as [|? ? Y F2]; subst. destruct x as [a|]; [|congruence]. destruct y as [b|]; [|congruence].
    destruct (IH (mx (Some a) (Some b))) as (m & M & I). { constructor; [cbn; congruence|exact F2]. }
    exists m. split; [exact M|]. destruct I as [I|I]; [|right; right; exact I]. cbn in I. injection I as <-. unfold Rmax. destruct (Rle_dec a b); [right; left|left]; reflexivity.
Qed.
Lemma npmax_none : forall l, In None l -> npmax l = Ok None.
Proof. intros [|x l] H; [destruct H|]. cbn. f_equal. apply fold_has_none. exact H. Qed.
Lemma npmax_ge : forall l m, npmax l = Ok (Some m) -> forall v, In v l -> exists u, v = Some u /\ u <= m.
Proof. intros [|x l] m H v V; [destruct V|]. cbn in H. injection H as H. eapply fold_ge; eassumption. Qed.
Lemma npmax_some : forall l, l <> [] -> Forall (fun v => v <> None) l -> exists m, npmax l = Ok (Some m) /\ In (Some m) l.
Proof. intros [|x l] N F; [congruence|]. destruct (fold_some l x F) as (m & M & I). exists m. split; [cbn; f_equal; exact M|exact I]. Qed.
Lemma or_max_at_most : forall h l m x, or_max h l = Ok (Some m) -> In (Some x) l -> (x <= m <-> at_most x h).
Proof.
  intros [h|] l m x H I; cbn in *.
  - injection H as <-. reflexivity.
  - destruct (npmax_ge _ _ H _ I) as (u & U & L). injection U as <-. tauto.
Qed.
Lemma at_least_zero : forall v lo, or_zero lo <= v <-> at_least v lo.
Proof. intros v [x|]; reflexivity. Qed.

(* ---- the rows kept ---- *)
Definition kept (o : limits) (l : list point) (hc hv ht : R) := selected (or_zero (l_c3_min o)) hc (or_zero (l_vinf_min o)) hv (or_zero (l_tof_min o)) ht l.
Lemma kept_chosen : forall o l hc hv ht, or_max (l_c3_max o) (map g_c3 l) = Ok (Some hc) -> or_max (l_vinf_max o) (map g_vinf l) = Ok (Some hv) ->
  or_max (l_tof_max o) (map (fun p => Some (g_tof p)) l) = Ok (Some ht) -> forall p, In p (kept o l hc hv ht) <-> chosen o l p.
Proof.
  intros o l hc hv ht HC HV HT p. unfold kept, selected. rewrite filter_In, !andb_true_iff. unfold chosen. split.
  - intros (I & ((A & B) & C)). split; [exact I|]. unfold inside in *. destruct (g_c3 p) as [c|] eqn:Ec; [|discriminate]. destruct (g_vinf p) as [v|] eqn:Ev; [|discriminate].
    rewrite andb_true_iff, !rle_t in A, B, C. destruct A as [A1 A2], B as [B1 B2], C as [C1 C2]. exists c, v. split; [reflexivity|]. split; [reflexivity|].
    rewrite <- !at_least_zero. split; [exact A2|]. split; [eapply or_max_at_most; [exact HC| |exact A1]; rewrite <- Ec; now apply in_map|]. split; [exact B2|].
    split; [eapply or_max_at_most; [exact HV| |exact B1]; rewrite <- Ev; now apply in_map|]. split; [exact C2|].
    eapply or_max_at_most; [exact HT| |exact C1]. apply (in_map (fun q => Some (g_tof q)) l p I).
  - intros (I & c & v & Ec & Ev & A2 & A1 & B2 & B1 & C2 & C1). split; [exact I|]. rewrite Ec, Ev. unfold inside. rewrite !andb_true_iff, !rle_t. rewrite <- at_least_zero in A2, B2, C2.
    split; [split; split|split]; auto.
    + eapply or_max_at_most; [exact HC| |exact A1]. rewrite <- Ec. now apply in_map.
    + eapply or_max_at_most; [exact HV| |exact B1]. rewrite <- Ev. now apply in_map.
    + eapply or_max_at_most; [exact HT| |exact C1]. apply (in_map (fun q => Some (g_tof q)) l p I).
Qed.

(* ---- axes ---- *)
Definition eqR (a b : R) : bool := if Req_EM_T a b then true else false.
Lemma eqR_ok : forall a b, eqR a b = true <-> a = b.
Proof. intros a b. unfold eqR. destruct (Req_EM_T a b); split; auto; discriminate. Qed.
Lemma rle_total : forall x y, rle x y = true \/ rle y x = true.
Proof. intros x y. rewrite !rle_t. lra. Qed.
Lemma rle_tr : forall x y z, rle x y = true -> rle y z = true -> rle x z = true.
Proof. intros x y z. rewrite !rle_t. lra. Qed.
Lemma unique_In : forall l v, In v (unique_sorted l) <-> In v l.
Proof. intros l v. unfold unique_sorted. rewrite sort_In. fold eqR. apply (uniq_In eqR eqR_ok). Qed.
Lemma unique_lt : forall l, StronglySorted Rlt (unique_sorted l).
Proof.
  intro l. unfold unique_sorted. fold eqR. set (u := uniq eqR l). assert (N : NoDup (sort rle u)). { eapply Permutation_NoDup; [apply sort_perm|]. apply (uniq_NoDup eqR eqR_ok). }
  pose proof (sort_sorted rle rle_total rle_tr u) as S. revert S N. generalize (sort rle u). clear u.
  induction 1 as [|x r S IH F]; intro N; [constructor|]. inversion N as [|? ? NI N']; subst. constructor; [auto|]. rewrite Forall_forall in *. intros y Y. specialize (F y Y). cbv beta in F. apply rle_t in F.
  destruct F as [F|F]; [exact F|]. subst y. contradiction.
Qed.

(* ---- cells ---- *)
Lemma cell_acc : forall s (f : point -> option R) d a (acc : option R),
  let r := fold_left (fun acc p => if Req_EM_T (g_dep p) d then (if Req_EM_T (g_arr p) a then f p else acc) else acc) s acc in
  (exists p, In p s /\ g_dep p = d /\ g_arr p = a /\ r = f p) \/ (r = acc /\ forall p, In p s -> ~ (g_dep p = d /\ g_arr p = a)).
Proof.
  induction s as [|p s IH]; intros f d a acc; cbn.
  - right. split; [reflexivity|tauto].
  - destruct (Req_EM_T (g_dep p) d) as [D|D]; [destruct (Req_EM_T (g_arr p) a) as [A|A]|].
    + destruct (IH f d a (f p)) as [(q & I & R)|[R N]]; cbn in R; left; [exists q; tauto|]. exists p. auto.
    + destruct (IH f d a acc) as [(q & I & R)|[R N]]; cbn in R; [left; exists q; tauto|right; split; [exact R|]]. intros q [<-|Q]; [tauto|auto].
    + destruct (IH f d a acc) as [(q & I & R)|[R N]]; cbn in R; [left; exists q; tauto|right; split; [exact R|]]. intros q [<-|Q]; [tauto|auto].
Qed.
Lemma cell_spec : forall s f d a, (exists p, In p s /\ g_dep p = d /\ g_arr p = a /\ cell s f d a = f p) \/ (cell s f d a = None /\ forall p, In p s -> ~ (g_dep p = d /\ g_arr p = a)).
Proof. intros. apply cell_acc. Qed.

(* ---- best ---- *)
Lemma best_spec : forall f l b, Forall (fun p => f p <> None) (b :: l) -> In (best_point f b l) (b :: l) /\
  forall p u v, In p (b :: l) -> f p = Some u -> f (best_point f b l) = Some v -> v <= u.
Proof.
  intros f l. induction l as [|p r IH]; intros b F.
  - cbn. split; [auto|]. intros q u v [<-|[]] U V. rewrite U in V. injection V as ->. lra.
  - inversion F as [|? ? Fb F1]; subst. inversion F1 as [|? ? Fp F2]; subst. cbn [best_point]. destruct (f p) as [u|] eqn:U; [|congruence]. destruct (f b) as [v|] eqn:V; [|congruence].
    destruct (rlt u v) eqn:L.
    + apply rlt_t in L. destruct (IH p) as [I M]; [constructor; [congruence|exact F2]|]. split; [destruct I as [I|I]; [right; left; exact I|right; right; exact I]|].
      intros q x y [<-|[<-|Q]] X Y; [|apply (M p x y (or_introl eq_refl) X Y)|apply (M q x y (or_intror Q) X Y)].
      specialize (M p u y (or_introl eq_refl) U Y). rewrite V in X. injection X as <-. lra.
    + assert (L' : v <= u). { destruct (Rle_dec v u); [assumption|]. exfalso. assert (u < v) by lra. apply rlt_t in H. congruence. }
      destruct (IH b) as [I M]; [constructor; [congruence|exact F2]|]. split; [destruct I as [I|I]; [left; exact I|right; right; exact I]|].
      intros q x y [<-|[<-|Q]] X Y; [apply (M b x y (or_introl eq_refl) X Y)| |apply (M q x y (or_intror Q) X Y)].
      specialize (M b v y (or_introl eq_refl) V Y). rewrite U in X. injection X as <-. lra.
Qed.
Lemma fold_min : forall l x v, In v (x :: l) -> fold_left Rmin l x <= v.
Proof.
  induction l as [|y l IH]; intros x v H; cbn; [destruct H as [->|[]]; lra|]. destruct H as [->|[->|H]].
  - eapply Rle_trans; [apply IH; left; reflexivity|apply Rmin_l].
  - eapply Rle_trans; [apply IH; left; reflexivity|apply Rmin_r].
  - apply IH. right. exact H.
Qed.
Lemma fold_max : forall l x v, In v (x :: l) -> v <= fold_left Rmax l x.
Proof.
  induction l as [|y l IH]; intros x v H; cbn; [destruct H as [->|[]]; lra|]. destruct H as [->|[->|H]].
  - eapply Rle_trans; [apply Rmax_l|apply IH; left; reflexivity].
  - eapply Rle_trans; [apply Rmax_r|apply IH; left; reflexivity].
  - apply IH. right. exact H.
Qed.
Lemma minmax : forall l v, In v l -> minR l 0 <= v <= maxR l 0.
Proof. intros [|x l] v H; [destruct H|]. cbn. split; [apply fold_min|apply fold_max]; exact H. Qed.

(* ---- plot ---- *)
Definition grid (xs ys : list R) (f : R -> R -> option R) : list (list (option R)) := map (fun a => map (fun d => f d a) xs) ys.
Definition axis_window (w : option (R * R)) (xs : list R) : R * R := match w with Some w => w | None => (minR xs 0, maxR xs 0) end.
Definition mark (o : limits) (s : list point) (f : point -> option R) : option point :=
  match s with [] => None | p :: r => let b := best_point f p r in
    if l_optimal o && within (axis_window (l_xlim o) (unique_sorted (map g_dep s))) (axis_window (l_ylim o) (unique_sorted (map g_arr s))) b then Some b else None end.
Lemma plot_inv : forall o l xs ys c3 vi tf b1 b2, plot o l = Ok (Figure xs ys c3 vi tf b1 b2) -> exists s,
  (forall p, In p s <-> chosen o l p) /\ xs = unique_sorted (map g_dep s) /\ ys = unique_sorted (map g_arr s) /\
  c3 = grid xs ys (cell s g_c3) /\ vi = grid xs ys (cell s g_vinf) /\ tf = grid xs ys (fun d a => Some (a - d)) /\
  b1 = mark o s g_c3 /\ b2 = mark o s g_vinf.
Proof.
  intros o l xs ys c3 vi tf b1 b2 H. unfold plot in H. destruct (or_max (l_c3_max o) (map g_c3 l)) as [[hc|]|] eqn:HC; cbn [bind] in H; try discriminate.
  destruct (negb (rlt (or_zero (l_c3_min o)) hc)); [discriminate|]. destruct (or_max (l_vinf_max o) (map g_vinf l)) as [hv'|] eqn:HV; cbn [bind] in H; [|discriminate].
  destruct (or_max (l_tof_max o) (map (fun p => Some (g_tof p)) l)) as [ht'|] eqn:HT; cbn [bind] in H; [|discriminate].
  destruct hv' as [hv|]; [|discriminate]. destruct ht' as [ht|]; [|discriminate]. destruct (negb _); [discriminate|].
  fold (kept o l hc hv ht) in H. destruct (_ || _); [discriminate|]. exists (kept o l hc hv ht). injection H as <- <- <- <- <- <- <-.
  split; [apply kept_chosen; assumption|]. repeat (split; [reflexivity|]). reflexivity.
Qed.
Lemma plot_ok : forall o l hc hv, or_max (l_c3_max o) (map g_c3 l) = Ok (Some hc) -> or_max (l_vinf_max o) (map g_vinf l) = Ok (Some hv) -> l <> [] ->
  or_zero (l_c3_min o) < hc -> or_zero (l_vinf_min o) < hv -> exists f, plot o l = Ok f /\
  (f = NoGrid -> (exists d, forall p, chosen o l p -> g_dep p = d) \/ (exists a, forall p, chosen o l p -> g_arr p = a)).
Proof.
  intros o l hc hv HC HV NE LC LV. unfold plot. rewrite HC. cbn [bind]. replace (rlt (or_zero (l_c3_min o)) hc) with true by (symmetry; now apply rlt_t). cbn [negb]. rewrite HV. cbn [bind].
  assert (HT : exists ht, or_max (l_tof_max o) (map (fun p => Some (g_tof p)) l) = Ok (Some ht)).
  { destruct (l_tof_max o) as [t|]; [exists t; reflexivity|]. cbn. destruct (npmax_some (map (fun p => Some (g_tof p)) l)) as (m & M & _); [destruct l; [congruence|discriminate]| |exists m; exact M].
    apply Forall_forall. intros v V. apply in_map_iff in V. destruct V as (q & <- & _). congruence. }
  destruct HT as [ht HT]. rewrite HT. cbn [bind]. replace (rlt 0 ((hv - or_zero (l_vinf_min o)) / 10)) with true by (symmetry; apply rlt_t; lra). cbn [negb].
  fold (kept o l hc hv ht). destruct (_ || _) eqn:E; [|eexists; split; [reflexivity|discriminate]]. exists NoGrid. split; [reflexivity|]. intros _.
  pose proof (kept_chosen o l hc hv ht HC HV HT) as K. apply orb_true_iff in E. 
  assert (W : forall f, Nat.ltb (List.length (unique_sorted (map f (kept o l hc hv ht)))) 2 = true -> exists d, forall p, chosen o l p -> f p = d).
  { intros f L. apply Nat.ltb_lt in L. destruct (unique_sorted (map f (kept o l hc hv ht))) as [|d [|]] eqn:U; [| |cbn in L; lia].
    - exists 0. intros p P. apply K in P. apply (in_map f) in P. apply unique_In in P. rewrite U in P. destruct P.
    - exists d. intros p P. apply K in P. apply (in_map f) in P. apply unique_In in P. rewrite U in P. destruct P as [P|[]]. auto. }
  destruct E as [E|E]; [left|right]; apply W; exact E.
Qed.
Lemma plot_unsolved : forall o l p, In p l -> g_c3 p = None -> l_c3_max o = None -> plot o l = Err AssertionError.
Proof. intros o l p I N D. unfold plot. rewrite D. cbn [or_max]. rewrite npmax_none; [reflexivity|]. rewrite <- N. now apply in_map. Qed.
Lemma grid_nth : forall xs ys f i j d a, nth_error xs j = Some d -> nth_error ys i = Some a -> exists r, nth_error (grid xs ys f) i = Some r /\ nth_error r j = Some (f d a).
Proof.
  intros xs ys f i j d a J I. exists (map (fun d => f d a) xs). split; [exact (map_nth_error (fun a => map (fun d => f d a) xs) i ys I)|]. exact (map_nth_error (fun d => f d a) j xs J).
Qed.
Lemma mark_spec : forall o s f b, (forall p, In p s -> f p <> None) -> mark o s f = Some b ->
  In b s /\ (forall p u v, In p s -> f p = Some u -> f b = Some v -> v <= u) /\ shown_in (l_xlim o) (g_dep b) /\ shown_in (l_ylim o) (g_arr b) /\ l_optimal o = true.
Proof.
  intros o s f b A H. unfold mark in H. destruct s as [|p r]; [discriminate|]. cbv zeta in H. destruct (l_optimal o) eqn:OP; cbn [andb] in H; [|discriminate].
  destruct (within _ _ _) eqn:W; [|discriminate]. injection H as <-. destruct (best_spec f r p) as [I M]; [apply Forall_forall; exact A|]. split; [exact I|]. split; [exact M|].
  unfold within in W. rewrite !andb_true_iff, !rle_t in W. unfold axis_window, shown_in in *. destruct (l_xlim o) as [[xa xb]|], (l_ylim o) as [[ya yb]|]; cbn [fst snd] in W; tauto.
Qed.
Lemma mark_none : forall o s f, (forall p, In p s -> f p <> None) -> s <> [] -> l_optimal o = true -> mark o s f = None ->
  exists b, In b s /\ (forall p u v, In p s -> f p = Some u -> f b = Some v -> v <= u) /\ ~ (shown_in (l_xlim o) (g_dep b) /\ shown_in (l_ylim o) (g_arr b)).
Proof.
  intros o s f A NE OP H. unfold mark in H. destruct s as [|p r]; [congruence|]. cbv zeta in H. rewrite OP in H. cbn [andb] in H. destruct (within _ _ _) eqn:W; [discriminate|].
  destruct (best_spec f r p) as [I M]; [apply Forall_forall; exact A|]. exists (best_point f p r). split; [exact I|]. split; [exact M|]. intros [X Y].
  assert (F : within (axis_window (l_xlim o) (unique_sorted (map g_dep (p :: r)))) (axis_window (l_ylim o) (unique_sorted (map g_arr (p :: r)))) (best_point f p r) = true); [|congruence].
  unfold within. rewrite !andb_true_iff, !rle_t.
  assert (DX : minR (unique_sorted (map g_dep (p :: r))) 0 <= g_dep (best_point f p r) <= maxR (unique_sorted (map g_dep (p :: r))) 0) by (apply minmax, unique_In, in_map, I).
  assert (DY : minR (unique_sorted (map g_arr (p :: r))) 0 <= g_arr (best_point f p r) <= maxR (unique_sorted (map g_arr (p :: r))) 0) by (apply minmax, unique_In, in_map, I).
  unfold axis_window, shown_in in *. destruct (l_xlim o) as [[xa xb]|], (l_ylim o) as [[ya yb]|]; cbn [fst snd]; tauto.
Qed.
