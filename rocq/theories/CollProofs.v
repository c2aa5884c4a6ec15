(* Proofs about collapsing variants. *)
From Coq Require Import Reals Lra Lia ZArith String List Bool Sorted Permutation.
From Verif Require Import Base ListLemmas StrOrder SphModel SphSpec SphProofs KepModel KepProofs SigmaModel CollModel CollSpec.
Import ListNotations.
Open Scope string_scope.
Open Scope list_scope.
Open Scope R_scope.

(* ---- keys and their order ---- *)
Lemma oeqb_eq : forall a b, oeqb_str a b = true <-> a = b.
Proof. intros [a|] [b|]; cbn; try (split; discriminate); [|tauto]. rewrite String.eqb_eq. split; congruence. Qed.
Lemma same_about : forall a b, same_group a b = true <-> about_row a = about_row b.
Proof.
  intros a b. unfold same_group, about_row. rewrite !andb_true_iff, oeqb_eq, !Z.eqb_eq, String.eqb_eq.
  split; [intros [[[-> ->] ->] ->]; reflexivity|intro H; injection H; auto].
Qed.
Lemma same_false : forall a b, same_group a b = false <-> about_row a <> about_row b.
Proof. intros a b. rewrite <- same_about. destruct (same_group a b); split; congruence. Qed.
Lemma oleb_total : forall a b, oleb_str a b = true \/ oleb_str b a = true.
Proof. intros [a|] [b|]; cbn; auto. apply str_leb_total. Qed.
Lemma oleb_trans : forall a b c, oleb_str a b = true -> oleb_str b c = true -> oleb_str a c = true.
Proof. intros [a|] [b|] [c|]; cbn; auto; try discriminate. apply str_leb_trans. Qed.
Lemma oleb_antisym : forall a b, oleb_str a b = true -> oleb_str b a = true -> a = b.
Proof. intros [a|] [b|]; cbn; auto; try discriminate. intros. f_equal. apply str_leb_antisym; assumption. Qed.
Lemma group_total : forall a b, group_leb a b = true \/ group_leb b a = true.
Proof.
  intros a b. unfold group_leb. destruct (oeqb_str (e_object a) (e_object b)) eqn:O.
  - apply oeqb_eq in O. rewrite O. assert (R : oeqb_str (e_object b) (e_object b) = true) by (apply oeqb_eq; reflexivity). rewrite R.
    rewrite (Z.eqb_sym (e_day b)). destruct (Z.eqb_spec (e_day a) (e_day b)); [|rewrite !Z.leb_le; lia].
    rewrite (Z.eqb_sym (e_nanos b)). destruct (Z.eqb_spec (e_nanos a) (e_nanos b)); [apply str_leb_total|rewrite !Z.leb_le; lia].
  - assert (R : oeqb_str (e_object b) (e_object a) = false). { apply not_true_is_false. intro T. apply oeqb_eq in T. rewrite T in O. assert (oeqb_str (e_object a) (e_object a) = true) by (apply oeqb_eq; reflexivity). congruence. }
    rewrite R. apply oleb_total.
Qed.
Lemma group_cases : forall a b, group_leb a b = true <->
  (e_object a <> e_object b /\ oleb_str (e_object a) (e_object b) = true) \/
  (e_object a = e_object b /\ ((e_day a < e_day b)%Z \/ (e_day a = e_day b /\ ((e_nanos a < e_nanos b)%Z \/ (e_nanos a = e_nanos b /\ str_leb (e_code a) (e_code b) = true))))).
Proof.
  intros a b. unfold group_leb. destruct (oeqb_str (e_object a) (e_object b)) eqn:O.
  - apply oeqb_eq in O. destruct (Z.eqb_spec (e_day a) (e_day b)); [destruct (Z.eqb_spec (e_nanos a) (e_nanos b))|]; rewrite ?Z.leb_le; intuition lia.
  - assert (N : e_object a <> e_object b) by (intro T; apply oeqb_eq in T; congruence). intuition.
Qed.
Lemma group_trans : forall a b c, group_leb a b = true -> group_leb b c = true -> group_leb a c = true.
Proof.
  intros a b c H1 H2. apply group_cases in H1. apply group_cases in H2. apply group_cases.
  destruct H1 as [[N1 L1]|[E1 D1]], H2 as [[N2 L2]|[E2 D2]].
  - left. split; [|eapply oleb_trans; eassumption]. intro E. rewrite E in *. apply N1. apply oleb_antisym; assumption.
  - left. rewrite <- E2. auto.
  - left. rewrite E1. auto.
  - right. split; [congruence|]. destruct D1 as [D1|[D1 M1]], D2 as [D2|[D2 M2]]; try (left; lia).
    right. split; [lia|]. destruct M1 as [M1|[M1 S1]], M2 as [M2|[M2 S2]]; try (left; lia). right. split; [lia|]. eapply str_leb_trans; eassumption.
Qed.
Lemma group_antisym : forall a b, group_leb a b = true -> group_leb b a = true -> about_row a = about_row b.
Proof.
  intros a b H1 H2. apply group_cases in H1. apply group_cases in H2. unfold about_row.
  destruct H1 as [[N1 L1]|[E1 D1]], H2 as [[N2 L2]|[E2 D2]]; try congruence.
  - exfalso. apply N1. apply oleb_antisym; assumption.
  - assert (ED : e_day a = e_day b) by lia. assert (EN : e_nanos a = e_nanos b) by lia. destruct D1 as [D1|[_ [M1|[_ S1]]]]; try lia. destruct D2 as [D2|[_ [M2|[_ S2]]]]; try lia.
    rewrite E1, ED, EN, (str_leb_antisym _ _ S1 S2). reflexivity.
Qed.
Lemma same_leb : forall a b, about_row a = about_row b -> group_leb a b = true.
Proof.
  intros a b H. unfold about_row in H. injection H as H1 H2 H3 H4. apply group_cases. right. split; [exact H1|]. right. split; [exact H2|]. right. split; [exact H3|]. rewrite H4. apply str_leb_refl.
Qed.
Lemma sorted_rows : forall l, StronglySorted (fun a b => group_leb a b = true) (sort group_leb l).
Proof. intro l. apply sort_sorted; [intros x y; apply group_total|intros x y z; apply group_trans]. Qed.

(* ---- runs ---- *)
Lemma runs_concat : forall l, concat (runs l) = l.
Proof.
  induction l as [|a r IH]; [reflexivity|]. cbn [runs]. destruct (runs r) as [|[|b g] gs]; [cbn in *; congruence|cbn in *; rewrite IH; reflexivity|].
  destruct (same_group a b); cbn in *; rewrite IH; reflexivity.
Qed.
Lemma runs_nonempty : forall l g, In g (runs l) -> g <> [].
Proof.
  induction l as [|a r IH]; intros g H; [destruct H|]. cbn [runs] in H. destruct (runs r) as [|[|b h] gs].
  - destruct H as [<-|[]]; discriminate.
  - destruct H as [<-|H]; [discriminate|exact (IH g H)].
  - destruct (same_group a b); (destruct H as [<-|H]; [discriminate|]).
    + apply IH. right. exact H.
    + apply IH. exact H.
Qed.
Lemma runs_spec : forall l, StronglySorted (fun a b => group_leb a b = true) l ->
  (forall g a, In g (runs l) -> In a g -> g = filter (same_group a) l) /\
  ForallOrdPairs (fun g h => forall a b, In a g -> In b h -> about_row a <> about_row b) (runs l).
Proof.
  induction l as [|a r IH]; intro S; [split; [intros g a []|constructor]|]. inversion S as [|? ? S1 F]; subst. destruct (IH S1) as [IH1 IH2]. pose proof (runs_concat r) as RC. pose proof (runs_nonempty r) as RN.
  cbn [runs]. destruct (runs r) as [|[|b g] gs] eqn:RR.
  - cbn in RC. subst r. split; [|constructor; constructor]. intros h x [<-|[]] [<-|[]]. cbn. assert (E : same_group a a = true) by (apply same_about; reflexivity). rewrite E. reflexivity.
  - exfalso. apply (RN []); [left; reflexivity|reflexivity].
  - destruct (same_group a b) eqn:SB.
    + apply same_about in SB. assert (K : forall x, In x (b :: g) -> about_row x = about_row b).
      { intros x X. assert (Q : b :: g = filter (same_group x) r) by (apply (IH1 _ x (or_introl eq_refl) X)). assert (B : In b (filter (same_group x) r)) by (rewrite <- Q; left; reflexivity). apply filter_In in B as [_ B]. apply same_about in B. exact B. }
      inversion IH2 as [|? ? IH2a IH2b]; subst. rewrite Forall_forall in IH2a. split.
      * intros h x [<-|H] X.
        -- assert (KX : about_row x = about_row a) by (destruct X as [<-|X]; [reflexivity|rewrite (K x X); auto]). cbn [filter]. assert (E : same_group x a = true) by (apply same_about; exact KX). rewrite E. f_equal.
           rewrite (IH1 (b :: g) b (or_introl eq_refl) (or_introl eq_refl)) at 1. apply filter_ext. intro y.
           destruct (same_group b y) eqn:Y1, (same_group x y) eqn:Y2; try reflexivity; rewrite ?same_about, ?same_false in *; congruence.
        -- cbn [filter]. assert (E : same_group x a = false). { apply same_false. intro E. apply (IH2a h H b x (or_introl eq_refl) X). congruence. } rewrite E. apply IH1; [right; exact H|exact X].
      * constructor; [|exact IH2b]. rewrite Forall_forall. intros h H x y X Y E. destruct X as [<-|X].
        -- apply (IH2a h H b y (or_introl eq_refl) Y). congruence.
        -- exact (IH2a h H x y X Y E).
    + apply same_false in SB. assert (NO : forall x, In x r -> about_row x <> about_row a).
      { intros x X E. assert (BR : In b r) by (rewrite <- RC; cbn; left; reflexivity). rewrite Forall_forall in F. pose proof (F b BR) as AB.
        assert (BX : group_leb b x = true). { rewrite <- RC in X. cbn [concat app] in X. destruct X as [<-|X]; [apply same_leb; reflexivity|]. rewrite <- RC in S1. cbn [concat app] in S1. inversion S1 as [|? ? ? FB]; subst. rewrite Forall_forall in FB. apply FB. exact X. }
        apply SB. apply group_antisym; [exact AB|]. eapply group_trans; [exact BX|]. apply same_leb. exact E. }
      split.
      * intros h x [<-|H] X.
        -- destruct X as [<-|[]]. cbn [filter]. assert (E : same_group a a = true) by (apply same_about; reflexivity). rewrite E. f_equal. symmetry.
           assert (FN : forall l, (forall y, In y l -> about_row y <> about_row a) -> filter (same_group a) l = []).
           { induction l as [|y l IHl]; intro HN; [reflexivity|]. cbn [filter]. assert (EY : same_group a y = false) by (apply same_false; intro Q; apply (HN y (or_introl eq_refl)); auto). rewrite EY. apply IHl. intros z Zz. apply HN. right. exact Zz. }
           apply FN. exact NO.
        -- cbn [filter]. assert (XR : In x r) by (rewrite <- RC; apply in_concat; exists h; auto). assert (E : same_group x a = false) by (apply same_false; apply NO; exact XR). rewrite E. apply IH1; assumption.
      * constructor; [|exact IH2]. rewrite Forall_forall. intros h H x y [<-|[]] Y E. apply (NO y); [rewrite <- RC; apply in_concat; exists h; auto|congruence].
Qed.
Lemma variants_filter : forall a rows, filter (same_group a) (sort group_leb rows) = variants_of (about_row a) rows.
Proof.
  intros a rows. rewrite sort_filter.
  - unfold variants_of. apply filter_ext. intro y. destruct (about_dec (about_row y) (about_row a)) as [E|E]; [apply same_about; auto|apply same_false; auto].
  - intros x y X Y. apply same_about in X. apply same_about in Y. apply same_leb. congruence.
Qed.
Definition groups (rows : list erow) := runs (sort group_leb rows).
Lemma group_is : forall rows g a, In g (groups rows) -> In a g -> g = variants_of (about_row a) rows.
Proof. intros rows g a G A. destruct (runs_spec _ (sorted_rows rows)) as [H _]. rewrite (H g a G A). apply variants_filter. Qed.
Lemma group_of_row : forall rows a, In a rows -> In (variants_of (about_row a) rows) (groups rows).
Proof.
  intros rows a A. assert (S : In a (sort group_leb rows)) by (apply sort_In; exact A). rewrite <- (runs_concat (sort group_leb rows)) in S. apply in_concat in S as (g & G & I).
  rewrite <- (group_is rows g a G I). exact G.
Qed.

(* ---- slices ---- *)
Lemma slices_map : forall {A B} (f : A -> B) n l fuel, (0 < n)%nat -> (List.length l <= fuel)%nat -> flat_map (map f) (slices fuel n l) = map f l.
Proof.
  intros A B f n l fuel N. revert l. induction fuel as [|k IH]; intros l L; [destruct l; [reflexivity|cbn in L; lia]|]. cbn [slices]. destruct l as [|x l]; [reflexivity|].
  cbn [flat_map]. rewrite IH.
  - rewrite <- map_app, firstn_skipn. reflexivity.
  - rewrite skipn_length. cbn [List.length] in *. lia.
Qed.
Lemma somes_map : forall {A B} (f : A -> option B) l, (forall x, In x l -> exists y, f x = Some y) -> List.length (somes (map f l)) = List.length l /\
  forall i x, nth_error l i = Some x -> nth_error (somes (map f l)) i = f x.
Proof.
  intros A B f l. induction l as [|x l IH]; intro H; [split; [reflexivity|intros [|i] y Y; discriminate]|].
  destruct (H x (or_introl eq_refl)) as (y & Y). destruct IH as [I1 I2]; [intros z Z; apply H; right; exact Z|]. unfold somes in *. cbn [map flat_map]. rewrite Y. cbn [app List.length]. split; [rewrite I1; reflexivity|].
  intros [|i] z Zi; cbn [nth_error] in *; [injection Zi as <-; auto|apply I2; exact Zi].
Qed.
Definition weights_for (rows : list erow) := if uniform (groups rows) then fast_weights else slow_weights.
Lemma base_map : forall chunk rows, (0 < chunk)%nat -> collapse_base chunk rows = somes (map (collapse_rows (weights_for rows)) (groups rows)).
Proof.
  intros chunk rows N. unfold collapse_base, weights_for. fold (groups rows). destruct (uniform (groups rows)); [|reflexivity]. rewrite slices_map by lia. reflexivity.
Qed.
Lemma collapse_some : forall w rows g, In g (groups rows) -> exists y, collapse_rows w g = Some y.
Proof. intros w rows g G. pose proof (runs_nonempty _ g G). destruct g; [congruence|]. cbn. eauto. Qed.
Lemma collapse_about : forall w g a y, collapse_rows w g = Some y -> hd_error g = Some a -> about_out y = about_row a /\ g_orbit y = e_orbit a.
Proof. intros w g a y H HD. destruct g as [|b g]; [discriminate|]. injection HD as ->. cbn in H. injection H as <-. split; reflexivity. Qed.
Lemma in_somes : forall {A} (l : list (option A)) y, In y (somes l) <-> In (Some y) l.
Proof.
  intros A l y. unfold somes. rewrite in_flat_map. split.
  - intros (x & X & Y). destruct x as [x|]; [|destruct Y]. destruct Y as [->|[]]. exact X.
  - intro H. exists (Some y). split; [exact H|left; reflexivity].
Qed.

(* ---- weights ---- *)
Lemma rsum_total : forall l, rsum l = total l.
Proof. induction l as [|x l IH]; cbn; [reflexivity|]. rewrite IH. reflexivity. Qed.
Lemma equal_sum_gen : forall {A} (l : list A) x, rsum (map (fun _ => x) l) = INR (List.length l) * x.
Proof. intros A l x. induction l as [|a l IH]; [cbn; ring|]. cbn [map rsum List.length]. rewrite IH, S_INR. ring. Qed.
Lemma equal_sum : forall {A} (l : list A), l <> [] -> rsum (equal_weights l) = 1.
Proof.
  intros A l N. unfold equal_weights. rewrite equal_sum_gen. destruct l as [|a l]; [congruence|]. cbn [List.length]. rewrite S_INR. pose proof (pos_INR (List.length l)). field. lra.
Qed.
Lemma normalised_one : forall w, rsum w = 1 -> normalised w = w.
Proof. intros w H. unfold normalised. rewrite H. destruct (Req_EM_T 1 0); [lra|]. rewrite <- (map_id w) at 2. apply map_ext. intro x. field. Qed.
Lemma all_some_length : forall l w, all_some l = Some w -> List.length w = List.length l.
Proof.
  induction l as [|[x|] l IH]; intros w H; cbn in H; [injection H as <-; reflexivity| |discriminate]. destruct (all_some l) as [xs|]; [|discriminate]. injection H as <-. cbn. rewrite (IH xs eq_refl). reflexivity.
Qed.
Lemma equal_same : forall {A B} (l : list A) (m : list B), List.length l = List.length m -> equal_weights l = equal_weights m.
Proof.
  intros A B l m E. unfold equal_weights. rewrite E. generalize (1 / INR (List.length m)). intro k. clear -E. revert m E. induction l as [|a l IH]; intros [|b m] E; try discriminate; [reflexivity|]. cbn. rewrite (IH m); [reflexivity|]. cbn in E. lia.
Qed.
Lemma normalised_zero : forall {A} (g : list A) w, rsum w = 0 -> List.length w = List.length g -> normalised w = equal_weights g.
Proof. intros A g w Z L. unfold normalised. rewrite Z. destruct (Req_EM_T 0 0); [|congruence]. fold (equal_weights w). apply equal_same. exact L. Qed.
Lemma fast_slow : forall g, g <> [] -> (forall w, all_some (map e_wc g) = Some w -> rsum w <> 0) -> fast_weights g = slow_weights g.
Proof.
  intros g N H. unfold fast_weights, slow_weights. assert (E1 : normalised (equal_weights g) = equal_weights g) by (apply normalised_one, equal_sum; exact N).
  destruct (all_some (map e_wc g)) as [w|].
  - specialize (H w eq_refl). destruct (all_some (map e_w g)); rewrite ?E1; f_equal; unfold normalised, normalised_or; destruct (Req_EM_T (rsum w) 0); congruence.
  - destruct (all_some (map e_w g)); rewrite ?E1; reflexivity.
Qed.
