(* Proofs for trajectories and orbit classes. *)
From Coq Require Import String QArith Lqa Sorted Permutation Lia.
From Verif Require Import Base TrajModel TrajSpec.
Open Scope list_scope.

Lemma qlt_iff a b : qlt a b = true <-> (a < b)%Q.
Proof. unfold qlt. rewrite negb_true_iff. split; intros H. apply Qnot_le_lt. intros L. apply Qle_bool_iff in L. congruence. destruct (Qle_bool b a) eqn:E; auto. apply Qle_bool_iff in E. lra. Qed.
Lemma qle_iff a b : Qle_bool a b = true <-> (a <= b)%Q. Proof. apply Qle_bool_iff. Qed.
Lemma qlt_false a b : qlt a b = false <-> (b <= a)%Q.
Proof. unfold qlt. rewrite negb_false_iff. apply Qle_bool_iff. Qed.
Lemma qle_false a b : Qle_bool a b = false <-> (b < a)%Q.
Proof. rewrite <- qlt_iff. unfold qlt. now rewrite negb_true_iff. Qed.

(* ------------------------------------------------------- ordered pairs ---- *)
Lemma FOP_perm {A} (R : A -> A -> Prop) l m : (forall a b, R a b -> R b a) -> Permutation l m -> ForallOrdPairs R l -> ForallOrdPairs R m.
Proof.
  intros Sy P. induction P; intros H; auto.
  - inversion H; subst. constructor; auto. rewrite Forall_forall in *. intros y Iy. apply H2. eapply Permutation_in; [symmetry|]; eauto.
  - inversion H as [|? ? F1 H1]; subst. inversion H1 as [|? ? F2 H2]; subst. inversion F1; subst. constructor.
    + constructor; auto.
    + constructor; auto.
Qed.
Lemma FOP_filter {A} (R : A -> A -> Prop) f l : ForallOrdPairs R l -> ForallOrdPairs R (filter f l).
Proof.
  induction 1 as [|a l F H IH]; cbn. constructor. destruct (f a); auto. constructor; auto. rewrite Forall_forall in *. intros x Hx. apply filter_In in Hx. apply F. tauto.
Qed.
Lemma FOP_nth {A} (R : A -> A -> Prop) l : (forall a b, R a b -> R b a) ->
  (ForallOrdPairs R l <-> forall i j a b, i <> j -> nth_error l i = Some a -> nth_error l j = Some b -> R a b).
Proof.
  intros Sy. split.
  - induction 1 as [|x l F H IH]; intros i j a b N Hi Hj. destruct i; discriminate.
    rewrite Forall_forall in F. destruct i, j; cbn in *; try congruence.
    + injection Hi as <-. apply nth_error_In in Hj. auto.
    + injection Hj as <-. apply nth_error_In in Hi. auto.
    + apply (IH i j); auto.
  - induction l as [|x l IH]; intros H; constructor.
    + apply Forall_forall. intros y Iy. apply In_nth_error in Iy. destruct Iy as (n & Hn). apply (H 0 (S n))%nat; auto.
    + apply IH. intros i j a b N Hi Hj. apply (H (S i) (S j)); auto.
Qed.
Lemma FOP_groups {A} (key : A -> string) (R : A -> A -> Prop) l :
  (forall o, ForallOrdPairs R (filter (fun r => String.eqb (key r) o) l)) <-> ForallOrdPairs (fun a b => key a = key b -> R a b) l.
Proof.
  induction l as [|x l IH]; [split; intros; constructor|]. split; intros H.
  - constructor.
    + apply Forall_forall. intros y Iy E. specialize (H (key x)). cbn in H. rewrite String.eqb_refl in H. inversion H; subst.
      rewrite Forall_forall in H2. apply H2. apply filter_In. split; auto. apply String.eqb_eq. auto.
    + apply IH. intros o. specialize (H o). cbn in H. destruct (String.eqb (key x) o); auto. inversion H; auto.
  - intros o. inversion H as [|? ? F H1]; subst. cbn. destruct (String.eqb_spec (key x) o) as [E|]; [|apply IH; auto]. constructor.
    + rewrite Forall_forall in *. intros y Iy. apply filter_In in Iy. destruct Iy as [Iy Ey]. apply String.eqb_eq in Ey. apply F; congruence.
    + apply IH; auto.
Qed.

Definition apart (a b : segment) : Prop := (g_end a <= g_start b)%Q \/ (g_end b <= g_start a)%Q.
Lemma apart_sym a b : apart a b -> apart b a. Proof. unfold apart. tauto. Qed.
Lemma apart_covers a b : (g_start a < g_end a)%Q -> (g_start b < g_end b)%Q -> (apart a b <-> forall t, covers a t -> covers b t -> False).
Proof.
  intros Ha Hb. unfold apart, covers. split.
  - intros [H|H] t [] []; lra.
  - intros H. destruct (Qlt_le_dec (g_start b) (g_end a)) as [L1|]; auto. destruct (Qlt_le_dec (g_start a) (g_end b)) as [L2|]; auto. exfalso.
    destruct (Qlt_le_dec (g_start a) (g_start b)) as [L|L]; [apply (H (g_start b))|apply (H (g_start a))]; split; lra.
Qed.
Definition bystart (a b : segment) := Qle_bool (g_start a) (g_start b).
Lemma overlaps_apart l : StronglySorted (le bystart) l -> (forall r, In r l -> g_start r < g_end r)%Q ->
  (overlaps l = false <-> ForallOrdPairs apart l).
Proof.
  induction 1 as [|a l S IH F]; intros W; [split; [constructor|reflexivity]|].
  assert (W' : forall r, In r l -> (g_start r < g_end r)%Q) by (intros; apply W; now right). specialize (IH W').
  destruct l as [|b l]; [split; [repeat constructor|reflexivity]|].
  change (overlaps (a :: b :: l)) with (qlt (g_start b) (g_end a) || overlaps (b :: l)). rewrite orb_false_iff, qlt_false, IH. split.
  - intros [L H]. constructor; auto. apply Forall_forall. intros y Iy. left. apply Qle_trans with (g_start b); auto.
    destruct Iy as [<-|Iy]; [lra|]. inversion S as [|? ? ? F2]; subst. rewrite Forall_forall in F2. specialize (F2 y Iy). apply qle_iff in F2. exact F2.
  - intros H. inversion H as [|? ? F1 H1]; subst. split; auto. inversion F1 as [|? ? A _]; subst. destruct A as [A|A]; auto.
    inversion F as [|? ? L _]; subst. apply qle_iff in L. specialize (W' b (or_introl eq_refl)). lra.
Qed.
Lemma bystart_total x y : le bystart x y \/ le bystart y x.
Proof. unfold le, bystart. rewrite !qle_iff. destruct (Qlt_le_dec (g_start x) (g_start y)); [left|right]; lra. Qed.
Lemma bystart_trans x y z : le bystart x y -> le bystart y z -> le bystart x z.
Proof. unfold le, bystart. rewrite !qle_iff. lra. Qed.

Lemma existsb_false {A} (f : A -> bool) l : existsb f l = false <-> forall x, In x l -> f x = false.
Proof.
  split. intros H x Ix. destruct (f x) eqn:E; auto. assert (existsb f l = true) by (apply existsb_exists; eauto). congruence.
  intros H. destruct (existsb f l) eqn:E; auto. apply existsb_exists in E. destruct E as (x & Ix & Ex). rewrite H in Ex; auto.
Qed.
Lemma disjoint_apart l : (forall r, In r l -> g_start r < g_end r)%Q ->
  (disjoint l <-> ForallOrdPairs (fun a b => g_obj a = g_obj b -> apart a b) l).
Proof.
  intros W. rewrite FOP_nth by (intros a b H E; apply apart_sym; auto). unfold disjoint. split.
  - intros H i j a b N Hi Hj E. apply apart_covers. apply W; eapply nth_error_In; eauto. apply W; eapply nth_error_In; eauto.
    intros t. apply (H i j a b t); auto.
  - intros H i j a b t N Hi Hj E. eapply apart_covers. apply W; eapply nth_error_In; eauto. apply W; eapply nth_error_In; eauto. eapply (H i j); eauto.
Qed.

Lemma validate_iff l : (validate_coverage l = Ok l <-> Forall segment_ok l /\ disjoint l) /\ (validate_coverage l = Ok l \/ validate_coverage l = Err ValueError).
Proof.
  unfold validate_coverage.
  destruct (existsb (fun r => Qle_bool (g_end r) (g_start r)) l) eqn:E1.
  { split; [|now right]. split; [discriminate|]. intros [F _]. apply existsb_exists in E1. destruct E1 as (r & Ir & Er). apply qle_iff in Er.
    rewrite Forall_forall in F. destruct (F r Ir) as [H _]. lra. }
  assert (W : (forall r, In r l -> g_start r < g_end r)%Q).
  { intros r Ir. rewrite existsb_false in E1. apply E1 in Ir. now apply qle_false in Ir. }
  destruct (existsb (fun r => qlt (g_epoch r) (g_start r) || qlt (g_end r) (g_epoch r)) l) eqn:E2.
  { split; [|now right]. split; [discriminate|]. intros [F _]. apply existsb_exists in E2. destruct E2 as (r & Ir & Er).
    rewrite Forall_forall in F. destruct (F r Ir) as (H & H2 & H3). apply orb_true_iff in Er. rewrite !qlt_iff in Er. destruct Er; lra. }
  assert (F : Forall segment_ok l).
  { apply Forall_forall. intros r Ir. rewrite existsb_false in E2. specialize (E2 r Ir). apply orb_false_iff in E2. rewrite !qlt_false in E2. repeat split; try tauto. auto. }
  match goal with |- context [existsb ?f (object_ids l)] => set (fo := f); destruct (existsb fo (object_ids l)) eqn:E3 end.
  - split; [|now right]. split; [discriminate|]. intros [_ D]. rewrite disjoint_apart in D by auto. rewrite <- FOP_groups in D.
    apply existsb_exists in E3. destruct E3 as (o & Io & Eo). unfold fo in Eo.
    assert (X : overlaps (sort bystart (filter (fun r => String.eqb (g_obj r) o) l)) = false); [|unfold bystart in X; congruence].
    apply overlaps_apart.
    + apply sort_sorted. apply bystart_total. apply bystart_trans.
    + intros r Ir. apply sort_In in Ir. apply filter_In in Ir. apply W. tauto.
    + eapply FOP_perm; [intros; now apply apart_sym|apply sort_perm|apply D].
  - split; [|now left]. split; auto. intros _. split; auto. apply disjoint_apart; auto. apply FOP_groups. intros o.
    destruct (in_dec string_dec o (object_ids l)) as [Io|No].
    + rewrite existsb_false in E3. specialize (E3 o Io). unfold fo in E3. eapply FOP_perm; [intros; now apply apart_sym|symmetry; apply (sort_perm bystart)|].
      apply overlaps_apart; auto. apply sort_sorted. apply bystart_total. apply bystart_trans.
      intros r Ir. apply sort_In in Ir. apply filter_In in Ir. apply W. tauto.
    + replace (filter _ l) with (@nil segment). constructor. symmetry. destruct (filter (fun r => String.eqb (g_obj r) o) l) as [|x m] eqn:E; auto.
      exfalso. apply No. assert (Ix : In x (filter (fun r => String.eqb (g_obj r) o) l)) by (rewrite E; now left). apply filter_In in Ix.
      destruct Ix as [Ix Ex]. apply String.eqb_eq in Ex. apply uniq_In. intros; apply String.eqb_eq. rewrite <- Ex. now apply in_map.
Qed.

(* ---------------------------------------------------------- segment_for ---- *)
Definition covering (t : Q) (r : segment) : bool := Qle_bool (g_start r) t && qlt t (g_end r).
Lemma covering_iff t r : covering t r = true <-> covers r t.
Proof. unfold covering, covers. now rewrite andb_true_iff, qle_iff, qlt_iff. Qed.
Lemma FOP_covering t l : ForallOrdPairs apart l -> (List.length (filter (covering t) l) <= 1)%nat.
Proof.
  intros H. apply (FOP_filter _ (covering t)) in H. destruct (filter (covering t) l) as [|a [|b m]] eqn:E; cbn; auto. exfalso.
  inversion H as [|? ? F _]; subst. inversion F as [|? ? Ap _]; subst.
  assert (Ca : covers a t) by (apply covering_iff; apply (proj1 (filter_In _ a l)); rewrite E; now left).
  assert (Cb : covers b t) by (apply covering_iff; apply (proj1 (filter_In _ b l)); rewrite E; right; now left).
  unfold covers in *. destruct Ap; lra.
Qed.
Definition pick_one (t : Q) (l : list segment) : result (option segment) :=
  match filter (covering t) l with [] => Ok None | [r] => Ok (Some r) | _ => Err ValueError end.
Lemma pick_one_ok t l : ForallOrdPairs apart l -> exists o, pick_one t l = Ok o /\ forall r, o = Some r <-> In r l /\ covers r t.
Proof.
  intros H. pose proof (FOP_covering t l H) as L. unfold pick_one.
  assert (I : forall r, In r (filter (covering t) l) <-> In r l /\ covers r t) by (intros r; rewrite filter_In, covering_iff; tauto).
  destruct (filter (covering t) l) as [|a [|b m]]; cbn in L; [| |lia].
  - exists None. split; auto. intros r. rewrite <- I. cbn. split; [discriminate|easy].
  - exists (Some a). split; auto. intros r. rewrite <- I. cbn. split; [intros [= ->]; auto|intros [->|[]]; auto].
Qed.
Lemma segment_for_some l t ob : segment_for l t (Some ob) = pick_one t (filter (fun r => String.eqb (g_obj r) ob) l).
Proof. reflexivity. Qed.
Lemma segment_for_ok l : validate_coverage l = Ok l -> forall t ob, exists o, segment_for l t (Some ob) = Ok o /\
  (forall r, o = Some r <-> In r l /\ g_obj r = ob /\ covers r t).
Proof.
  intros V t ob. apply validate_iff in V. destruct V as [F D].
  assert (W : (forall r, In r l -> g_start r < g_end r)%Q) by (intros r Ir; rewrite Forall_forall in F; now apply F).
  apply disjoint_apart in D; auto. rewrite <- FOP_groups in D. specialize (D ob).
  rewrite segment_for_some. destruct (pick_one_ok t _ D) as (o & E & H). exists o. split; auto.
  intros r. rewrite H, filter_In, String.eqb_eq. tauto.
Qed.
Lemma object_ids_one l : (List.length (object_ids l) <= 1)%nat <-> (forall a b, In a l -> In b l -> g_obj a = g_obj b).
Proof.
  assert (I : forall o, In o (object_ids l) <-> In o (map g_obj l)) by (intros; apply uniq_In; intros; apply String.eqb_eq).
  assert (N : NoDup (object_ids l)) by (apply uniq_NoDup; intros; apply String.eqb_eq). split.
  - intros L a b Ia Ib. assert (In (g_obj a) (object_ids l)) as A by (apply I; now apply in_map). assert (In (g_obj b) (object_ids l)) as B by (apply I; now apply in_map).
    destruct (object_ids l) as [|x [|y m]]; cbn in L; [easy| |lia]. destruct A as [<-|[]], B as [<-|[]]. auto.
  - intros H. destruct (object_ids l) as [|x [|y m]]; cbn; auto. exfalso.
    assert (X : In x (map g_obj l)) by (apply I; now left). assert (Y : In y (map g_obj l)) by (apply I; right; now left).
    apply in_map_iff in X, Y. destruct X as (a & <- & Ia), Y as (b & <- & Ib). inversion N as [|? ? N1 _]. apply N1. left. apply H; auto.
Qed.
Lemma segment_for_none l : validate_coverage l = Ok l -> forall t,
  ((forall a b, In a l -> In b l -> g_obj a = g_obj b) ->
     exists o, segment_for l t None = Ok o /\ forall r, o = Some r <-> In r l /\ covers r t) /\
  ((exists a b, In a l /\ In b l /\ g_obj a <> g_obj b) -> segment_for l t None = Err ValueError).
Proof.
  intros V t. apply validate_iff in V. destruct V as [F D].
  assert (W : (forall r, In r l -> g_start r < g_end r)%Q) by (intros r Ir; rewrite Forall_forall in F; now apply F).
  apply disjoint_apart in D; auto. unfold segment_for. fold (covering t). fold (pick_one t l). split.
  - intros H. rewrite (proj2 (Nat.ltb_ge 1 _)) by (apply object_ids_one; auto).
    apply pick_one_ok. clear - D H. induction D as [|a l F D IH]; constructor.
    + rewrite Forall_forall in *. intros x Ix. apply F; auto. apply H; cbn; auto.
    + apply IH. intros; apply H; cbn; auto.
  - intros (a & b & Ia & Ib & N). destruct (Nat.ltb_spec 1 (List.length (object_ids l))) as [|L]; auto. exfalso. apply N. eapply object_ids_one; eauto.
Qed.
Lemma own_epoch l : validate_coverage l = Ok l -> forall r, In r l -> (g_epoch r < g_end r)%Q -> segment_for l (g_epoch r) (Some (g_obj r)) = Ok (Some r).
Proof.
  intros V r Ir L. destruct (segment_for_ok l V (g_epoch r) (g_obj r)) as (o & E & H). rewrite E. f_equal. apply H. split; auto. split; auto.
  apply validate_iff in V. destruct V as [F _]. rewrite Forall_forall in F. destruct (F r Ir) as (? & ? & ?). split; auto.
Qed.
Lemma own_epoch_end l : validate_coverage l = Ok l -> forall r, In r l -> (g_epoch r == g_end r)%Q -> segment_for l (g_epoch r) (Some (g_obj r)) <> Ok (Some r).
Proof.
  intros V r Ir L. destruct (segment_for_ok l V (g_epoch r) (g_obj r)) as (o & E & H). rewrite E. intros [= X]. apply H in X. destruct X as (_ & _ & ? & ?). lra.
Qed.

(* ---------------------------------------------------------- orbit class ---- *)
Lemma fold_last (rs : list (string * bool)) d :
  let r := fold_left (fun cur (r : string * bool) => if snd r then fst r else cur) rs d in
  (r = d /\ forall x, In x rs -> snd x = false) \/
  (exists l1 l2, rs = l1 ++ (r, true) :: l2 /\ forall x, In x l2 -> snd x = false).
Proof.
  cbv zeta. induction rs as [|[c b] rs IH] using rev_ind.
  - left. split; auto. easy.
  - rewrite fold_left_app. cbn. destruct b.
    + right. exists rs, []. split; auto. easy.
    + destruct IH as [[E H]|(l1 & l2 & E & H)].
      * left. split; auto. intros x Ix. apply in_app_iff in Ix. destruct Ix as [Ix|[<-|[]]]; auto.
      * right. exists l1, (l2 ++ [(c, false)]). split. rewrite E at 1. now rewrite <- app_assoc.
        intros x Ix. apply in_app_iff in Ix. destruct Ix as [Ix|[<-|[]]]; auto.
Qed.

Definition bound (a e : Q) : Prop := (0 < a /\ 0 <= e /\ e < 1)%Q.
Lemma bound_facts a e : bound a e -> let q := (a * (1 - e))%Q in let Q := (a * (1 + e))%Q in (0 < q /\ q <= a /\ a <= Q /\ q + Q == 2 * a)%Q.
Proof. intros (Ha & He & H1). cbv zeta. repeat split; nra. Qed.
(* elements whose four columns are those of a bound orbit *)
Definition like (v : elements) (a e : Q) : Prop :=
  exists a' e' q' Q', v = mkel (Fin a') (Fin e') (Fin q') (Fin Q') /\ (a' == a /\ e' == e /\ q' == a * (1 - e) /\ Q' == a * (1 + e))%Q.
Lemma xlt_fin x y : xlt (Fin x) (Fin y) = true <-> (x < y)%Q.
Proof. apply qlt_iff. Qed.
Lemma rules_iff v a e c : bound a e -> like v a e -> (In (c, true) (class_rules v) <-> in_class c a e).
Proof.
  intros B (a' & e' & q' & Q' & -> & Ha & He & Hq & HQ). pose proof B as (_ & _ & B1).
  assert (P1 : xeq (Fin e') (Fin 1) = false). { cbn. destruct (Qeq_bool e' 1) eqn:E; auto. apply Qeq_bool_iff in E. lra. }
  assert (P2 : xlt (Fin 1) (Fin e') = false). { cbn. apply qlt_false. lra. }
  unfold class_rules, in_class. cbn [el_a el_e el_q el_Q]. rewrite P1, P2. cbv zeta. set (q := (a * (1 - e))%Q) in *. set (Q0 := (a * (1 + e))%Q) in *.
  split.
  - intros H. cbn [In] in H.
    repeat (destruct H as [H|H]; [injection H as Hc H; try discriminate H; symmetry in Hc; rewrite ?andb_true_iff, ?xlt_fin, ?qlt_iff in H; rewrite ?Ha, ?He, ?Hq, ?HQ in H; tauto|]). destruct H.
  - intros H. cbn [In].
    repeat (destruct H as [H|H]; [destruct H as (Hc & H); rewrite Hc;
      match goal with |- context [(?s, ?b) = (?s, true)] => let X := fresh in assert (X : b = true); [rewrite ?andb_true_iff, ?xlt_fin, ?qlt_iff, ?Ha, ?He, ?Hq, ?HQ; tauto|rewrite X; tauto] end|]).
    destruct H as (Hc & H). rewrite Hc.
    match goal with |- context [(?s, ?b) = (?s, true)] => let X := fresh in assert (X : b = true); [rewrite ?andb_true_iff, ?xlt_fin, ?qlt_iff, ?Ha, ?He, ?Hq, ?HQ; tauto|rewrite X; tauto] end.
Qed.
Lemma class_sound v a e : bound a e -> like v a e ->
  (calc_orbit_class v = "AST"%string /\ forall c, ~ in_class c a e) \/ in_class (calc_orbit_class v) a e.
Proof.
  intros B L. unfold calc_orbit_class. destruct (fold_last (class_rules v) "AST"%string) as [[E H]|(l1 & l2 & E & H)].
  - left. split; auto. intros c Hc. apply (rules_iff v a e c B L) in Hc. apply H in Hc. discriminate.
  - right. apply (rules_iff v a e _ B L). set (x := fold_left _ _ _) in *. clearbody x. rewrite E. apply in_app_iff. right. now left.
Qed.
Lemma class_AST v a e : bound a e -> like v a e -> (calc_orbit_class v = "AST"%string <-> forall c, ~ in_class c a e).
Proof.
  intros B L. destruct (class_sound v a e B L) as [[E H]|H]; split; auto.
  - intros E. rewrite E in H. exfalso. unfold in_class in H. intuition discriminate.
  - intros N. exfalso. eapply N; eauto.
Qed.
(* outside the region q < 1.3, a > 3.2 the classes do not overlap *)
Lemma class_unique a e c c' : bound a e -> (a <= 32#10 \/ 13#10 <= a * (1 - e))%Q -> in_class c a e -> in_class c' a e -> c = c'.
Proof.
  intros B R. destruct (bound_facts a e B) as (F1 & F2 & F3 & F4). unfold in_class.
  cbv zeta in *. set (q := (a * (1 - e))%Q) in *. set (Q0 := (a * (1 + e))%Q) in *. clearbody q Q0. clear B. intros H H'.
  repeat (destruct H as [H|H]); repeat (destruct H' as [H'|H']); destruct H as (-> & H), H' as (-> & H'); try reflexivity; exfalso;
    repeat (match goal with H : _ /\ _ |- _ => destruct H end); destruct R; lra.
Qed.
Lemma class_of v a e c : bound a e -> like v a e -> (a <= 32#10 \/ 13#10 <= a * (1 - e))%Q -> in_class c a e -> calc_orbit_class v = c.
Proof.
  intros B L R H. destruct (class_sound v a e B L) as [[_ N]|H']. exfalso; eapply N; eauto. eapply class_unique; eauto.
Qed.
Lemma like_keplerian a e : bound a e -> like (keplerian_elements a e) a e.
Proof.
  intros (_ & _ & B). unfold keplerian_elements, apoapsis. rewrite (proj2 (qle_false 1 e) B). do 4 eexists. split. reflexivity. repeat split; reflexivity.
Qed.
Lemma like_cometary q e : (0 < q)%Q -> (0 <= e)%Q -> (e < 1)%Q -> bound (q / (1 - e)) e /\ like (cometary_elements q e) (q / (1 - e)) e.
Proof.
  intros H1 H2 H3. assert (H4 : ~ (1 - e == 0)%Q) by lra. split.
  - split; [|split]; auto. apply Qlt_shift_div_l; lra.
  - unfold cometary_elements. destruct (Qeq_bool e 1) eqn:E. apply Qeq_bool_iff in E. lra. cbv zeta. unfold apoapsis. rewrite (proj2 (qle_false 1 e) H3).
    do 4 eexists. split. reflexivity. repeat split; try reflexivity. field. auto.
Qed.
Lemma unbound_class v x : el_e v = Fin x -> ((1 < x)%Q -> calc_orbit_class v = "HYA"%string) /\ ((x == 1)%Q -> calc_orbit_class v = "PAA"%string).
Proof.
  intros E. unfold calc_orbit_class, class_rules. rewrite E. cbv zeta.
  match goal with |- context [fold_left ?f ?l ?d] => change l with ((firstn 11 l) ++ skipn 11 l); set (F := f); set (l1 := firstn 11 l) end.
  rewrite fold_left_app. generalize (fold_left F l1 "AST"%string). intros s. cbn [skipn fold_left]. unfold F. cbn [fst snd]. split; intros H.
  - now rewrite (proj2 (xlt_fin 1 x) H).
  - replace (xlt (Fin 1) (Fin x)) with false. replace (xeq (Fin x) (Fin 1)) with true; auto. symmetry. cbn. now apply Qeq_bool_iff. symmetry. cbn. apply qlt_false. lra.
Qed.
