(* Lemmas about the impact visualisation data. *)
From Coq Require Import Reals QArith Qround String Lra.
From Verif Require Import Base ListLemmas TimeModel SphModel FrameModel VizModel VizSpec.
Open Scope string_scope.
Open Scope Z_scope.
Open Scope list_scope.

Lemma split_map : forall {A} (p : A -> bool) (g : A -> A) l,
  Permutation (filter (fun v => negb (p v)) l ++ map g (filter p l)) (map (fun v => if p v then g v else v) l).
Proof.
  intros A p g l; induction l as [|x l IH]; cbn; [reflexivity|].
  destruct (p x); cbn.
  - rewrite <- Permutation_middle. constructor. exact IH.
  - constructor. exact IH.
Qed.
Lemma filter_or : forall {A} (p q : A -> bool) l, (forall x, In x l -> p x = true -> q x = false) ->
  Permutation (filter p l ++ filter q l) (filter (fun x => p x || q x)%bool l).
Proof.
  intros A p q l; induction l as [|x l IH]; intros D; cbn; [reflexivity|].
  assert (IH' := IH (fun y Hy => D y (or_intror Hy))).
  destruct (p x) eqn:Px; cbn.
  - rewrite (D x (or_introl eq_refl) Px). constructor. exact IH'.
  - destruct (q x); [|exact IH']. rewrite <- Permutation_middle. constructor. exact IH'.
Qed.
Lemma filter_family : forall {A B} (p : B -> A -> bool) (bs : list B) (l : list A), NoDup bs ->
  (forall x b b', In x l -> In b bs -> In b' bs -> p b x = true -> p b' x = true -> b = b') ->
  Permutation (flat_map (fun b => filter (p b) l) bs) (filter (fun x => existsb (fun b => p b x) bs) l).
Proof.
  intros A B p bs l; induction bs as [|b bs IH]; intros N D.
  - cbn. clear. induction l; cbn; [reflexivity|assumption].
  - inversion N as [|? ? Nb Nbs]; subst. cbn [flat_map].
    rewrite IH by (try assumption; intros; eapply D; eauto; right; assumption).
    rewrite filter_or; [reflexivity|].
    intros x Hx Pb. destruct (existsb _ bs) eqn:E; [|reflexivity].
    apply existsb_exists in E as [b' [Hb' Pb']]. exfalso. apply Nb.
    rewrite (D x b b' Hx (or_introl eq_refl) (or_intror Hb') Pb Pb'). exact Hb'.
Qed.
Lemma filter_ext_in' : forall {A} (p q : A -> bool) l, (forall x, In x l -> p x = q x) -> filter p l = filter q l.
Proof. intros A p q l H. induction l as [|x l IH]; cbn; [reflexivity|]. rewrite (H x (or_introl eq_refl)), IH; [reflexivity|]. intros; apply H; right; assumption. Qed.
Lemma filter_filter' : forall {A} (p q : A -> bool) l, filter p (filter q l) = filter (fun x => q x && p x)%bool l.
Proof. intros A p q l; induction l as [|x l IH]; cbn; [reflexivity|]. destruct (q x); cbn; [destruct (p x); cbn|]; rewrite IH; reflexivity. Qed.

Lemma filter_perm : forall {A} (p : A -> bool) l m, Permutation l m -> Permutation (filter p l) (filter p m).
Proof.
  intros A p l m H; induction H; cbn; [reflexivity| | |etransitivity; eassumption].
  - destruct (p x); [constructor|]; assumption.
  - destruct (p x), (p y); try reflexivity. apply perm_swap.
Qed.

Section P.
Context {P C : Type}.

Lemma names_true : forall (e : event C) (v : vrow P), names e v = true <-> ev_variant e = Some (v_id v).
Proof.
  intros e v. unfold names. destruct (ev_variant e) as [i|].
  - rewrite String.eqb_eq. split; [intros <-; reflexivity|intros [= <-]; reflexivity].
  - split; discriminate.
Qed.
Lemma hitsb_true : forall b (e : event C) (v : vrow P), hitsb b e v = true <-> hits b e v.
Proof.
  intros b e v. unfold hitsb, hits. rewrite Bool.andb_true_iff, String.eqb_eq.
  destruct (ev_variant e) as [i|]; [rewrite String.eqb_eq|]; intuition congruence.
Qed.
Lemma victim_true : forall b evs (v : vrow P), victim b evs v = true <-> exists e : event C, In e evs /\ hits b e v.
Proof. intros. unfold victim. rewrite existsb_exists. split; intros [e [H K]]; exists e; (split; [exact H|]); apply hitsb_true; exact K. Qed.
Lemma is_in_true : forall evs (v : vrow P), is_in evs v = true <-> exists e : event C, In e evs /\ ev_variant e = Some (v_id v).
Proof. intros. unfold is_in. rewrite existsb_exists. split; intros [e [H K]]; exists e; (split; [exact H|]); apply names_true; exact K. Qed.
Variables (mjd : row -> Q) (rescale : string -> string -> row -> row) (place : C -> Q -> row -> P).
Notation post := (post_impact (P := P) (C := C) mjd rescale).
Notation fr := (freeze (P := P) place).
Notation one := (one_impact mjd rescale place).
Lemma post_true : forall s es (e : event C) (v : vrow P), post s es e v = true <->
  ev_variant e = Some (v_id v) /\ (mjd (rescale es s (ev_time e)) <= mjd (v_time v))%Q.
Proof. intros. unfold post_impact. rewrite Bool.andb_true_iff, names_true, Qle_bool_iff. reflexivity. Qed.

(* the value of one row after all impacts *)
Fixpoint show (s es : string) (r : Q) (evs : list (event C)) (v : vrow P) : vrow P :=
  match evs with [] => v | e :: evs' => show s es r evs' (if post s es e v then fr r e v else v) end.
Lemma post_key : forall s es e (v w : vrow P), key w = key v -> post s es e w = post s es e v.
Proof. intros s es e v w K. unfold key in K. injection K as K1 K2. unfold post_impact, names. rewrite K1, K2. reflexivity. Qed.
Lemma freeze_key : forall r e (v : vrow P), key (fr r e v) = key v.
Proof. reflexivity. Qed.
Lemma fold_show : forall s es r evs rows, Permutation (fold_left (one s es r) evs rows) (map (show s es r evs) rows).
Proof.
  intros s es r evs; induction evs as [|e evs IH]; intros rows; cbn [fold_left show].
  - rewrite map_id. reflexivity.
  - rewrite IH. unfold one_impact. rewrite (split_map (post s es e) (fr r e)), map_map. reflexivity.
Qed.
Lemma show_key : forall s es r evs v, key (show s es r evs v) = key v.
Proof. intros s es r evs; induction evs as [|e evs IH]; intros v; cbn; [reflexivity|]. rewrite IH. destruct (post s es e v); reflexivity. Qed.
Lemma show_none : forall s es r evs v, (forall e, In e evs -> post s es e v = false) -> show s es r evs v = v.
Proof. intros s es r evs; induction evs as [|e evs IH]; intros v H; cbn; [reflexivity|]. rewrite (H e (or_introl eq_refl)). apply IH. intros; apply H; right; assumption. Qed.
Lemma show_app : forall s es r a b v, show s es r (a ++ b) v = show s es r b (show s es r a v).
Proof. intros s es r a; induction a as [|e a IH]; intros b v; cbn; [reflexivity|]. apply IH. Qed.
Lemma show_last : forall s es r a e b v, post s es e v = true -> (forall e', In e' b -> post s es e' v = false) ->
  show s es r (a ++ e :: b) v = mkv (v_id v) (v_time v) (place (ev_coll e) r (v_time v)).
Proof.
  intros s es r a e b v H N. rewrite show_app. cbn [show].
  pose proof (show_key s es r a v) as K. set (w := show s es r a v) in *.
  rewrite (post_key s es e v w K), H.
  assert (K2 : key (fr r e w) = key v) by (rewrite freeze_key; exact K).
  rewrite show_none by (intros e' He'; rewrite (post_key s es e' v _ K2); apply N, He').
  unfold key in K. injection K as K3 K4. unfold freeze. rewrite K3, K4. reflexivity.
Qed.

Lemma body_events : forall b evs (e : event C), In e (filter (fun e => String.eqb (ev_body e) b) evs) <-> In e evs /\ ev_body e = b.
Proof. intros. rewrite filter_In, String.eqb_eq. reflexivity. Qed.
Lemma filter_split_last : forall (b : string) (a : list (event C)) e c, ev_body e = b ->
  filter (fun e => String.eqb (ev_body e) b) (a ++ e :: c)
  = filter (fun e => String.eqb (ev_body e) b) a ++ e :: filter (fun e => String.eqb (ev_body e) b) c.
Proof. intros b a e c E. rewrite filter_app. cbn. rewrite E, String.eqb_refl. reflexivity. Qed.
Lemma show_shown : forall s es b r evs v,
  shown mjd rescale place s es b r evs v (show s es r (filter (fun e => String.eqb (ev_body e) b) evs) v).
Proof.
  intros s es b r evs v. split; [apply show_key|split].
  - intros N. apply show_none. intros e He. apply body_events in He as [He Eb].
    destruct (post s es e v) eqn:E; [|reflexivity]. exfalso. apply (N e He). apply post_true in E as [E1 E2]. repeat split; assumption.
  - intros a e c -> D N. destruct D as [[Eb Ev] Et]. rewrite filter_split_last by exact Eb.
    rewrite show_last; [reflexivity|apply post_true; split; assumption|].
    intros e' He'. apply body_events in He' as [He' Eb'].
    destruct (post s es e' v) eqn:E; [|reflexivity]. exfalso. apply (N e' He'). apply post_true in E as [E1 E2]. repeat split; assumption.
Qed.
Lemma here_victim : forall b evs rows,
  filter (is_in (filter (fun e : event C => String.eqb (ev_body e) b) evs)) (filter (is_in evs) rows) = filter (victim b evs) (rows : list (vrow P)).
Proof.
  intros b evs rows. rewrite filter_filter'. apply filter_ext. intros v. apply Bool.eq_true_iff_eq.
  rewrite Bool.andb_true_iff, !is_in_true, victim_true. split.
  - intros [_ [e [He K]]]. apply body_events in He as [He Eb]. exists e. repeat split; assumption.
  - intros [e [He [Eb K]]]. split; exists e; (split; [|exact K]); [exact He|]. apply body_events. split; assumption.
Qed.

(* the groups of the dictionary *)
Lemma prepare_inv : forall f s es rows evs d, prepare mjd rescale place f s es rows evs = Ok d ->
  f = "ecliptic" /\ exists gs, d = ("Non-Impacting", filter (fun v => negb (is_in evs v)) rows) :: gs
    /\ map fst gs = uniq String.eqb (map ev_body evs)
    /\ Forall (fun g => exists r, body_radius (fst g) = Ok r /\
         snd g = fold_left (one s es r) (filter (fun e => String.eqb (ev_body e) (fst g)) evs) (filter (victim (fst g) evs) rows)) gs.
Proof.
  intros f s es rows evs d H. unfold prepare in H. destruct (String.eqb f "ecliptic") eqn:F; [|discriminate].
  apply String.eqb_eq in F. split; [exact F|].
  destruct (mapM _ _) as [gs|] eqn:M; cbn [bind] in H; [|discriminate]. injection H as <-.
  exists gs. split; [reflexivity|].
  revert gs M. generalize (uniq String.eqb (map ev_body evs)). intros bs; induction bs as [|b bs IH]; intros gs M; cbn [mapM] in M.
  - injection M as <-. split; [reflexivity|constructor].
  - unfold one_body at 1 in M. destruct (body_radius b) as [r|] eqn:R; cbn [bind] in M; [|discriminate].
    destruct (mapM _ bs) as [gs'|] eqn:M'; cbn [bind] in M; [|discriminate]. injection M as <-.
    destruct (IH gs' eq_refl) as [I1 I2]. split; [cbn; rewrite I1; reflexivity|].
    constructor; [|exact I2]. exists r. split; [exact R|]. cbn. rewrite here_victim. reflexivity.
Qed.
Lemma prepare_ok : forall s es rows evs, Forall (fun e => ev_body e = "EARTH" \/ ev_body e = "MOON") evs ->
  exists d, prepare mjd rescale place "ecliptic" s es rows evs = Ok d.
Proof.
  intros s es rows evs H. unfold prepare. cbn [String.eqb Ascii.eqb Bool.eqb].
  assert (K : forall bs, (forall b, In b bs -> b = "EARTH" \/ b = "MOON") -> exists gs, mapM (one_body mjd rescale place s es evs (filter (is_in evs) rows)) bs = Ok gs).
  { intros bs; induction bs as [|b bs IH]; intros Hb; [eexists; reflexivity|].
    destruct (IH (fun x Hx => Hb x (or_intror Hx))) as [gs G]. cbn [mapM]. rewrite G.
    destruct (Hb b (or_introl eq_refl)) as [->| ->]; eexists; reflexivity. }
  destruct (K (uniq String.eqb (map ev_body evs))) as [gs G].
  - intros b Hb. apply (proj1 (uniq_In String.eqb String.eqb_eq _ _)) in Hb. apply in_map_iff in Hb as [e [<- He]].
    rewrite Forall_forall in H. apply H, He.
  - rewrite G. eexists; reflexivity.
Qed.
End P.

(* ---- the epochs ---- *)
Open Scope Q_scope.
Lemma floor_shift : forall x k, Qfloor (x + inject_Z k) = (Qfloor x + k)%Z.
Proof.
  intros x k. pose proof (Qfloor_le x) as L. pose proof (Qlt_floor x) as U.
  pose proof (Qfloor_le (x + inject_Z k)) as L'. pose proof (Qlt_floor (x + inject_Z k)) as U'.
  assert (A : inject_Z (Qfloor x + k) < inject_Z (Qfloor (x + inject_Z k) + 1)).
  { rewrite inject_Z_plus. eapply Qle_lt_trans; [|exact U']. apply Qplus_le_compat; [exact L|apply Qle_refl]. }
  assert (B : inject_Z (Qfloor (x + inject_Z k)) < inject_Z (Qfloor x + 1 + k)).
  { rewrite (inject_Z_plus (_ + 1)). eapply Qle_lt_trans; [exact L'|]. apply Qplus_lt_le_compat; [exact U|apply Qle_refl]. }
  rewrite <- Zlt_Qlt in A, B. lia.
Qed.
Lemma seq_map_ext : forall {A} (f g : nat -> A) n, (forall k, f k = g k) -> map f (seq 0 n) = map g (seq 0 n).
Proof. intros. apply map_ext. assumption. Qed.
Lemma grid_floor : forall a stop q, 0 < q ->
  map (floor_to q) (arange a stop q)
  = map (fun k => inject_Z (Qfloor (a / q) + Z.of_nat k) * q) (seq 0 (Z.to_nat (Qceiling ((stop - a) / q)))).
Proof.
  intros a stop q Hq. unfold arange. rewrite map_map. apply seq_map_ext. intros k. unfold floor_to.
  rewrite <- floor_shift. f_equal. f_equal. apply Qfloor_comp. field. intros E. rewrite E in Hq. discriminate.
Qed.
Lemma window : forall first last m q, 0 < q -> 0 <= m -> first <= last ->
  let k0 := Qfloor ((first - m) / q) in
  let n := Qceiling ((last + m + q - (first - m)) / q) in
  (1 <= n)%Z /\ inject_Z k0 * q <= first - m /\ first - m < inject_Z (k0 + 1) * q
  /\ last + m - q < inject_Z (k0 + n - 1) * q /\ inject_Z (k0 + n - 1) * q < last + m + q.
Proof.
  intros first last m q Hq Hm Hl k0 n.
  assert (Hq' : ~ q == 0) by (intros E; rewrite E in Hq; discriminate).
  pose proof (Qfloor_le ((first - m) / q)) as L. pose proof (Qlt_floor ((first - m) / q)) as U. fold k0 in L, U.
  pose proof (Qle_ceiling ((last + m + q - (first - m)) / q)) as CU. pose proof (Qceiling_lt ((last + m + q - (first - m)) / q)) as CL. fold n in CU, CL.
  assert (L1 : inject_Z k0 * q <= first - m).
  { apply (Qmult_le_r _ _ q Hq) in L. setoid_replace ((first - m) / q * q) with (first - m) in L by (field; exact Hq'). exact L. }
  assert (U1 : first - m < inject_Z (k0 + 1) * q).
  { apply (Qmult_lt_r _ _ q Hq) in U. setoid_replace ((first - m) / q * q) with (first - m) in U by (field; exact Hq'). exact U. }
  assert (CU1 : last + m + q - (first - m) <= inject_Z n * q).
  { apply (Qmult_le_r _ _ q Hq) in CU. setoid_replace ((last + m + q - (first - m)) / q * q) with (last + m + q - (first - m)) in CU by (field; exact Hq'). exact CU. }
  assert (CL1 : inject_Z (n - 1) * q < last + m + q - (first - m)).
  { apply (Qmult_lt_r _ _ q Hq) in CL. setoid_replace ((last + m + q - (first - m)) / q * q) with (last + m + q - (first - m)) in CL by (field; exact Hq'). exact CL. }
  assert (X1 : inject_Z (k0 + n - 1) * q == inject_Z k0 * q + inject_Z (n - 1) * q).
  { replace (k0 + n - 1)%Z with (k0 + (n - 1))%Z by lia. rewrite inject_Z_plus. ring. }
  assert (X2 : inject_Z (k0 + 1) * q == inject_Z k0 * q + q) by (rewrite inject_Z_plus; change (inject_Z 1) with 1; ring).
  assert (X3 : inject_Z (n - 1) * q == inject_Z n * q - q).
  { unfold Z.sub. rewrite inject_Z_plus. change (inject_Z (- (1))) with (- (1)). ring. }
  rewrite X2 in U1. split; [|split; [exact L1|split; [rewrite X2; exact U1|]]].
  - assert (N0 : 0 < inject_Z n * q).
    { eapply Qlt_le_trans; [|exact CU1]. clear - Hq Hm Hl. Lqa.lra. }
    destruct (Z_lt_le_dec n 1) as [B|B]; [|exact B]. exfalso.
    assert (inject_Z n <= 0) by (replace 0 with (inject_Z 0) by reflexivity; rewrite <- Zle_Qle; lia).
    clear - Hq N0 H. Lqa.nra.
  - rewrite X1. split; clear - L1 U1 CU1 CL1 X3; [rewrite X3|]; Lqa.lra.
Qed.
Lemma fold_qmin : forall ts t x, In x (t :: ts) -> fold_left qmin ts t <= x.
Proof.
  intros ts; induction ts as [|u ts IH]; intros t x H.
  - destruct H as [<-|[]]. apply Qle_refl.
  - cbn [fold_left]. assert (M : qmin t u <= t /\ qmin t u <= u).
    { unfold qmin. destruct (Qle_bool t u) eqn:E; [apply Qle_bool_iff in E; split; [apply Qle_refl|exact E]|].
      split; [|apply Qle_refl]. apply Qlt_le_weak. apply Qnot_le_lt. intros L. apply Qle_bool_iff in L. congruence. }
    destruct H as [<-|[<-|H]]; [eapply Qle_trans; [apply IH; left; reflexivity|apply M]..|apply IH; right; exact H].
Qed.
Lemma fold_qmax : forall ts t x, In x (t :: ts) -> x <= fold_left qmax ts t.
Proof.
  intros ts; induction ts as [|u ts IH]; intros t x H.
  - destruct H as [<-|[]]. apply Qle_refl.
  - cbn [fold_left]. assert (M : t <= qmax t u /\ u <= qmax t u).
    { unfold qmax. destruct (Qle_bool t u) eqn:E; [apply Qle_bool_iff in E; split; [exact E|apply Qle_refl]|].
      split; [apply Qle_refl|]. apply Qlt_le_weak. apply Qnot_le_lt. intros L. apply Qle_bool_iff in L. congruence. }
    destruct H as [<-|[<-|H]]; [eapply Qle_trans; [apply M|apply IH; left; reflexivity]..|apply IH; right; exact H].
Qed.
Lemma fold_qmin_in : forall ts t, In (fold_left qmin ts t) (t :: ts).
Proof.
  intros ts; induction ts as [|u ts IH]; intros t; [left; reflexivity|]. cbn [fold_left].
  destruct (IH (qmin t u)) as [E|E]; [|right; right; exact E]. rewrite <- E. unfold qmin. destruct (Qle_bool t u); [left|right; left]; reflexivity.
Qed.
Lemma fold_qmax_in : forall ts t, In (fold_left qmax ts t) (t :: ts).
Proof.
  intros ts; induction ts as [|u ts IH]; intros t; [left; reflexivity|]. cbn [fold_left].
  destruct (IH (qmax t u)) as [E|E]; [|right; right; exact E]. rewrite <- E. unfold qmax. destruct (Qle_bool t u); [right; left|left]; reflexivity.
Qed.
Close Scope Q_scope.

(* ---- order by epoch ---- *)
Lemma leb_earlier : forall {P} (a b : vrow P), row_leb a b = true <-> earlier a b.
Proof. intros P a b. unfold row_leb, time_leb, earlier. lia. Qed.
Lemma sorted_earlier : forall {P} (l : list (vrow P)), StronglySorted earlier (sort row_leb l).
Proof.
  intros P l. assert (S := sort_sorted (@row_leb P)).
  assert (T : forall x y : vrow P, row_leb x y = true \/ row_leb y x = true) by (intros; rewrite !leb_earlier; unfold earlier; lia).
  assert (R : forall x y z : vrow P, row_leb x y = true -> row_leb y z = true -> row_leb x z = true) by (intros x y z; rewrite !leb_earlier; unfold earlier; lia).
  specialize (S T R l). clear T R. induction S as [|x m S IH F]; constructor; [exact IH|].
  eapply Forall_impl; [|exact F]. intros y H. apply leb_earlier. exact H.
Qed.

(* ---- the sphere ---- *)
Open Scope R_scope.
Lemma distance_shift : forall p c : point, distance (padd p c) c = distance p (0, 0, 0).
Proof. intros [[a b] d] [[x y] z]. cbn. f_equal. ring. Qed.
Lemma ecliptic_rigid : rigid to_ecliptic.
Proof.
  intros [[a b] d] [[x y] z]. cbn. f_equal.
  pose proof (sin2_cos2 obliquity) as S. unfold Rsqr in S.
  set (s := sin obliquity) in *. set (c := cos obliquity) in *.
  transitivity ((a - x) * (a - x) + (s * s + c * c) * ((b - y) * (b - y) + (d - z) * (d - z))); [ring|rewrite S; ring].
Qed.
Lemma ecliptic_zero : to_ecliptic (0, 0, 0) = (0, 0, 0).
Proof. cbn. f_equal; [f_equal|]; ring. Qed.
Lemma sphere_norm : forall rho lon lat, 0 <= rho ->
  let s := spherical_to_cartesian (mk6 rho lon lat 0 0 0) in distance (c_0 s, c_1 s, c_2 s) (0, 0, 0) = rho.
Proof.
  intros rho lon lat H s. cbn. 
  pose proof (sin2_cos2 (radians lon)) as S1. pose proof (sin2_cos2 (radians lat)) as S2. unfold Rsqr in S1, S2.
  set (a := sin (radians lon)) in *. set (b := cos (radians lon)) in *. set (c := sin (radians lat)) in *. set (d := cos (radians lat)) in *.
  match goal with |- sqrt ?x = _ => replace x with (rho * rho) end; [apply sqrt_square; exact H|].
  transitivity (rho * rho * (d * d * (a * a + b * b) + c * c)); [|ring].
  rewrite S1. replace (d * d * 1 + c * c) with (c * c + d * d) by ring. rewrite S2. ring.
Qed.
