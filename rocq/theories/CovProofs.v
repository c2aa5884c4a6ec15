From Coq Require Import Reals Lra Lia String QArith.
From Verif Require Import Base ListLemmas TimeModel SigmaModel CovModel CovSpec ResModel.
Open Scope R_scope.
Open Scope list_scope.

(* ---- triangles ---- *)
Ltac list21 v H := do 22 (destruct v as [|? v]; [try discriminate H|]); try discriminate H.
Lemma upper_ok : forall {A} (zero : A) v f, upper_to_full zero v = Ok f ->
  List.length v = 21%nat /\ forall i j, (i < 6)%nat -> (j < 6)%nat ->
    f i j = f j i /\ ((i <= j)%nat -> nth_error v (upper_position 6 i j) = Some (f i j)).
Proof.
  intros A zero v f H. unfold upper_to_full in H. destruct (Nat.eqb_spec (List.length v) 21) as [L|L]; [|discriminate].
  split; auto. cbn [negb] in H. injection H as <-. list21 v L. clear L.
  intros i j Hi Hj.
  do 6 (destruct i as [|i]; [do 6 (destruct j as [|j]; [split; [reflexivity|intros; first [reflexivity|exfalso; lia]]|]); exfalso; lia|]); exfalso; lia.
Qed.
Lemma upper_err : forall {A} (zero : A) v, List.length v <> 21%nat -> upper_to_full zero v = Err AssertionError.
Proof. intros. unfold upper_to_full. destruct (Nat.eqb_spec (List.length v) 21); [contradiction|reflexivity]. Qed.
Lemma lower_ok : forall {A} (zero : A) v f, lower_to_full zero v = Ok f ->
  List.length v = 21%nat /\ forall i j, (i < 6)%nat -> (j < 6)%nat ->
    ((i <= j)%nat -> nth_error v (lower_position j i) = Some (f i j)) /\
    ((j + 1 < i)%nat -> nth_error v (lower_position i j) = Some (f i j)) /\
    (i = (j + 1)%nat -> f i j = zero).
Proof.
  intros A zero v f H. unfold lower_to_full in H. destruct (Nat.eqb_spec (List.length v) 21) as [L|L]; [|discriminate].
  split; auto. cbn [negb] in H. injection H as <-. list21 v L. clear L.
  intros i j Hi Hj.
  do 6 (destruct i as [|i]; [do 6 (destruct j as [|j]; [split; [|split]; intros; first [exfalso; lia|reflexivity]|]); exfalso; lia|]); exfalso; lia.
Qed.
Lemma drop_ok : forall {A} (zero : A) v w, drop_last_column zero v = Ok w ->
  List.length v = 28%nat /\ List.length w = 21%nat /\ forall i j, (i <= j)%nat -> (j < 6)%nat ->
    nth_error w (upper_position 6 i j) = nth_error v (upper_position 7 i j).
Proof.
  intros A zero v w H. unfold drop_last_column in H. destruct (Nat.eqb_spec (List.length v) 28) as [L|L]; [|discriminate].
  split; auto. cbn [negb] in H. injection H as <-. do 29 (destruct v as [|? v]; [try discriminate L|]); try discriminate L. clear L.
  split; [reflexivity|]. intros i j Hi Hj.
  do 6 (destruct i as [|i]; [do 6 (destruct j as [|j]; [first [exfalso; lia|reflexivity]|]); exfalso; lia|]); exfalso; lia.
Qed.
Lemma oef_ok : forall {A} (zero : A) v f, oef_covariance zero v = Ok (Some f) ->
  exists n, (n = 6%nat /\ List.length v = 21%nat \/ n = 7%nat /\ List.length v = 28%nat) /\
  forall i j, (i < 6)%nat -> (j < 6)%nat ->
    f i j = f j i /\ ((i <= j)%nat -> nth_error v (upper_position n i j) = Some (f i j)).
Proof.
  intros A zero v f H. unfold oef_covariance in H. destruct v as [|x v]; [discriminate|]. set (u := x :: v) in *. clearbody u.
  destruct (Nat.eqb_spec (List.length u) 28) as [L|L].
  - destruct (drop_last_column zero u) as [w|] eqn:E; [|discriminate]. cbn [bind] in H.
    destruct (upper_to_full zero w) eqn:E2; [|discriminate]. cbn [bind] in H. injection H as <-.
    apply drop_ok in E. destruct E as [_ [_ E]]. apply upper_ok in E2. destruct E2 as [_ E2].
    exists 7%nat. split; auto. intros i j Hi Hj. destruct (E2 i j Hi Hj) as [S1 S2]. split; auto.
    intros Hij. rewrite <- E; auto.
  - cbn [bind] in H. destruct (upper_to_full zero u) eqn:E2; [|discriminate]. cbn [bind] in H. injection H as <-.
    apply upper_ok in E2. destruct E2 as [L2 E2]. exists 6%nat. auto.
Qed.

(* ---- sigmas ---- *)
Lemma sigmas_entry : forall s i j x, (i < List.length s)%nat -> nth_error s j = Some x ->
  exists r, nth_error (sigmas_to_covariance s) i = Some r /\ nth_error r j = Some (nmul (nmul x x) (identity j i)).
Proof.
  intros s i j x Hi Hj. unfold sigmas_to_covariance. rewrite nth_error_map.
  assert (N : forall n k, (k < n)%nat -> nth_error (seq 0 n) k = Some k).
  { intros. rewrite nth_error_nth' with (d := 0%nat) by (rewrite seq_length; auto). rewrite seq_nth by auto. auto. }
  rewrite N by auto. cbn [option_map]. eexists. split; [reflexivity|]. rewrite nth_error_map.
  assert (C : nth_error (combine (seq 0 (List.length s)) s) j = Some (j, x)).
  { assert (G : forall (l : list nat) (m : list num) k a b, nth_error l k = Some a -> nth_error m k = Some b -> nth_error (combine l m) k = Some (a, b)).
    { clear. induction l; destruct m, k; cbn; intros; try discriminate; auto. congruence. }
    apply G; auto. apply N. apply nth_error_Some. congruence. }
  rewrite C. reflexivity.
Qed.

(* ---- finite sums ---- *)
Lemma rsum_app : forall l m, rsum (l ++ m) = rsum l + rsum m.
Proof. induction l; cbn; intros; [lra|]. rewrite IHl. lra. Qed.
Lemma rsum_scale : forall {A} (f : A -> R) c l, rsum (map (fun x => c * f x) l) = c * rsum (map f l).
Proof. induction l; cbn; [lra|]. rewrite IHl. lra. Qed.
Lemma rsum_plus : forall {A} (f g : A -> R) l, rsum (map (fun x => f x + g x) l) = rsum (map f l) + rsum (map g l).
Proof. induction l; cbn; [lra|]. rewrite IHl. lra. Qed.
Lemma rsum_ext : forall {A} (f g : A -> R) l, (forall x, In x l -> f x = g x) -> rsum (map f l) = rsum (map g l).
Proof. induction l; cbn; intros; auto. rewrite H, IHl; auto. Qed.
Lemma rsum_const : forall {A} (c : R) (l : list A), rsum (map (fun _ => c) l) = INR (List.length l) * c.
Proof. induction l; [cbn; lra|]. cbn [map rsum List.length]. rewrite IHl, S_INR. lra. Qed.
Lemma rsum_repeat : forall c n, rsum (repeat c n) = INR n * c.
Proof. induction n; [cbn; lra|]. cbn [repeat rsum]. rewrite IHn, S_INR. lra. Qed.
Lemma rsum_total : forall D f, rsum (map f (seq 0 D)) = total D f.
Proof.
  induction D; intros; auto. rewrite seq_S, map_app, rsum_app, IHD. cbn. lra.
Qed.
Lemma total_ext : forall D f g, (forall k, (k < D)%nat -> f k = g k) -> total D f = total D g.
Proof. induction D; cbn; intros; auto. rewrite (IHD f g), (H D); auto. Qed.
Lemma combine_repeat : forall {A} (w : R) (l : list A) n, n = List.length l -> combine (repeat w n) l = map (fun x => (w, x)) l.
Proof. intros A w l n ->. induction l; cbn; congruence. Qed.
Lemma spread_eq : forall m W samples i j, weighted_covariance m samples W i j = spread m (combine W samples) i j.
Proof.
  intros. unfold weighted_covariance. induction (combine W samples) as [|[w s] l IH]; cbn; auto. rewrite IH. auto.
Qed.

(* ---- sigma points ---- *)
Section Sigma.
Variables (D : nat) (alpha beta kappa : R).
Notation lam := (lambda_ D alpha kappa).
Hypothesis NZ : INR D + lam <> 0.

Lemma weights_sum : rsum (weights D alpha kappa) = 1.
Proof.
  unfold weights. cbv zeta. cbn [rsum]. rewrite rsum_repeat, mult_INR. cbn [INR]. field. auto.
Qed.
Lemma weights_cov_sum : rsum (weights_cov D alpha beta kappa) = 2 - alpha * alpha + beta.
Proof.
  unfold weights_cov. cbv zeta. cbn [rsum]. rewrite rsum_repeat, mult_INR. cbn [INR]. field. auto.
Qed.
Lemma points_length : forall mean L, List.length (sigma_points D mean L) = (2 * D + 1)%nat.
Proof. intros. unfold sigma_points. cbn [List.length]. rewrite app_length, !map_length, seq_length. lia. Qed.
Lemma combine_points : forall (w0 w : R) (mean : vec) (L : mat),
  combine (w0 :: repeat w (2 * D)) (sigma_points D mean L) =
  (w0, mean) :: map (fun x => (w, x)) (map (fun i => fun j => mean j + L i j) (seq 0 D) ++ map (fun i => fun j => mean j - L i j) (seq 0 D)).
Proof.
  intros. unfold sigma_points. cbn [combine]. f_equal. apply combine_repeat. rewrite app_length, !map_length, seq_length. lia.
Qed.
Lemma sigma_mean : forall mean L j, weighted_mean (sigma_points D mean L) (weights D alpha kappa) j = mean j.
Proof.
  intros. unfold weighted_mean, weights. cbv zeta. rewrite combine_points. cbn [map rsum fst snd].
  rewrite map_app, !map_map, map_app, !map_map, rsum_app. cbn [fst snd].
  set (w := 1 / (2 * (INR D + lam))).
  rewrite (rsum_scale (fun i => mean j + L i j)), (rsum_scale (fun i => mean j - L i j)).
  rewrite (rsum_plus (fun _ => mean j) (fun i => L i j)).
  rewrite (rsum_ext (fun i => mean j - L i j) (fun i => mean j + (-1) * L i j)) by (intros; lra).
  rewrite (rsum_plus (fun _ => mean j) (fun i => -1 * L i j)), (rsum_scale (fun i => L i j)), rsum_const, seq_length.
  unfold w. field. auto.
Qed.
Lemma sigma_spread : forall (w0 w : R) (mean : vec) (L : mat) i j,
  spread mean (combine (w0 :: repeat w (2 * D)) (sigma_points D mean L)) i j = 2 * w * total D (fun k => L k i * L k j).
Proof.
  intros. rewrite combine_points. cbn [spread].
  replace (w0 * (mean i - mean i) * (mean j - mean j)) with 0 by ring. rewrite Rplus_0_l.
  assert (A : forall l m, spread mean (l ++ m) i j = spread mean l i j + spread mean m i j).
  { induction l as [|[u s] l IH]; cbn; intros; [lra|]. rewrite IH. lra. }
  rewrite map_app, A, !map_map, <- rsum_total.
  assert (B : forall sgn l, sgn * sgn = 1 -> spread mean (map (fun k => (w, fun x => mean x + sgn * L k x)) l) i j = w * rsum (map (fun k => L k i * L k j) l)).
  { intros sgn l Hs. induction l; cbn; [lra|]. rewrite IHl.
    replace (w * (mean i + sgn * L a i - mean i) * (mean j + sgn * L a j - mean j)) with (w * (sgn * sgn) * (L a i * L a j)) by ring.
    rewrite Hs. lra. }
  pose proof (B 1 (seq 0 D) ltac:(lra)) as B1. pose proof (B (-1) (seq 0 D) ltac:(lra)) as B2.
  assert (E1 : spread mean (map (fun k => (w, fun x => mean x + L k x)) (seq 0 D)) i j = spread mean (map (fun k => (w, fun x => mean x + 1 * L k x)) (seq 0 D)) i j).
  { clear. induction (seq 0 D); cbn; auto. rewrite IHl. lra. }
  assert (E2 : spread mean (map (fun k => (w, fun x => mean x - L k x)) (seq 0 D)) i j = spread mean (map (fun k => (w, fun x => mean x + -1 * L k x)) (seq 0 D)) i j).
  { clear. induction (seq 0 D); cbn; auto. rewrite IHl. lra. }
  rewrite E1, E2, B1, B2. lra.
Qed.
Lemma sigma_cov : forall mean C L, root D (fun i j => (INR D + lam) * C i j) L ->
  same_matrix D (weighted_covariance mean (sigma_points D mean L) (weights_cov D alpha beta kappa)) C.
Proof.
  intros mean C L [S1 S2] i j Hi Hj. rewrite spread_eq. unfold weights_cov. cbv zeta. rewrite sigma_spread.
  rewrite (total_ext D _ (fun k => L i k * L k j)) by (intros k Hk; rewrite (S1 k i) by auto; auto).
  change (total D (fun k => L i k * L k j)) with (product D L L i j). rewrite S2 by auto. field. auto.
Qed.
End Sigma.
Lemma lambda_pos : forall D alpha kappa, alpha <> 0 -> INR D + kappa <> 0 -> INR D + lambda_ D alpha kappa <> 0.
Proof.
  intros. unfold lambda_. replace (INR D + (alpha * alpha * (INR D + kappa) - INR D)) with (alpha * alpha * (INR D + kappa)) by ring.
  repeat apply Rmult_integral_contrapositive_currified; auto.
Qed.

(* ---- collapse ---- *)
Lemma collapse_spread : forall o (sel : list vrow) i j,
  weighted_covariance (o_vals o) (map v_vals sel) (map v_wcov sel) i j = spread (o_vals o) (map pair_of sel) i j.
Proof.
  intros. rewrite spread_eq. f_equal. induction sel; cbn; auto. rewrite IHsel. auto.
Qed.
Lemma filter_ext_in2 : forall {A} (f g : A -> bool) l, (forall x, In x l -> f x = g x) -> filter f l = filter g l.
Proof. induction l; cbn; intros; auto. rewrite H, IHl; auto. Qed.
Lemma belongs_key : forall o v, belongs o v = true -> same_key o v = true.
Proof.
  intros o v H. unfold belongs in H. unfold same_key, millis. apply andb_prop in H. destruct H as [H H3].
  apply Z.eqb_eq in H3. rewrite H, H3, Z.eqb_refl. auto.
Qed.
Lemma collapse_ok : forall oscale vscale os vs cs, collapse oscale vscale os vs = Ok cs ->
  oscale = vscale /\ os <> [] /\ cs = map (collapse_row vs) os.
Proof.
  intros oscale vscale os vs cs. unfold collapse. destruct (String.eqb_spec oscale vscale); [|discriminate].
  destruct os; [discriminate|]. intros H. injection H as <-. repeat split; auto. discriminate.
Qed.
Lemma collapse_make : forall scale os vs, os <> [] -> collapse scale scale os vs = Ok (map (collapse_row vs) os).
Proof. intros. unfold collapse. rewrite String.eqb_refl. destruct os; [congruence|reflexivity]. Qed.

Lemma collapse_own : forall oscale vscale os vs cs, collapse oscale vscale os vs = Ok cs ->
  List.length cs = List.length os /\
  forall k o c, nth_error os k = Some o -> nth_error cs k = Some c ->
    o_id c = o_id o /\ o_time c = o_time o /\ o_code c = o_code o /\ o_vals c = o_vals o /\
    ((forall v, In v vs -> v_id v = o_id o -> days (v_time v) = days (o_time o) -> millis (v_time v) = millis (o_time o) ->
        nanos (v_time v) = nanos (o_time o)) ->
     exists M, o_cov c = Some M /\ forall i j, M i j = spread (o_vals o) (map pair_of (filter (belongs o) vs)) i j).
Proof.
  intros oscale vscale os vs cs H. apply collapse_ok in H. destruct H as [_ [_ ->]]. rewrite map_length. split; auto.
  intros k o c Ho Hc. rewrite nth_error_map, Ho in Hc. injection Hc as <-. cbn. repeat split.
  intros HU. eexists. split; [reflexivity|]. intros i j. rewrite collapse_spread.
  replace (filter (same_key o) vs) with (filter (belongs o) vs); auto.
  apply filter_ext_in2. intros v Hv. destruct (same_key o v) eqn:E.
  - unfold same_key in E. apply andb_prop in E. destruct E as [E E3]. apply andb_prop in E. destruct E as [E1 E2].
    apply String.eqb_eq in E1. apply Z.eqb_eq in E2, E3. unfold belongs. rewrite E1, E2, (HU v Hv) by auto.
    rewrite String.eqb_refl, !Z.eqb_refl. auto.
  - destruct (belongs o v) eqn:E2; auto. apply belongs_key in E2. congruence.
Qed.
Lemma collapse_code : forall oscale vscale os vs cs, collapse oscale vscale os vs = Ok cs ->
  forall k o c, nth_error os k = Some o -> nth_error cs k = Some c ->
    (forall v, In v vs -> v_id v = o_id o -> days (v_time v) = days (o_time o) -> millis (v_time v) = millis (o_time o) ->
        nanos (v_time v) = nanos (o_time o) /\ v_code v = o_code o) ->
     exists M, o_cov c = Some M /\ forall i j, M i j = spread (o_vals o) (map pair_of (filter (code_belongs o) vs)) i j.
Proof.
  intros oscale vscale os vs cs H k o c Ho Hc HU.
  destruct (collapse_own _ _ _ _ _ H) as [_ R]. destruct (R k o c Ho Hc) as [_ [_ [_ [_ R2]]]].
  destruct R2 as [M [M1 M2]]; [intros; apply HU; auto|]. exists M. split; auto. intros. rewrite M2. f_equal. f_equal.
  apply filter_ext_in2. intros v Hv. unfold code_belongs. destruct (belongs o v) eqn:E; auto.
  pose proof (belongs_key _ _ E) as K. unfold same_key in K. apply andb_prop in K. destruct K as [K K3]. apply andb_prop in K. destruct K as [K1 K2].
  apply String.eqb_eq in K1. apply Z.eqb_eq in K2, K3. destruct (HU v Hv) as [_ ->]; auto. rewrite String.eqb_refl. auto.
Qed.
Lemma collapse_none : forall oscale vscale os vs cs k o c, collapse oscale vscale os vs = Ok cs ->
  nth_error os k = Some o -> nth_error cs k = Some c ->
  (forall v, In v vs -> v_id v <> o_id o) ->
  exists M, o_cov c = Some M /\ forall i j, M i j = 0.
Proof.
  intros oscale vscale os vs cs k o c H Ho Hc N. apply collapse_ok in H. destruct H as [_ [_ ->]].
  rewrite nth_error_map, Ho in Hc. injection Hc as <-. cbn. eexists. split; [reflexivity|]. intros. rewrite collapse_spread.
  replace (filter (same_key o) vs) with (@nil vrow); auto. symmetry.
  induction vs; auto. cbn. unfold same_key. destruct (String.eqb_spec (o_id o) (v_id a)).
  - exfalso. apply (N a); cbn; auto.
  - cbn. apply IHvs. intros. apply N. cbn. auto.
Qed.
Lemma spread_nonneg : forall m ws i, (forall w s, In (w, s) ws -> 0 <= w) -> 0 <= spread m ws i i.
Proof.
  induction ws as [|[w s] ws IH]; cbn; intros; [lra|].
  assert (0 <= w) by (apply (H w s); auto). assert (0 <= spread m ws i i) by (apply IH; intros; eapply H; eauto).
  replace (w * (s i - m i) * (s i - m i)) with (w * ((s i - m i) * (s i - m i))) by ring.
  pose proof (Rmult_le_pos _ _ H0 (Rle_0_sqr (s i - m i))). unfold Rsqr in H2. lra.
Qed.
Lemma spread_pos : forall m ws i, (forall w s, In (w, s) ws -> 0 < w) -> (exists w s, In (w, s) ws /\ s i <> m i) -> 0 < spread m ws i i.
Proof.
  induction ws as [|[w s] ws IH]; intros i H [w0 [s0 [HI HN]]]; [destruct HI|]. cbn.
  assert (W : 0 < w) by (apply (H w s); cbn; auto).
  assert (N : 0 <= spread m ws i i) by (apply spread_nonneg; intros a b Hb; apply Rlt_le; apply (H a b); cbn; auto).
  replace (w * (s i - m i) * (s i - m i)) with (w * ((s i - m i) * (s i - m i))) by ring.
  assert (Q : 0 <= (s i - m i) * (s i - m i)) by (apply Rle_0_sqr).
  pose proof (Rmult_le_pos _ _ (Rlt_le _ _ W) Q).
  destruct HI as [E|HI].
  - injection E as -> ->. assert (0 < (s0 i - m i) * (s0 i - m i)) by (apply Rsqr_pos_lt; lra).
    pose proof (Rmult_lt_0_compat _ _ W H1). lra.
  - assert (0 < spread m ws i i); [|lra]. apply IH; eauto. intros a b Hb. apply (H a b). cbn. auto.
Qed.

(* ---- create, then collapse ---- *)
Section RoundTrip.
Variable sqrtm : mat -> mat.
Variable draws : option Z -> Z -> vec -> mat -> list vec.
Variable poor : vec -> vec -> mat -> mat -> bool.
Definition block (D : nat) a b k (io : nat * orow) : list variant :=
  map (fun x => mkvariant (fst io) (fst x) (fst (snd x)) (snd (snd x))) (sigma_samples sqrtm D a b k (cin_of (snd io))).
Lemma create_sigma : forall D n a b k seed os, os <> [] -> (forall o, In o os -> o_cov o <> None) ->
  create_variants sqrtm draws poor D "sigma-point" n a b k seed (map cin_of os)
  = Ok (concat (map (block D a b k) (combine (seq 0 (List.length os)) os))).
Proof.
  intros D n a b k seed os NE HC. unfold create_variants.
  replace (forallb c_cov_all_nan (map cin_of os)) with false.
  2: { destruct os as [|o os]; [congruence|]. cbn. unfold cin_of at 1. destruct (o_cov o) eqn:E; auto. exfalso. apply (HC o); cbn; auto. }
  rewrite map_length. generalize 0%nat as st. intros st.
  assert (M : mapM (fun ic => bind (sample_one sqrtm draws poor D "sigma-point" n a b k seed (snd ic)) (fun ss =>
     Ok (map (fun x => mkvariant (fst ic) (fst x) (fst (snd x)) (snd (snd x))) ss))) (combine (seq st (List.length os)) (map cin_of os))
     = Ok (map (block D a b k) (combine (seq st (List.length os)) os))).
  { clear NE. revert st. induction os as [|o os IH]; intros st; [reflexivity|].
    cbn [List.length seq map combine mapM fst snd].
    assert (X : sample_one sqrtm draws poor D "sigma-point" n a b k seed (cin_of o) = Ok (sigma_samples sqrtm D a b k (cin_of o))).
    { unfold sample_one, cin_of. destruct (o_cov o) eqn:E; [reflexivity|]. exfalso. apply (HC o); cbn; auto. }
    rewrite X. cbn [bind]. rewrite IH; [reflexivity|]. intros. apply HC. cbn. auto. }
  rewrite M. reflexivity.
Qed.
Definition vrow_of (o : orow) (x : vec * (R * R)) : vrow := mkvrow (o_id o) (o_time o) (o_code o) (fst x) (snd (snd x)).
Lemma to_vrows_blocks : forall D a b k os,
  to_vrows os (concat (map (block D a b k) (combine (seq 0 (List.length os)) os)))
  = concat (map (fun o => map (vrow_of o) (sigma_samples sqrtm D a b k (cin_of o))) os).
Proof.
  intros D a b k os. unfold to_vrows.
  assert (G : forall pre suf, os = pre ++ suf ->
    flat_map (fun v => match nth_error os (index v) with Some o => [mkvrow (o_id o) (o_time o) (o_code o) (sample v) (weight_cov v)] | None => [] end)
       (concat (map (block D a b k) (combine (seq (List.length pre) (List.length suf)) suf)))
    = concat (map (fun o => map (vrow_of o) (sigma_samples sqrtm D a b k (cin_of o))) suf)).
  { intros pre suf. revert pre. induction suf as [|o suf IH]; intros pre E; [reflexivity|].
    cbn [List.length seq combine map concat]. rewrite flat_map_app. f_equal.
    - unfold block. cbn [fst snd].
      assert (N : nth_error os (List.length pre) = Some o) by (rewrite E, nth_error_app2, Nat.sub_diag by lia; reflexivity).
      induction (sigma_samples sqrtm D a b k (cin_of o)) as [|x l IHl]; [reflexivity|].
      cbn [map flat_map index sample weight_cov]. rewrite N, IHl. reflexivity.
    - specialize (IH (pre ++ [o])). rewrite app_length in IH. cbn [List.length] in IH. rewrite Nat.add_1_r in IH.
      apply IH. rewrite <- app_assoc. exact E. }
  exact (G [] os eq_refl).
Qed.
Lemma same_key_of : forall o o' x, same_key o (vrow_of o' x) = true <-> key_of o = key_of o'.
Proof.
  intros. unfold same_key, vrow_of, key_of. cbn. rewrite !andb_true_iff, String.eqb_eq, !Z.eqb_eq. split; [intros [[-> ->] ->]; auto|].
  intros E. injection E as -> -> ->. auto.
Qed.
Lemma filter_blocks : forall D a b k os o, NoDup (map key_of os) -> In o os ->
  filter (same_key o) (concat (map (fun o => map (vrow_of o) (sigma_samples sqrtm D a b k (cin_of o))) os))
  = map (vrow_of o) (sigma_samples sqrtm D a b k (cin_of o)).
Proof.
  intros D a b k os o ND HI.
  assert (NO : forall l o', key_of o <> key_of o' -> filter (same_key o) (map (vrow_of o') l) = []).
  { intros l o' NK. induction l; auto. cbn. destruct (same_key o (vrow_of o' a0)) eqn:E; auto. apply same_key_of in E. contradiction. }
  assert (YES : forall l, filter (same_key o) (map (vrow_of o) l) = map (vrow_of o) l).
  { induction l; auto. cbn. rewrite (proj2 (same_key_of o o a0)), IHl; auto. }
  induction os as [|o1 os IH]; [destruct HI|]. cbn [map concat]. rewrite filter_app. inversion ND; subst. destruct HI as [->|HI].
  - rewrite YES. replace (filter _ _) with (@nil vrow); [apply app_nil_r|]. clear -NO H1.
    induction os as [|o2 os IH]; auto. cbn [map concat]. rewrite filter_app, NO, <- IH; auto.
    + intros X. apply H1. cbn. auto.
    + intros X. apply H1. cbn. auto.
  - rewrite IH, NO; auto. intros E. apply H1. rewrite <- E. apply in_map. auto.
Qed.
Lemma round_trip : forall D n a b k seed scale os, INR D + lambda_ D a k <> 0 -> os <> [] ->
  (forall o, In o os -> exists C, o_cov o = Some C /\
     root D (fun i j => (INR D + lambda_ D a k) * C i j) (sqrtm (fun i j => (INR D + lambda_ D a k) * C i j))) ->
  NoDup (map key_of os) ->
  exists vs cs, create_variants sqrtm draws poor D "sigma-point" n a b k seed (map cin_of os) = Ok vs /\
    List.length vs = ((2 * D + 1) * List.length os)%nat /\
    collapse scale scale os (to_vrows os vs) = Ok cs /\
    Forall2 (fun o c => o_id c = o_id o /\ o_time c = o_time o /\ o_code c = o_code o /\ o_vals c = o_vals o /\
               exists C C', o_cov o = Some C /\ o_cov c = Some C' /\ same_matrix D C' C) os cs.
Proof.
  intros D n a b k seed scale os NZ NE HC ND.
  assert (LS : forall c, List.length (sigma_samples sqrtm D a b k c) = (2 * D + 1)%nat).
  { intros c. unfold sigma_samples. cbv zeta. rewrite !combine_length, points_length. unfold weights, weights_cov. cbn [List.length].
    rewrite !repeat_length. lia. }
  eexists. eexists. split; [apply create_sigma; auto; intros o Ho; destruct (HC o Ho) as [C [-> _]]; discriminate|].
  split; [|split; [apply collapse_make; auto|]].
  { clear -LS. rewrite <- flat_map_concat_map.
    assert (G : forall st, List.length (flat_map (block D a b k) (combine (seq st (List.length os)) os)) = ((2 * D + 1) * List.length os)%nat).
    { induction os; intros; [cbn; lia|].
      cbn [List.length seq combine flat_map]. rewrite app_length, IHos. unfold block. rewrite map_length, LS. lia. }
    apply G. }
  rewrite to_vrows_blocks.
  set (V := concat _).
  assert (G : forall l, incl l os -> Forall2 (fun o c => o_id c = o_id o /\ o_time c = o_time o /\ o_code c = o_code o /\ o_vals c = o_vals o /\
               exists C C', o_cov o = Some C /\ o_cov c = Some C' /\ same_matrix D C' C) l (map (collapse_row V) l)).
  { induction l as [|o l IH]; intros HI; constructor.
    - cbn. repeat (split; [reflexivity|]). assert (Ho : In o os) by (apply HI; cbn; auto). destruct (HC o Ho) as [C [EC RC]].
      exists C. eexists. split; [exact EC|]. split; [reflexivity|]. unfold V. rewrite filter_blocks by auto.
      unfold cin_of. rewrite EC. rewrite !map_map. cbn [vrow_of v_vals v_wcov].
      set (L := sqrtm (fun i j => (INR D + lambda_ D a k) * C i j)) in *.
      assert (E : forall (pts : list vec) (w wc : list R), List.length w = List.length pts -> List.length wc = List.length pts ->
        map (fun x : vec * (R * R) => fst x) (combine pts (combine w wc)) = pts /\
        map (fun x : vec * (R * R) => snd (snd x)) (combine pts (combine w wc)) = wc).
      { induction pts; destruct w, wc; cbn; intros; try discriminate; auto. destruct (IHpts w wc); [lia|lia|]. split; congruence. }
      unfold sigma_samples. cbn [c_cov c_mean]. fold L.
      destruct (E (sigma_points D (o_vals o) L) (weights D a k) (weights_cov D a b k)) as [E1 E2].
      1,2: unfold weights, weights_cov; cbv zeta; cbn [List.length]; rewrite repeat_length, points_length; lia.
      rewrite E1, E2. apply sigma_cov; auto.
    - apply IH. intros x Hx. apply HI. cbn. auto. }
  apply G. apply incl_refl.
Qed.
End RoundTrip.

(* ---- collapse_by_object_id ---- *)
Lemma map_one : forall W : list R, map (fun w => w / 1) W = W.
Proof. induction W; cbn; auto. rewrite IHW. f_equal. field. Qed.
Lemma spread_scale : forall m samples W s i j, s <> 0 ->
  weighted_covariance m samples (map (fun w => w / s) W) i j = weighted_covariance m samples W i j / s.
Proof.
  intros m samples W s i j NZ. rewrite !spread_eq. revert samples. induction W; destruct samples; cbn; try (field; auto).
  rewrite IHW. field. auto.
Qed.
Lemma cov_mean_ext : forall m m' samples W i j, (forall x, m x = m' x) -> weighted_covariance m samples W i j = weighted_covariance m' samples W i j.
Proof.
  intros. unfold weighted_covariance. apply rsum_ext. intros. rewrite !H. auto.
Qed.
Lemma group_sigma : forall D a b k mean C L, INR D + lambda_ D a k <> 0 -> 2 - a * a + b <> 0 ->
  root D (fun i j => (INR D + lambda_ D a k) * C i j) L ->
  let out := collapse_group (sigma_points D mean L) (weights D a k) (weights_cov D a b k) in
  (forall j, fst out j = mean j) /\ same_matrix D (snd out) (fun i j => C i j / (2 - a * a + b)).
Proof.
  intros D a b k mean C L NZ NS R0. cbv zeta. unfold collapse_group, normalised, normalised_or. cbn [fst snd].
  rewrite weights_sum by auto. destruct (Req_EM_T 1 0); [lra|]. rewrite map_one.
  rewrite weights_cov_sum by auto. destruct (Req_EM_T (2 - a * a + b) 0); [contradiction|].
  split; [intros; apply sigma_mean; auto|].
  intros i j Hi Hj. rewrite spread_scale by auto.
  rewrite (cov_mean_ext _ mean) by (intros; apply sigma_mean; auto).
  rewrite (sigma_cov D a b k NZ mean C L R0 i j Hi Hj). auto.
Qed.

(* ---- seeds and sample counts ---- *)
Lemma mapM_ext_ : forall {A B} (f g : A -> result B) l, (forall x, f x = g x) -> mapM f l = mapM g l.
Proof. induction l; intros; auto. cbn. rewrite H, IHl; auto. Qed.
Lemma seed_fixed : forall sqrtm poor draws draws' s, (forall n m c, draws (Some s) n m c = draws' (Some s) n m c) ->
  forall D method n a b k cs, method <> "auto"%string ->
  create_variants sqrtm draws poor D method n a b k (Some s) cs = create_variants sqrtm draws' poor D method n a b k (Some s) cs.
Proof.
  intros sqrtm poor draws draws' s H D method n a b k cs NA. unfold create_variants. destruct (forallb _ cs); auto. f_equal.
  apply mapM_ext_. intros [i c]. cbn [snd fst]. f_equal. unfold sample_one, random_samples.
  destruct (c_cov_nan c), (c_mean_nan c), (String.eqb method "sigma-point"), (String.eqb method "monte-carlo"); auto.
  - destruct (n <? 0)%Z, (n =? 0)%Z, (n =? 1)%Z; auto. rewrite H. auto.
  - destruct (String.eqb_spec method "auto"); [contradiction|auto].
Qed.
Lemma mapM_concat_length : forall {A B} (f : A -> result (list B)) N l r, (forall x y, In x l -> f x = Ok y -> List.length y = N) ->
  mapM f l = Ok r -> List.length (concat r) = (N * List.length l)%nat.
Proof.
  induction l; cbn; intros r H E; [injection E as <-; cbn; lia|].
  destruct (f a) eqn:E1; [|discriminate]. cbn in E. destruct (mapM f l) eqn:E2; [|discriminate]. cbn in E. injection E as <-.
  cbn. rewrite app_length, (IHl _ (fun x y Hx => H x y (or_intror Hx)) eq_refl), (H a a0 (or_introl eq_refl) E1). lia.
Qed.
Lemma monte_carlo_count : forall sqrtm poor draws s D n a b k cs vs, (forall m c, List.length (draws s n m c) = Z.to_nat n) ->
  create_variants sqrtm draws poor D "monte-carlo" n a b k s cs = Ok vs -> List.length vs = (Z.to_nat n * List.length cs)%nat.
Proof.
  intros sqrtm poor draws s D n a b k cs vs HL H. unfold create_variants in H. destruct (forallb _ cs); [discriminate|].
  destruct (mapM _ _) as [l|] eqn:E; [|discriminate]. injection H as <-.
  rewrite (mapM_concat_length _ (Z.to_nat n) _ _) with (2 := E).
  - rewrite combine_length, seq_length. rewrite Nat.min_id. auto.
  - intros [i c] y _ Hy. cbn [fst snd] in Hy. unfold sample_one in Hy. destruct (c_cov_nan c); [discriminate|]. destruct (c_mean_nan c); [discriminate|].
    cbn in Hy. unfold random_samples in Hy. destruct (n <? 0)%Z; [discriminate|]. destruct (n =? 0)%Z; [discriminate|]. destruct (n =? 1)%Z; [discriminate|].
    cbn in Hy. injection Hy as <-. rewrite !map_length. auto.
Qed.
Lemma monte_carlo_ok : forall sqrtm poor draws s D n a b k cs, (2 <= n)%Z -> cs <> [] ->
  (forall c, In c cs -> c_cov_nan c = false /\ c_mean_nan c = false /\ c_cov_all_nan c = false) ->
  exists vs, create_variants sqrtm draws poor D "monte-carlo" n a b k s cs = Ok vs.
Proof.
  intros sqrtm poor draws s D n a b k cs Hn NE HC. unfold create_variants.
  replace (forallb c_cov_all_nan cs) with false.
  2: { destruct cs as [|c cs]; [congruence|]. cbn. destruct (HC c) as [_ [_ ->]]; cbn; auto. }
  assert (M : forall l, (forall x, In x l -> In (snd x) cs) -> exists r, mapM (fun ic : nat * cin => bind (sample_one sqrtm draws poor D "monte-carlo" n a b k s (snd ic)) (fun ss =>
     Ok (map (fun x => mkvariant (fst ic) (fst x) (fst (snd x)) (snd (snd x))) ss))) l = Ok r).
  { induction l as [|[i c] l IH]; intros H; [cbn; eauto|]. cbn [mapM snd fst]. destruct (HC c) as [A1 [A2 A3]]; [apply (H (i, c)); cbn; auto|].
    unfold sample_one at 1. rewrite A1, A2. cbn [String.eqb Ascii.eqb Bool.eqb]. cbn. unfold random_samples.
    replace (n <? 0)%Z with false by (symmetry; apply Z.ltb_ge; lia). replace (n =? 0)%Z with false by (symmetry; apply Z.eqb_neq; lia).
    replace (n =? 1)%Z with false by (symmetry; apply Z.eqb_neq; lia). cbn [bind].
    destruct IH as [r ->]; [intros; apply H; cbn; auto|]. cbn. eauto. }
  destruct (M (combine (seq 0 (List.length cs)) cs)) as [r ->]; [|cbn; eauto].
  intros [i c] Hx. eapply in_combine_r; eauto.
Qed.
