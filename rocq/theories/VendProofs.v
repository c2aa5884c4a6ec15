(* Lemmas about the vendored photometric data. *)
From Coq Require Import Reals String Lra.
From Verif Require Import Base ListLemmas PhotModel PhotGrey VendModel VendSpec.
Open Scope string_scope.
Open Scope list_scope.
Open Scope R_scope.

Lemma finite_given : forall l, finite (given l) = Some l.
Proof. induction l as [|[w t] l IH]; cbn; [reflexivity|]. unfold given in IH. rewrite IH. reflexivity. Qed.
Lemma finite_inv : forall pts l, finite pts = Some l -> pts = given l.
Proof.
  induction pts as [|[[w|] [t|]] pts IH]; intros l H; cbn in H; try discriminate; [injection H as <-; reflexivity|].
  destruct (finite pts) as [s|] eqn:E; [|discriminate]. injection H as <-. cbn. rewrite (IH s eq_refl). reflexivity.
Qed.

(* ---- dropping repeated wavelengths ---- *)
Lemma keep_incl : forall l prev q, In q (keep prev l) -> In q l.
Proof. induction l as [|p l IH]; intros prev q H; cbn in H; [exact H|]. destruct (Rlt_dec 0 (fst p - prev)); [destruct H as [<-|H]; [left; reflexivity|]|]; right; eapply IH; exact H. Qed.
Lemma keep_above : forall l prev, Forall (fun q => prev <= fst q) l -> StronglySorted (fun p q : R * R => fst p <= fst q) l ->
  Forall (fun q => prev < fst q) (keep prev l) /\ rising (keep prev l).
Proof.
  induction l as [|p l IH]; intros prev F S; cbn; [split; constructor|].
  inversion F as [|? ? F1 F2]; subst. inversion S as [|? ? S1 S2]; subst.
  destruct (IH (fst p) S2 S1) as [I1 I2].
  destruct (Rlt_dec 0 (fst p - prev)).
  - split; [constructor; [lra|]|constructor; assumption]. eapply Forall_impl; [|exact I1]. cbn. intros; lra.
  - split; [|exact I2]. eapply Forall_impl; [|exact I1]. cbn. intros; lra.
Qed.
Lemma keep_wl : forall l prev w, Forall (fun q => prev <= fst q) l -> StronglySorted (fun p q : R * R => fst p <= fst q) l ->
  In w (map fst l) -> w = prev \/ In w (map fst (keep prev l)).
Proof.
  induction l as [|p l IH]; intros prev w F S H; [destruct H|].
  inversion F as [|? ? F1 F2]; subst. inversion S as [|? ? S1 S2]; subst. cbn [keep].
  destruct (Rlt_dec 0 (fst p - prev)).
  - destruct H as [<-|H]; [right; left; reflexivity|].
    destruct (IH (fst p) w S2 S1 H) as [->|K]; right; [left; reflexivity|right; exact K].
  - assert (E : fst p = prev) by lra. destruct H as [<-|H]; [left; exact E|].
    destruct (IH (fst p) w S2 S1 H) as [->|K]; [left; exact E|right; exact K].
Qed.
Definition kept (l : samples) : samples := match l with [] => [] | p :: r => p :: keep (fst p) r end.
Lemma kept_rising : forall l, StronglySorted (fun p q : R * R => fst p <= fst q) l -> rising (kept l).
Proof. intros [|p r] S; [constructor|]. inversion S; subst. destruct (keep_above r (fst p)) as [A B]; try assumption. constructor; assumption. Qed.
Lemma kept_wl : forall l w, StronglySorted (fun p q : R * R => fst p <= fst q) l -> (In w (map fst (kept l)) <-> In w (map fst l)).
Proof.
  intros [|p r] w S; [reflexivity|]. inversion S; subst. cbn [kept map]. split; intros [H|H]; [left; exact H|right| left; exact H|].
  - apply in_map_iff in H as [q [<- H]]. apply in_map. eapply keep_incl; exact H.
  - destruct (keep_wl r (fst p) w) as [->|K]; try assumption; [left; reflexivity|right; exact K].
Qed.
Lemma kept_incl : forall l q, In q (kept l) -> In q l.
Proof. intros [|p r] q H; [exact H|]. destruct H as [<-|H]; [left; reflexivity|right; eapply keep_incl; exact H]. Qed.
Lemma keep_id : forall l prev, Forall (fun q => prev < fst q) l -> rising l -> keep prev l = l.
Proof.
  induction l as [|p l IH]; intros prev F S; cbn; [reflexivity|]. inversion F; subst. inversion S; subst.
  destruct (Rlt_dec 0 (fst p - prev)); [|lra]. rewrite IH; [reflexivity|assumption|assumption].
Qed.
Lemma sorted_nodup_rising : forall l, NoDup (map fst l) -> StronglySorted (fun p q : R * R => fst p <= fst q) l -> rising l.
Proof.
  induction l as [|p l IH]; intros N S; [constructor|]. inversion N as [|? ? N1 N2]; subst. inversion S as [|? ? S1 S2]; subst.
  constructor; [apply IH; assumption|]. rewrite Forall_forall in *. intros q Hq. destruct (S2 q Hq) as [L|E]; [exact L|].
  exfalso. apply N1. rewrite E. apply in_map. exact Hq.
Qed.
Lemma kept_id : forall l, rising l -> kept l = l.
Proof. intros [|p r] S; [reflexivity|]. inversion S; subst. cbn. rewrite keep_id by assumption. reflexivity. Qed.

(* ---- clipping and scaling ---- *)
Lemma clip01_range : forall x, 0 <= clip01 x <= 1.
Proof. intros x. unfold clip01. split; [apply Rmin_glb; [apply Rmax_r|lra]|apply Rmin_r]. Qed.
Lemma clip01_id : forall x, 0 <= x <= 1 -> clip01 x = x.
Proof. intros x H. unfold clip01. rewrite Rmax_left by lra. apply Rmin_left. lra. Qed.
Lemma clip01_pos : forall x, 0 < clip01 x <-> 0 < x.
Proof.
  intros x. unfold clip01. split; intros H.
  - destruct (Rlt_dec 0 x); [assumption|]. rewrite Rmax_right in H by lra. rewrite Rmin_left in H by lra. lra.
  - rewrite Rmax_left by lra. apply Rmin_glb_lt; lra.
Qed.
Lemma fold_max_ge : forall l d x, In x l -> x <= fold_right Rmax d l.
Proof. induction l as [|y l IH]; intros d x H; [destruct H|]. cbn. destruct H as [<-|H]; [apply Rmax_l|]. eapply Rle_trans; [apply IH; exact H|apply Rmax_r]. Qed.
Lemma fold_max_in : forall l d, fold_right Rmax d l = d \/ In (fold_right Rmax d l) l.
Proof.
  induction l as [|y l IH]; intros d; cbn [fold_right]; [left; reflexivity|]. set (m := fold_right Rmax d l) in *.
  destruct (Rle_dec y m).
  - rewrite Rmax_right by assumption. destruct (IH d) as [E|E]; fold m in E; [left; exact E|right; right; exact E].
  - rewrite Rmax_left by lra. right. left. reflexivity.
Qed.
Lemma max_of_ge : forall l x, In x l -> x <= max_of l.
Proof. intros l x. apply fold_max_ge. Qed.
Lemma max_of_in : forall l, l <> [] -> In (max_of l) l.
Proof. intros [|y l] H; [contradiction|]. unfold max_of. destruct (fold_max_in (y :: l) (hd 0 (y :: l))) as [E|E]; [rewrite E; left; reflexivity|exact E]. Qed.

Definition clipped (u : samples) : samples := map (fun q => (fst q, clip01 (snd q))) u.
Definition scale (u : samples) : R := max_of (map snd (clipped u)).
Lemma normalize_ok : forall f pts out, sorts f -> normalize_curve f pts = Ok out ->
  exists l, pts = given l /\ let u := kept (f l) in
  (2 <= List.length u)%nat /\ 0 < scale u /\ out = map (fun q => (fst q, clip01 (snd q) / scale u)) u.
Proof.
  intros f pts out Sf H. unfold normalize_curve in H. destruct (finite pts) as [l|] eqn:E; [|discriminate].
  apply finite_inv in E. exists l. split; [exact E|]. destruct (f l) as [|p r]; [discriminate|].
  cbv zeta in H. change (p :: keep (fst p) r) with (kept (p :: r)) in H. set (u := kept (p :: r)) in *.
  destruct (Nat.ltb_spec (List.length u) 2); [discriminate|].
  change (max_of (map snd (map (fun q => (fst q, clip01 (snd q))) u))) with (scale u) in H.
  destruct (Rle_dec (scale u) 0); [discriminate|]. injection H as <-. cbv zeta. split; [lia|]. split; [lra|].
  rewrite map_map. reflexivity.
Qed.
Lemma normalize_eq : forall f l, (2 <= List.length (kept (f l)))%nat -> 0 < scale (kept (f l)) ->
  normalize_curve f (given l) = Ok (map (fun q => (fst q, clip01 (snd q) / scale (kept (f l)))) (kept (f l))).
Proof.
  intros f l H S. unfold normalize_curve. rewrite finite_given. destruct (f l) as [|p r] eqn:E; [cbn in H; lia|].
  cbv zeta. change (p :: keep (fst p) r) with (kept (p :: r)). set (u := kept (p :: r)) in *.
  destruct (Nat.ltb_spec (List.length u) 2); [lia|].
  change (max_of (map snd (map (fun q => (fst q, clip01 (snd q))) u))) with (scale u).
  destruct (Rle_dec (scale u) 0); [lra|]. rewrite map_map. reflexivity.
Qed.

(* ---- interpolation ---- *)
Lemma interp_from_mix : forall wc ws c s p q x, map fst c = map fst s -> fst p = fst q ->
  interp_from (fst p, wc * snd p + ws * snd q) (mix wc ws c s) x = wc * interp_from p c x + ws * interp_from q s x.
Proof.
  intros wc ws c. induction c as [|a c IH]; intros s p q x M E; destruct s as [|b s]; try discriminate.
  - cbn. rewrite <- E. destruct (Rle_dec x (fst p)); ring.
  - injection M as M1 M2. cbn [mix combine map interp_from fst snd]. fold (mix wc ws c s). rewrite <- M1, <- E.
    destruct (Rlt_dec x (fst a)); [unfold Rdiv; ring|]. rewrite (IH s a b x M2 M1). reflexivity.
Qed.
Lemma interp_mix : forall wc ws c s x, map fst c = map fst s -> interp (mix wc ws c s) x = wc * interp c x + ws * interp s x.
Proof.
  intros wc ws [|a c] [|b s] x M; try discriminate; [cbn; ring|]. injection M as M1 M2.
  cbn [mix combine map interp fst snd]. fold (mix wc ws c s). rewrite <- M1.
  destruct (Rlt_dec x (fst a)); [ring|]. apply interp_from_mix; assumption.
Qed.
Lemma mix_wl : forall wc ws c s, map fst c = map fst s -> map fst (mix wc ws c s) = map fst c.
Proof. intros wc ws c. induction c as [|a c IH]; intros [|b s] M; try discriminate; [reflexivity|]. injection M as M1 M2. change (map fst (mix wc ws (a :: c) (b :: s))) with (fst a :: map fst (mix wc ws c s)). rewrite IH by exact M2. reflexivity. Qed.
Lemma wl_of : forall a b : samples, map fst a = map fst b -> wl_min a = wl_min b /\ wl_max a = wl_max b.
Proof.
  intros a b M. unfold wl_min, wl_max.
  assert (H : fst (hd (0, 0) a) = fst (hd (0, 0) b)) by (destruct a, b; cbn in *; try discriminate; [reflexivity|congruence]).
  rewrite H. generalize (fst (hd (0, 0) b)). intros d. revert b M H. clear. intros b M _. revert b M.
  induction a as [|p a IH]; intros [|q b] M; try discriminate; [split; reflexivity|]. injection M as M1 M2.
  cbn. rewrite M1. destruct (IH b M2) as [-> ->]. split; reflexivity.
Qed.
Lemma trapezoid_lin : forall (x y : R) f g h w, (forall p, In p w -> f p = x * g p + y * h p) -> trapezoid f w = x * trapezoid g w + y * trapezoid h w.
Proof.
  intros x y f g h. induction w as [|a w IH]; intros H; [cbn; ring|]. destruct w as [|b w]; [cbn; ring|].
  cbn [trapezoid] in *. rewrite IH by (intros; apply H; right; assumption).
  rewrite (H a), (H b) by (cbn; auto). field.
Qed.
Lemma vendor_mix : forall solar filt wc ws c s, map fst c = map fst s ->
  vendor_integral solar (mix wc ws c s) filt = omap2 (fun x y => wc * x + ws * y) (vendor_integral solar c filt) (vendor_integral solar s filt).
Proof.
  intros solar filt wc ws c s M. unfold vendor_integral.
  destruct (wl_of (mix wc ws c s) c (mix_wl wc ws c s M)) as [-> ->]. destruct (wl_of s c (eq_sym M)) as [-> ->].
  destruct (Rle_dec _ _); [reflexivity|]. cbn. f_equal. apply trapezoid_lin. intros p _. rewrite interp_mix by exact M. ring.
Qed.

(* ---- templates ---- *)
Lemma linspace_nth : forall a b n k, (k < n)%nat -> nth k (linspace a b n) 0 = a + INR k * ((b - a) / INR (n - 1)).
Proof.
  intros a b n k H. unfold linspace. set (g := fun k => a + INR k * ((b - a) / INR (n - 1))).
  rewrite (nth_indep _ 0 (g 0%nat)) by (rewrite map_length, seq_length; exact H). rewrite map_nth, seq_nth by exact H. reflexivity.
Qed.
Lemma rising_map_seq : forall (h : R -> R) (g : nat -> R) m n, (forall i j, (i < j)%nat -> g i < g j) ->
  rising (map (fun w => (w, h w)) (map g (seq m n))).
Proof.
  intros h g m n G. revert m. induction n as [|n IH]; intros m; cbn; constructor; [apply IH|].
  apply Forall_forall. intros q Hq. rewrite map_map in Hq. apply in_map_iff in Hq as [k [<- Hk]]. apply in_seq in Hk. cbn. apply G. lia.
Qed.
Lemma linspace_rising : forall h a b n, a < b -> (2 <= n)%nat -> rising (map (fun w => (w, h w)) (linspace a b n)).
Proof.
  intros h a b n L N. unfold linspace. apply rising_map_seq. intros i j Hij.
  assert (0 < INR (n - 1)) by (apply lt_0_INR; lia). assert (0 < (b - a) / INR (n - 1)) by (apply Rdiv_lt_0_compat; lra).
  apply lt_INR in Hij. apply Rplus_lt_compat_l. apply Rmult_lt_compat_r; assumption.
Qed.
Lemma linspace_range : forall a b n w, a < b -> (2 <= n)%nat -> In w (linspace a b n) -> a <= w <= b.
Proof.
  intros a b n w L N H. unfold linspace in H. apply in_map_iff in H as [k [<- Hk]]. apply in_seq in Hk.
  assert (P : 0 < INR (n - 1)) by (apply lt_0_INR; lia).
  assert (K : INR k <= INR (n - 1)) by (apply le_INR; lia). pose proof (pos_INR k) as K0.
  replace (INR k * ((b - a) / INR (n - 1))) with ((b - a) * (INR k / INR (n - 1))) by (field; lra).
  assert (Q0 : 0 <= INR k / INR (n - 1)) by (apply Rmult_le_pos; [exact K0|left; apply Rinv_0_lt_compat; exact P]).
  assert (Q1 : INR k / INR (n - 1) <= 1).
  { apply (Rmult_le_reg_r (INR (n - 1)) _ _ P). unfold Rdiv. rewrite Rmult_assoc, Rinv_l, Rmult_1_r, Rmult_1_l by lra. exact K. }
  split; nra.
Qed.
Lemma interp_from_pos : forall l p x, rising (p :: l) -> Forall (fun q => 0 < snd q) (p :: l) -> fst p <= x ->
  (exists q, In q (p :: l) /\ x <= fst q) -> 0 < interp_from p l x.
Proof.
  induction l as [|q l IH]; intros p x S F L [w [Hw Lw]]; inversion F as [|? ? F1 F2]; subst.
  - cbn. destruct Hw as [<-|[]]. destruct (Rle_dec x (fst p)); [exact F1|lra].
  - cbn [interp_from]. inversion S as [|? ? S1 S2]; subst. inversion S2 as [|? ? S3 _]; subst. inversion F2 as [|? ? F3 _]; subst.
    destruct (Rlt_dec x (fst q)) as [X|X].
    + replace (snd p + (snd q - snd p) / (fst q - fst p) * (x - fst p))
        with ((snd p * (fst q - x) + snd q * (x - fst p)) / (fst q - fst p)) by (field; lra).
      apply Rdiv_lt_0_compat; [|lra]. assert (0 < snd p * (fst q - x)) by (apply Rmult_lt_0_compat; lra).
      assert (0 <= snd q * (x - fst p)) by (apply Rmult_le_pos; lra). lra.
    + apply IH; [exact S1|exact F2|lra|]. exists w. split; [|exact Lw]. destruct Hw as [<-|Hw]; [lra|exact Hw].
Qed.
Lemma interp_pos : forall l x, rising l -> Forall (fun q => 0 < snd q) l -> (exists q, In q l /\ fst q <= x) -> (exists q, In q l /\ x <= fst q) ->
  0 < interp l x.
Proof.
  intros [|p l] x S F [a [Ha La]] B; [destruct Ha|]. cbn [interp].
  assert (L : fst p <= x).
  { destruct Ha as [<-|Ha]; [exact La|]. inversion S as [|? ? _ S2]; subst. rewrite Forall_forall in S2. specialize (S2 a Ha). lra. }
  destruct (Rlt_dec x (fst p)); [lra|]. apply interp_from_pos; assumption.
Qed.
Lemma exp_le_1 : forall x, x <= 0 -> 0 < exp x <= 1.
Proof. intros x H. split; [apply exp_pos|]. rewrite <- exp_0. destruct H as [H|H]; [left; apply exp_increasing; exact H|right; rewrite H; reflexivity]. Qed.
Lemma c_type_pos : forall w, 300 <= w <= 1100 -> 0 < c_type w.
Proof.
  intros w H. unfold c_type. apply Rmult_lt_0_compat.
  - apply Rmult_lt_0_compat; [lra|].
    destruct (exp_le_1 (- (1 / 2) * ((w - 700) / 50) ^ 2)) as [E1 E2]; [pose proof (pow2_ge_0 ((w - 700) / 50)); lra|]. lra.
  - destruct (Rlt_dec w 450); [apply exp_pos|lra].
Qed.
Lemma s_type_pos : forall w, 300 <= w <= 1100 -> 0 < s_type w.
Proof.
  intros w H. unfold s_type. apply Rmult_lt_0_compat.
  - apply Rmult_lt_0_compat; [lra|].
    destruct (exp_le_1 (- (1 / 2) * ((w - 950) / 100) ^ 2)) as [E1 E2]; [pose proof (pow2_ge_0 ((w - 950) / 100)); lra|]. lra.
  - destruct (Rlt_dec w 500); [apply exp_pos|lra].
Qed.
Lemma grid_ends : In 300 template_grid /\ In 1100 template_grid /\ List.length template_grid = Z.to_nat 4000.
Proof.
  unfold template_grid. set (n := Z.to_nat 4000). assert (N : (2 <= n)%nat) by (unfold n; lia). clearbody n.
  split; [|split; [|unfold linspace; rewrite map_length, seq_length; reflexivity]].
  - unfold linspace. apply in_map_iff. exists 0%nat. split; [cbn; ring|apply in_seq; lia].
  - unfold linspace. apply in_map_iff. exists (n - 1)%nat. split; [|apply in_seq; lia].
    assert (0 < INR (n - 1)) by (apply lt_0_INR; lia). field. lra.
Qed.
Lemma rising_rescale : forall k l, rising l -> rising (rescale k l).
Proof.
  intros k l R. unfold rising in *. induction R as [|p m R IH Fp]; cbn; constructor; [exact IH|].
  apply Forall_forall. intros q Hq. apply in_map_iff in Hq as [u [<- Hu]]. cbn. rewrite Forall_forall in Fp. apply Fp. exact Hu.
Qed.
Lemma template_ok : forall h, (forall w, 300 <= w <= 1100 -> 0 < h w) ->
  exists t, normalize_at_550 (map (fun w => (w, h w)) template_grid) = Ok t
  /\ map fst t = template_grid /\ rising t /\ Forall (fun q => 0 < snd q) t /\ interp t 550 = 1
  /\ exists k, 0 < k /\ forall q, In q t -> snd q = k * h (fst q).
Proof.
  intros h Hh. set (l := map (fun w => (w, h w)) template_grid).
  destruct grid_ends as [G1 [G2 _]].
  assert (R : rising l) by (apply linspace_rising; [lra|lia]).
  assert (F : Forall (fun q => 0 < snd q) l).
  { apply Forall_forall. intros q Hq. apply in_map_iff in Hq as [w [<- Hw]]. cbn. apply Hh. apply (linspace_range 300 1100 (Z.to_nat 4000)); [lra|lia|exact Hw]. }
  assert (P : 0 < interp l 550).
  { apply interp_pos; [exact R|exact F|exists (300, h 300)|exists (1100, h 1100)]; (split; [apply in_map_iff; eexists; split; [reflexivity|assumption]|cbn; lra]). }
  unfold normalize_at_550. set (r := interp l 550) in *. destruct (Rle_dec r 0); [lra|].
  eexists. split; [reflexivity|]. 
  assert (T : map (fun p => (fst p, snd p / r)) l = rescale (/ r) l) by (apply map_ext; intros p; f_equal; unfold Rdiv; ring).
  rewrite T. split; [unfold rescale, l; rewrite !map_map; cbn; apply map_id|]. split; [|split; [|split]].
  - apply rising_rescale. exact R.
  - apply Forall_forall. intros q Hq. apply in_map_iff in Hq as [u [<- Hu]]. cbn. rewrite Forall_forall in F. apply Rmult_lt_0_compat; [apply Rinv_0_lt_compat; exact P|apply F; exact Hu].
  - rewrite interp_rescale. fold r. field. lra.
  - exists (/ r). split; [apply Rinv_0_lt_compat; exact P|]. intros q Hq. apply in_map_iff in Hq as [u [<- Hu]]. apply in_map_iff in Hu as [w [<- _]]. reflexivity.
Qed.

(* ---- order ---- *)
Lemma rising_unique : forall l m, rising l -> rising m -> Permutation l m -> l = m.
Proof.
  induction l as [|p l IH]; intros m Sl Sm P; [apply Permutation_nil in P; congruence|].
  destruct m as [|q m]; [symmetry in P; apply Permutation_nil in P; discriminate|].
  inversion Sl as [|? ? Sl1 Sl2]; inversion Sm as [|? ? Sm1 Sm2]; subst. rewrite Forall_forall in Sl2, Sm2.
  assert (E : p = q).
  { assert (A : In p (q :: m)) by (eapply Permutation_in; [exact P|left; reflexivity]).
    assert (B : In q (p :: l)) by (eapply Permutation_in; [symmetry; exact P|left; reflexivity]).
    destruct A as [A|A]; [congruence|]. destruct B as [B|B]; [congruence|]. specialize (Sl2 q B). specialize (Sm2 p A). lra. }
  subst q. f_equal. apply IH; [assumption|assumption|]. eapply Permutation_cons_inv. exact P.
Qed.
Lemma sorts_by_wl : sorts (sort by_wl).
Proof.
  intros l. split; [apply sort_perm|].
  assert (S : StronglySorted (fun p q => by_wl p q = true) (sort by_wl l)).
  { apply sort_sorted; unfold by_wl.
    - intros a b; destruct (Rle_dec (fst a) (fst b)), (Rle_dec (fst b) (fst a)); auto; lra.
    - intros a b c; destruct (Rle_dec (fst a) (fst b)), (Rle_dec (fst b) (fst c)), (Rle_dec (fst a) (fst c)); intros; auto; try discriminate; lra. }
  induction S as [|p m S IH F]; constructor; [exact IH|]. eapply Forall_impl; [|exact F]. intros q. unfold by_wl. cbn.
  destruct (Rle_dec (fst p) (fst q)); [auto|discriminate].
Qed.
Lemma sorts_nodup : forall f l, sorts f -> NoDup (map fst l) -> rising (f l) /\ kept (f l) = f l.
Proof.
  intros f l Sf N. destruct (Sf l) as [P S].
  assert (R : rising (f l)) by (apply sorted_nodup_rising; [eapply Permutation_NoDup; [apply Permutation_map; exact P|exact N]|exact S]).
  split; [exact R|apply kept_id; exact R].
Qed.
Lemma scale_pos : forall u, 0 < scale u <-> (exists q, In q u /\ 0 < snd q).
Proof.
  intros u. unfold scale. split; intros H.
  - destruct u as [|a u]; [cbn in H; lra|].
    assert (I : In (max_of (map snd (clipped (a :: u)))) (map snd (clipped (a :: u)))) by (apply max_of_in; discriminate).
    apply in_map_iff in I as [q [E I]]. apply in_map_iff in I as [r [<- I]]. exists r. split; [exact I|].
    apply clip01_pos. cbn in E. rewrite E. exact H.
  - destruct H as [q [Hq P]]. eapply Rlt_le_trans; [apply clip01_pos; exact P|]. apply max_of_ge.
    apply in_map_iff. exists (fst q, clip01 (snd q)). split; [reflexivity|]. apply in_map_iff. exists q. split; [reflexivity|exact Hq].
Qed.
Lemma normalize_err : forall f l, f l <> [] -> ~ ((2 <= List.length (kept (f l)))%nat /\ 0 < scale (kept (f l))) -> normalize_curve f (given l) = Err ValueError.
Proof.
  intros f l N H. unfold normalize_curve. rewrite finite_given. destruct (f l) as [|p r]; [contradiction|].
  cbv zeta. change (p :: keep (fst p) r) with (kept (p :: r)). set (u := kept (p :: r)) in *.
  destruct (Nat.ltb_spec (List.length u) 2); [reflexivity|].
  change (max_of (map snd (map (fun q => (fst q, clip01 (snd q))) u))) with (scale u).
  destruct (Rle_dec (scale u) 0); [reflexivity|]. exfalso. apply H. split; [lia|lra].
Qed.

(* ---- tables ---- *)
Lemma curve_loop_ok : forall fetch f specs seen rows, curve_loop fetch f seen specs = Ok rows ->
  map spec_of rows = specs /\ NoDup (map spec_filter specs) /\ (forall x, In x (map spec_filter specs) -> ~ In x seen)
  /\ Forall (fun r => exists raw c, fetch (cr_svo r) = Ok raw /\ parse_svo_curve raw = Ok c /\ normalize_curve f c = Ok (cr_pts r)) rows.
Proof.
  intros fetch f. induction specs as [|s specs IH]; intros seen rows H; cbn in H.
  - injection H as <-. repeat split; try constructor. intros x [].
  - destruct (existsb _ seen) eqn:X; [discriminate|].
    destruct (fetch (spec_svo s)) as [raw|] eqn:F; [|discriminate]. cbn [bind] in H.
    destruct (parse_svo_curve raw) as [c|] eqn:P; [|discriminate]. cbn [bind] in H.
    destruct (normalize_curve f c) as [pts|] eqn:N; [|discriminate]. cbn [bind] in H.
    destruct (curve_loop fetch f (spec_filter s :: seen) specs) as [rs|] eqn:L; [|discriminate]. cbn [bind] in H. injection H as <-.
    destruct (IH _ _ L) as [I1 [I2 [I3 I4]]]. destruct s as [[[sf si] sb] sv]. cbn [spec_filter spec_svo row_of] in *.
    split; [cbn; rewrite I1; reflexivity|]. split; [|split].
    + cbn. constructor; [|exact I2]. intros Y. apply (I3 _ Y). left. reflexivity.
    + intros x [<-|Y]; [|intros Z; apply (I3 _ Y); right; exact Z].
      intros Z. apply Bool.not_true_iff_false in X. apply X. apply existsb_exists. eexists. split; [exact Z|apply String.eqb_refl].
    + constructor; [|exact I4]. exists raw, c. cbn. auto.
Qed.
Lemma curve_loop_total : forall fetch f specs seen, NoDup (map spec_filter specs) -> (forall x, In x (map spec_filter specs) -> ~ In x seen) ->
  (forall s, In s specs -> exists raw c pts, fetch (spec_svo s) = Ok raw /\ parse_svo_curve raw = Ok c /\ normalize_curve f c = Ok pts) ->
  exists rows, curve_loop fetch f seen specs = Ok rows.
Proof.
  intros fetch f. induction specs as [|s specs IH]; intros seen N D A; cbn; [eexists; reflexivity|].
  destruct (existsb _ seen) eqn:X.
  { exfalso. apply existsb_exists in X as [y [Y1 Y2]]. apply String.eqb_eq in Y2. subst y. apply (D (spec_filter s)); [left; reflexivity|exact Y1]. }
  destruct (A s (or_introl eq_refl)) as [raw [c [pts [-> [P N1]]]]]. cbn [bind]. rewrite P. cbn [bind]. rewrite N1. cbn [bind].
  inversion N as [|? ? M1 M2]; subst.
  destruct (IH (spec_filter s :: seen) M2) as [rows R].
  - intros x Hx [<-|Y]; [apply M1; exact Hx|]. apply (D x); [right; exact Hx|exact Y].
  - intros t Ht. apply A. right. exact Ht.
  - rewrite R. eexists. reflexivity.
Qed.
Lemma mapM_rows : forall solar (l : list (trow * crow)) rows, mapM (fun p => integral_row solar (fst p) (snd p)) l = Ok rows ->
  rows = map (fun p => mk_irow (t_id (fst p)) (cr_filter (snd p)) (vendor_integral solar (t_pts (fst p)) (cr_pts (snd p)))) l.
Proof.
  intros solar. induction l as [|p l IH]; intros rows H; cbn in H; [injection H as <-; reflexivity|].
  unfold integral_row in H at 1. destruct (is_empty solar || is_empty (t_pts (fst p)) || is_empty (cr_pts (snd p)))%bool; [discriminate|].
  cbn [bind] in H. destruct (mapM _ l) as [r|] eqn:E; [|discriminate]. cbn [bind] in H. injection H as <-. cbn. rewrite (IH r eq_refl). reflexivity.
Qed.
Lemma find_app : forall A (p : A -> bool) l m, find p (l ++ m) = match find p l with Some x => Some x | None => find p m end.
Proof. induction l as [|a l IH]; intros m; cbn; [reflexivity|]. destruct (p a); [reflexivity|apply IH]. Qed.
Lemma find_block : forall solar (t : trow) tid f curves,
  find (fun r => (String.eqb (i_template r) tid && String.eqb (i_filter r) f)%bool)
    (map (fun p : trow * crow => mk_irow (t_id (fst p)) (cr_filter (snd p)) (vendor_integral solar (t_pts (fst p)) (cr_pts (snd p)))) (map (fun c => (t, c)) curves))
  = if String.eqb (t_id t) tid then match find (fun c => String.eqb (cr_filter c) f) curves with
      | Some c => Some (mk_irow (t_id t) (cr_filter c) (vendor_integral solar (t_pts t) (cr_pts c))) | None => None end else None.
Proof.
  intros solar t tid f. induction curves as [|c curves IH]; cbn [map find fst snd i_template i_filter]; [destruct (String.eqb (t_id t) tid); reflexivity|].
  rewrite IH. destruct (String.eqb (t_id t) tid); cbn [andb]; [|reflexivity]. destruct (String.eqb (cr_filter c) f); reflexivity.
Qed.
Lemma value_of_rows : forall solar f curves ts tid,
  value_of (map (fun p : trow * crow => mk_irow (t_id (fst p)) (cr_filter (snd p)) (vendor_integral solar (t_pts (fst p)) (cr_pts (snd p))))
              (flat_map (fun t => map (fun c => (t, c)) curves) ts)) tid f
  = match find (fun c => String.eqb (cr_filter c) f) curves, find (fun t => String.eqb (t_id t) tid) ts with
    | Some c, Some t => vendor_integral solar (t_pts t) (cr_pts c) | _, _ => None end.
Proof.
  intros solar f curves ts tid. unfold value_of. induction ts as [|t ts IH]; cbn [flat_map map find].
  - destruct (find _ curves); reflexivity.
  - rewrite map_app, find_app, find_block. destruct (String.eqb (t_id t) tid).
    + destruct (find _ curves); [reflexivity|]. rewrite IH. reflexivity.
    + exact IH.
Qed.

(* ---- what a user gets from the table ---- *)
Lemma mix_results : forall (A : string -> option R) (B : string -> option R) (D : string -> option R) (wc ws : R) (norm : string -> result R) fs,
  (forall f, D f = omap2 (fun x y => wc * x + ws * y) (A f) (B f)) -> (forall f e, norm f = Err e -> e = ValueError) ->
  let get V := bind (mapM (fun f => match V f with Some n => Ok n | None => Err ValueError end) fs) (fun ns =>
      bind (mapM norm fs) (fun ds => Ok (map (fun p => Some (fst p / snd p)) (combine ns ds)))) in
  get D = bind (get A) (fun ic => bind (get B) (fun is => Ok (map (fun p => omap2 (fun x y => wc * x + ws * y) (fst p) (snd p)) (combine ic is)))).
Proof.
  intros A B D wc ws norm fs HD HN. cbv beta zeta.
  assert (EV : forall V e, mapM (fun f : string => match V f with Some n => Ok n | None => Err ValueError end : result R) fs = Err e -> e = ValueError).
  { clear. intros V. induction fs as [|f fs IH]; intros e H; cbn in H; [discriminate|]. destruct (V f); cbn [bind] in H; [|congruence].
    destruct (mapM _ fs); cbn [bind] in H; [discriminate|]. injection H as <-. apply IH. reflexivity. }
  assert (EN : forall e, mapM norm fs = Err e -> e = ValueError).
  { clear - HN. induction fs as [|f fs IH]; intros e H; cbn in H; [discriminate|]. destruct (norm f) eqn:E; cbn [bind] in H; [|injection H as <-; eapply HN; exact E].
    destruct (mapM norm fs); cbn [bind] in H; [discriminate|]. injection H as <-. apply IH. reflexivity. }
  assert (K : match mapM (fun f => match A f with Some n => Ok n | None => Err ValueError end) fs,
                    mapM (fun f => match B f with Some n => Ok n | None => Err ValueError end) fs,
                    mapM (fun f => match D f with Some n => Ok n | None => Err ValueError end) fs with
              | Ok a, Ok b, d => d = Ok (map (fun p => wc * fst p + ws * snd p) (combine a b)) /\ List.length a = List.length b
              | _, _, d => d = Err ValueError end).
  { clear - HD. induction fs as [|f fs IH]; [cbn; split; reflexivity|]. cbn [mapM]. rewrite (HD f). destruct (A f) as [x|]; [|reflexivity].
    cbn [omap2]. destruct (B f) as [y|]; cbn [bind].
    - destruct (mapM (fun f => match A f with Some n => Ok n | None => Err ValueError end) fs) as [a|]; cbn [bind];
      [destruct (mapM (fun f => match B f with Some n => Ok n | None => Err ValueError end) fs) as [b|]; cbn [bind]|].
      + destruct IH as [-> L]. cbn [bind]. split; [reflexivity|cbn; congruence].
      + rewrite IH. reflexivity.
      + rewrite IH. reflexivity.
    - destruct (mapM (fun f => match A f with Some n => Ok n | None => Err ValueError end) fs); reflexivity. }
  pose proof (EV A) as EA. pose proof (EV B) as EB.
  destruct (mapM (fun f => match A f with Some n => Ok n | None => Err ValueError end) fs) as [a|ea]; cbn [bind].
  2:{ rewrite K. cbn [bind]. rewrite (EA ea eq_refl). reflexivity. }
  destruct (mapM norm fs) as [ds|en] eqn:ED; cbn [bind].
  2:{ rewrite (EN en eq_refl). destruct (mapM (fun f => match B f with Some n => Ok n | None => Err ValueError end) fs) as [b|eb]; [destruct K as [-> _]|rewrite K]; reflexivity. }
  destruct (mapM (fun f => match B f with Some n => Ok n | None => Err ValueError end) fs) as [b|eb]; cbn [bind].
  2:{ rewrite K. cbn [bind]. rewrite (EB eb eq_refl). reflexivity. }
  destruct K as [-> L]. cbn [bind]. f_equal. clear - L. revert b ds L. induction a as [|x a IH]; intros [|y b] ds L; try discriminate; [reflexivity|].
  destruct ds as [|d ds]; [reflexivity|]. cbn. f_equal; [f_equal; unfold Rdiv; ring|]. apply IH. cbn in L. congruence.
Qed.
