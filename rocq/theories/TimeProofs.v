From Verif Require Import Base TimeModel TimeSpec.
From Coq Require Import String QArith Qround Lqa.
Open Scope Z_scope.
Ltac Zify.zify_post_hook ::= Z.div_mod_to_equations.

Ltac b2p := repeat match goal with
  | H : (_ && _)%bool = true |- _ => apply andb_true_iff in H; destruct H
  | H : (_ <=? _) = true |- _ => apply Z.leb_le in H
  | H : (_ <=? _) = false |- _ => apply Z.leb_gt in H
  | H : (_ <? _) = true |- _ => apply Z.ltb_lt in H
  | H : (_ <? _) = false |- _ => apply Z.ltb_ge in H
  | H : (_ =? _) = true |- _ => apply Z.eqb_eq in H
  | H : (_ =? _) = false |- _ => apply Z.eqb_neq in H
  end.

(* ---- carry -------------------------------------------------------------- *)
Lemma carry_exact : forall d n,
  - 2 ^ 63 < d < 2 ^ 63 - 1 -> - DAY <= n < 2 * DAY ->
  instant (carry d n) = d * DAY + n /\ normal (carry d n).
Proof.
  intros d n Hd Hn. unfold carry, instant, normal, DAY in *.
  destruct (86400000000000 <=? n) eqn:E1; b2p.
  - cbn [days nanos]. rewrite !wrap64_id by (unfold in_int64; lia). lia.
  - destruct (n <? 0) eqn:E2; b2p; cbn [days nanos].
    + rewrite !wrap64_id by (unfold in_int64; lia). lia.
    + lia.
Qed.

Lemma add_nanos_row_exact : forall r n,
  normal r -> interior r -> - DAY <= n < DAY ->
  exists r', add_nanos_row r n = Ok r' /\ instant r' = instant r + n /\ normal r'.
Proof.
  intros r n Hr Hi Hn. unfold add_nanos_row, normal, interior, DAY in *.
  assert (H : in_int64b (nanos r + n) = true).
  { apply in_int64b_spec. unfold in_int64. lia. }
  rewrite H. eexists. split; [reflexivity|].
  destruct (carry_exact (days r) (nanos r + n)) as [H1 H2].
  - lia.
  - unfold DAY. lia.
  - split; [|exact H2]. rewrite H1. unfold instant, DAY. lia.
Qed.

Lemma broadcast_fits : forall a k, fits a k ->
  exists l, broadcast a k = Ok l /\ List.length l = k /\
    forall i, (i < k)%nat -> nth_error l i = arg_at a i.
Proof.
  intros [n|l] k H; simpl in *.
  - exists (repeat n k). split; [reflexivity|]. split; [apply repeat_length|].
    intros i Hi. rewrite (nth_error_nth' _ n) by (rewrite repeat_length; exact Hi).
    f_equal. apply nth_repeat.
  - exists l. subst. rewrite Nat.eqb_refl. split; [reflexivity|]. auto.
Qed.

Lemma arg_at_forall : forall P a i n, arg_forall P a -> arg_at a i = Some n -> P n.
Proof.
  intros P [m|l] i n H Hn; simpl in *.
  - injection Hn as <-. exact H.
  - rewrite Forall_forall in H. apply H. eapply nth_error_In; eauto.
Qed.

Lemma forallb_arg : forall a,
  forallb nanos_in_range (arg_values a) = true <-> arg_forall (fun n => - DAY <= n < DAY) a.
Proof.
  intros [n|l]; simpl.
  - unfold nanos_in_range, DAY. lia.
  - rewrite forallb_forall, Forall_forall. unfold nanos_in_range, DAY.
    split; intros H x Hx; specialize (H x Hx); lia.
Qed.

Lemma add_nanos_exact : forall t a,
  Forall normal (rows t) -> Forall interior (rows t) ->
  arg_forall (fun n => - 86400000000000 <= n < 86400000000000) a ->
  fits a (List.length (rows t)) ->
  exists t', add_nanos t a true = Ok t' /\ scale t' = scale t /\
    List.length (rows t') = List.length (rows t) /\
    forall i r, nth_error (rows t) i = Some r ->
      exists n r', arg_at a i = Some n /\ nth_error (rows t') i = Some r' /\
        instant r' = instant r + n /\ normal r'.
Proof.
  intros t a Hn Hi Ha Hf. unfold add_nanos.
  assert (Hb : forallb nanos_in_range (arg_values a) = true) by (apply forallb_arg; exact Ha).
  rewrite Hb. simpl.
  destruct (broadcast_fits a _ Hf) as [l [Hl [Hlen Hnth]]]. rewrite Hl. simpl.
  destruct (zip_opt_some (rows t) l) as [rl Hz]; [lia|]. rewrite Hz.
  assert (Hstep : forall p, In p rl -> exists r',
            add_nanos_row (fst p) (snd p) = Ok r' /\
            instant r' = instant (fst p) + snd p /\ normal r').
  { intros [r n] Hp. destruct (zip_opt_In _ _ _ _ _ Hz Hp) as [H1 H2]. simpl.
    apply add_nanos_row_exact.
    - rewrite Forall_forall in Hn. auto.
    - rewrite Forall_forall in Hi. auto.
    - apply In_nth_error in H2. destruct H2 as [i Hi2].
      assert (Hlt : (i < List.length l)%nat) by (apply nth_error_Some; congruence).
      rewrite Hnth in Hi2 by lia. apply (arg_at_forall _ _ _ _ Ha Hi2). }
  destruct (mapM_ok (fun p => add_nanos_row (fst p) (snd p)) rl) as [rs Hrs].
  { intros p Hp. destruct (Hstep p Hp) as [r' [H _]]. eauto. }
  rewrite Hrs. simpl. eexists. split; [reflexivity|]. simpl.
  destruct (zip_opt_length _ _ _ Hz) as [_ Hzl].
  split; [reflexivity|]. split.
  - rewrite (mapM_length _ _ _ Hrs). exact Hzl.
  - intros i r Hr.
    destruct (zip_opt_nth _ _ _ _ _ Hz Hr) as [n [Hn1 Hn2]].
    destruct (mapM_nth _ _ _ _ _ Hrs Hn2) as [r' [Hr1 Hr2]]. simpl in Hr1.
    destruct (Hstep (r, n)) as [r'' [Hs1 [Hs2 Hs3]]].
    { eapply nth_error_In; eauto. }
    simpl in *. rewrite Hs1 in Hr1. injection Hr1 as <-.
    exists n, r''. repeat split; auto; try apply Hs3.
    rewrite <- Hnth; [exact Hn1|]. rewrite <- Hlen. apply nth_error_Some. congruence.
Qed.

Lemma add_nanos_out_of_range : forall t a,
  ~ arg_forall (fun n => - 86400000000000 <= n < 86400000000000) a ->
  add_nanos t a true = Err ValueError.
Proof.
  intros t a H. unfold add_nanos.
  destruct (forallb nanos_in_range (arg_values a)) eqn:E; [|reflexivity].
  apply forallb_arg in E. contradiction.
Qed.

(* ---- add_seconds / millis / micros -------------------------------------- *)
Lemma scale_arg_at : forall u a i, arg_at (scale_arg u a) i =
  match arg_at a i with Some n => Some (wrap64 (n * u)) | None => None end.
Proof.
  intros u [n|l] i; simpl; [reflexivity|].
  rewrite nth_error_map. destruct (nth_error l i); reflexivity.
Qed.

Lemma scale_arg_fits : forall u a k, fits (scale_arg u a) k <-> fits a k.
Proof. intros u [n|l] k; simpl; [tauto|]. rewrite map_length. tauto. Qed.

Lemma scale_arg_forall : forall P u a,
  arg_forall P (scale_arg u a) <-> arg_forall (fun n => P (wrap64 (n * u))) a.
Proof. intros P u [n|l]; simpl; [tauto|]. rewrite Forall_map. tauto. Qed.

Lemma add_units_exact : forall u t a,
  (u = 1000 \/ u = 1000000 \/ u = 1000000000) ->
  Forall normal (rows t) -> Forall interior (rows t) ->
  arg_forall (fun n => - 86400000000000 <= n * u < 86400000000000) a ->
  fits a (List.length (rows t)) ->
  exists t', add_nanos t (scale_arg u a) true = Ok t' /\ scale t' = scale t /\
    List.length (rows t') = List.length (rows t) /\
    forall i r, nth_error (rows t) i = Some r ->
      exists n r', arg_at a i = Some n /\ nth_error (rows t') i = Some r' /\
        instant r' = instant r + n * u /\ normal r'.
Proof.
  intros u t a Hu Hn Hi Ha Hf.
  assert (Ha' : arg_forall (fun n => wrap64 (n * u) = n * u) a).
  { destruct a as [n|l]; simpl in *.
    - apply wrap64_id. unfold in_int64. destruct Hu as [Hu|[Hu|Hu]]; rewrite Hu in *; lia.
    - eapply Forall_impl; [|exact Ha]. intros n H. apply wrap64_id. unfold in_int64.
      destruct Hu as [Hu|[Hu|Hu]]; rewrite Hu in *; lia. }
  destruct (add_nanos_exact t (scale_arg u a) Hn Hi) as [t' [H1 [H2 [H3 H4]]]].
  - apply scale_arg_forall. destruct a as [n|l]; simpl in *; [rewrite Ha'; exact Ha|].
    rewrite Forall_forall in *. intros x Hx. rewrite Ha' by exact Hx. apply Ha, Hx.
  - apply scale_arg_fits. exact Hf.
  - exists t'. repeat split; auto. intros i r Hr.
    destruct (H4 i r Hr) as [n [r' [Hn1 [Hn2 [Hn3 Hn4]]]]].
    rewrite scale_arg_at in Hn1. destruct (arg_at a i) as [m|] eqn:E; [|discriminate].
    injection Hn1 as <-. exists m, r'.
    rewrite (arg_at_forall _ _ _ _ Ha' E) in Hn3. auto.
Qed.

(* ---- difference --------------------------------------------------------- *)
Lemma diff_row_exact : forall a b,
  normal a -> normal b -> sane a -> sane b ->
  instant (diff_row a b) = instant a - instant b /\ normal (diff_row a b).
Proof.
  intros a b Ha Hb Sa Sb. unfold diff_row, normal, sane in *.
  rewrite !wrap64_id by (unfold in_int64; lia).
  destruct (carry_exact (days a - days b) (nanos a - nanos b)) as [H1 H2].
  - lia.
  - unfold DAY. lia.
  - rewrite H1. split; [unfold instant, DAY; lia|exact H2].
Qed.

Lemma instant_inj : forall a b, normal a -> normal b -> instant a = instant b -> a = b.
Proof.
  intros [d n] [d' n'] Ha Hb H. unfold normal, instant in *; simpl in *.
  assert (d = d') by lia. assert (n = n') by lia. congruence.
Qed.

Lemma difference_exact : forall t o,
  Forall normal (rows t) -> Forall normal (rows o) ->
  Forall sane (rows t) -> Forall sane (rows o) ->
  scale t = scale o -> List.length (rows t) = List.length (rows o) ->
  exists ds, difference t o = Ok ds /\ List.length ds = List.length (rows t) /\
    forall i a b, nth_error (rows t) i = Some a -> nth_error (rows o) i = Some b ->
      exists d, nth_error ds i = Some d /\ normal d /\ instant d = instant a - instant b.
Proof.
  intros t o Hn Hn' Hs Hs' Hsc Hlen. unfold difference.
  rewrite Hsc, String.eqb_refl. simpl.
  destruct (zip_opt_some (rows t) (rows o) Hlen) as [l Hl]. rewrite Hl.
  eexists. split; [reflexivity|]. rewrite map_length.
  destruct (zip_opt_length _ _ _ Hl) as [_ H]. split; [exact H|].
  intros i a b Ha Hb. destruct (zip_opt_nth _ _ _ _ _ Hl Ha) as [b' [Hb1 Hb2]].
  assert (b' = b) by congruence. subst b'.
  exists (diff_row a b). rewrite nth_error_map, Hb2. simpl. split; [reflexivity|].
  apply nth_error_In in Ha, Hb. rewrite Forall_forall in *.
  destruct (diff_row_exact a b); auto.
Qed.

Lemma difference_errors : forall t o,
  (scale t <> scale o -> difference t o = Err ValueError) /\
  (scale t = scale o -> List.length (rows t) <> List.length (rows o) ->
     difference t o = Err ArrowInvalid).
Proof.
  intros t o. split; unfold difference.
  - intros H. apply String.eqb_neq in H. rewrite H. reflexivity.
  - intros H Hl. rewrite H, String.eqb_refl. simpl.
    destruct (zip_opt (rows t) (rows o)) eqn:E; [|reflexivity].
    apply zip_opt_length in E. tauto.
Qed.

Lemma difference_add_back : forall a b d m,
  normal a -> normal b -> sane a -> sane b ->
  diff_row a b = d ->
  add_nanos_row (mkrow (days b + days d) (nanos b)) (nanos d) = Ok m -> m = a.
Proof.
  intros a b d m Ha Hb Sa Sb Hd Hm.
  destruct (diff_row_exact a b Ha Hb Sa Sb) as [H1 H2]. rewrite Hd in *.
  unfold normal, sane, interior in *.
  assert (Hdd : days a - days b - 1 <= days d <= days a - days b + 1).
  { unfold instant in H1. lia. }
  destruct (add_nanos_row_exact (mkrow (days b + days d) (nanos b)) (nanos d)) as [r' [E [E1 E2]]].
  - exact Hb.
  - unfold interior; simpl. unfold instant in H1. lia.
  - unfold DAY. lia.
  - rewrite E in Hm. injection Hm as <-. apply instant_inj; auto.
    rewrite E1. unfold instant in *. simpl. lia.
Qed.

(* ---- rounded ------------------------------------------------------------ *)
Lemma rounded_row_spec : forall p r r', normal r -> rounded_row p r = Ok r' ->
  days r' = days r /\ nanos r - unit_ns p < nanos r' <= nanos r /\
  nanos r' mod unit_ns p = 0 /\ normal r'.
Proof.
  intros p [d n] r' Hr H. unfold normal in *; simpl in *.
  destruct p; simpl in H; try discriminate; injection H as <-;
    unfold unit_ns, micros, millis, seconds; simpl.
  - split; [reflexivity|]. rewrite Z.mod_1_r. lia.
  - rewrite Z.quot_div_nonneg by lia. rewrite wrap64_id by (unfold in_int64; lia).
    rewrite Z_mod_mult. lia.
  - rewrite Z.quot_div_nonneg by lia. rewrite wrap64_id by (unfold in_int64; lia).
    rewrite Z_mod_mult. lia.
  - rewrite Z.quot_div_nonneg by lia. rewrite wrap64_id by (unfold in_int64; lia).
    rewrite Z_mod_mult. lia.
Qed.

(* the rounded row is the unique row with these properties *)
Lemma rounded_char : forall u d n r,
  0 < u -> days r = d -> n - u < nanos r <= n -> nanos r mod u = 0 ->
  r = mkrow d (n - n mod u).
Proof.
  intros u d n [d' n'] Hu Hd Hn Hm; simpl in *. subst d'. f_equal.
  apply Z.mod_divide in Hm; [|lia]. destruct Hm as [k Hk]. subst n'.
  pose proof (Z.div_mod n u ltac:(lia)). pose proof (Z.mod_pos_bound n u ltac:(lia)).
  assert (k = n / u) by nia. subst k. lia.
Qed.

Lemma rounded_row_ok : forall p r, p <> OtherPrecision -> exists r', rounded_row p r = Ok r'.
Proof. intros [] r H; simpl; eauto. congruence. Qed.

Lemma rounded_row_eq : forall p r, normal r -> p <> OtherPrecision ->
  rounded_row p r = Ok (mkrow (days r) (nanos r - nanos r mod unit_ns p)).
Proof.
  intros p r Hr Hp. destruct (rounded_row_ok p r Hp) as [r' H]. rewrite H. f_equal.
  destruct (rounded_row_spec p r r' Hr H) as [H1 [H2 [H3 H4]]].
  apply rounded_char; auto. destruct p; simpl; try lia. congruence.
Qed.

Lemma rounded_idempotent : forall p r r', normal r ->
  rounded_row p r = Ok r' -> rounded_row p r' = Ok r'.
Proof.
  intros p r r' Hr H. destruct (rounded_row_spec p r r' Hr H) as [H1 [H2 [H3 H4]]].
  assert (Hp : p <> OtherPrecision) by (intro; subst; discriminate).
  rewrite rounded_row_eq by auto. rewrite H3. f_equal. destruct r'; simpl. f_equal. lia.
Qed.

Lemma rounded_compose : forall p q r r1 r2, normal r -> unit_ns p <= unit_ns q ->
  rounded_row p r = Ok r1 -> rounded_row q r1 = Ok r2 -> rounded_row q r = Ok r2.
Proof.
  intros p q r r1 r2 Hr Hpq H1 H2.
  assert (Hp : p <> OtherPrecision) by (intro; subst; discriminate).
  assert (Hq : q <> OtherPrecision) by (intro; subst; discriminate).
  destruct (rounded_row_spec p r r1 Hr H1) as [A1 [A2 [A3 A4]]].
  destruct (rounded_row_spec q r1 r2 A4 H2) as [B1 [B2 [B3 B4]]].
  rewrite rounded_row_eq by auto. f_equal. symmetry. apply rounded_char.
  - destruct q; simpl; try lia. congruence.
  - congruence.
  - assert (exists k, unit_ns q = k * unit_ns p /\ 0 < k) as [k [Hk Hk0]].
    { destruct p, q; simpl in *; try lia; try congruence.
      all: first [ exists 1; lia | exists 1000; lia | exists 1000000; lia | exists 1000000000; lia ]. }
    assert (0 < unit_ns p) by (destruct p; simpl; try lia; congruence).
    assert (0 < unit_ns q) by (destruct q; simpl; try lia; congruence).
    apply Z.mod_divide in A3; [|lia]. destruct A3 as [x Hx].
    apply Z.mod_divide in B3; [|lia]. destruct B3 as [y Hy].
    rewrite Hx, Hy in *. rewrite Hk in *. split; [|lia].
    (* n1 = x*up ; n2 = y*k*up ; n1 - k*up < n2  and n - up < n1 *)
    assert (x * unit_ns p - k * unit_ns p < y * (k * unit_ns p)) by lia.
    assert (x - k < y * k) by nia.
    assert (x + 1 <= (y + 1) * k) by nia. nia.
  - exact B3.
Qed.

Lemma rounded_monotone : forall p a b a' b', normal a -> normal b ->
  rounded_row p a = Ok a' -> rounded_row p b = Ok b' ->
  instant a <= instant b -> instant a' <= instant b'.
Proof.
  intros p a b a' b' Ha Hb H1 H2 Hle.
  destruct (rounded_row_spec p a a' Ha H1) as [A1 [A2 [A3 A4]]].
  destruct (rounded_row_spec p b b' Hb H2) as [B1 [B2 [B3 B4]]].
  unfold instant, normal in *. rewrite A1, B1.
  destruct (Z.eq_dec (days a) (days b)) as [E|E].
  - rewrite E in *. assert (nanos a <= nanos b) by lia.
    assert (0 < unit_ns p) by (destruct p; simpl; try lia; discriminate).
    apply Z.mod_divide in A3; [|lia]. destruct A3 as [x Hx].
    apply Z.mod_divide in B3; [|lia]. destruct B3 as [y Hy].
    rewrite Hx, Hy in *. assert (x < y + 1) by nia. nia.
  - assert (days a < days b) by lia. lia.
Qed.

Lemma rounded_table : forall p t, Forall normal (rows t) -> p <> OtherPrecision ->
  rounded p t = Ok (mkts (scale t)
    (map (fun r => mkrow (days r) (nanos r - nanos r mod unit_ns p)) (rows t))).
Proof.
  intros p t Hn Hp.
  assert (H : mapM (rounded_row p) (rows t) =
    Ok (map (fun r => mkrow (days r) (nanos r - nanos r mod unit_ns p)) (rows t))).
  { induction Hn as [|r l Hr Hl IH]; simpl; [reflexivity|].
    rewrite rounded_row_eq by auto. simpl. rewrite IH. reflexivity. }
  unfold rounded. destruct p; try congruence; rewrite H; reflexivity.
Qed.

(* ---- equality ----------------------------------------------------------- *)
Lemma within_tolerance_char : forall m a b,
  normal a -> normal b -> sane a -> sane b -> 0 <= m < 86400000000000 ->
  within_tolerance m (diff_row a b) = true <->
  (m = 0 /\ instant a = instant b) \/ (0 < m /\ - m <= instant a - instant b < m).
Proof.
  intros m a b Ha Hb Sa Sb Hm.
  destruct (diff_row_exact a b Ha Hb Sa Sb) as [H1 H2].
  destruct (diff_row a b) as [d n]. unfold within_tolerance, normal, instant in *.
  cbn [days nanos] in *.
  assert (Habs : wrap64 (Z.abs n) = n) by (rewrite Z.abs_eq by lia; apply wrap64_id; unfold in_int64; lia).
  rewrite Habs. unfold DAY.
  destruct (m =? 0) eqn:E; b2p; lia.
Qed.

Lemma equals_char : forall t o p m,
  Forall normal (rows t) -> Forall normal (rows o) ->
  Forall sane (rows t) -> Forall sane (rows o) ->
  scale t = scale o -> List.length (rows t) = List.length (rows o) ->
  (p = NS /\ m = 0 \/ p = US /\ m = 999 \/ p = MS /\ m = 999999 \/ p = S /\ m = 999999999) ->
  exists bs, equals t o p = Ok bs /\ List.length bs = List.length (rows t) /\
    forall i a b, nth_error (rows t) i = Some a -> nth_error (rows o) i = Some b ->
      exists v, nth_error bs i = Some v /\
        (v = true <-> (m = 0 /\ instant a = instant b) \/
                      (0 < m /\ - m <= instant a - instant b < m)).
Proof.
  intros t o p m Hn Hn' Hs Hs' Hsc Hlen Hp.
  assert (Hmd : max_deviation p = Ok m) by (destruct Hp as [[-> ->]|[[-> ->]|[[-> ->]|[-> ->]]]]; reflexivity).
  assert (Hm : 0 <= m < 86400000000000) by lia.
  unfold equals. rewrite Hsc, String.eqb_refl. cbn [negb].
  destruct (rows o) as [|b0 [|b1 bs]] eqn:Eo.
  - destruct (rows t) eqn:Et; [|discriminate]. simpl.
    unfold difference. rewrite Hsc, String.eqb_refl, Eo, Et. simpl. rewrite Hmd. simpl.
    eexists; split; [reflexivity|]. split; [reflexivity|]. intros [|i]; discriminate.
  - destruct (rows t) as [|a0 [|a1 ats]] eqn:Et; try discriminate.
    rewrite Hmd. simpl. unfold difference_scalar. rewrite Et. simpl.
    eexists; split; [reflexivity|]. split; [reflexivity|].
    intros [|i] a b Ha Hb; simpl in *; [|destruct i; discriminate].
    injection Ha as <-. injection Hb as <-. eexists; split; [reflexivity|].
    inversion Hn; inversion Hn'; inversion Hs; inversion Hs'; subst.
    destruct b0 as [d0 n0]. apply within_tolerance_char; auto.
  - rewrite Hlen, Nat.eqb_refl. cbn [negb].
    destruct (zip_opt_some (rows t) (rows o)) as [l Hl]; [rewrite Eo; exact Hlen|].
    unfold difference. rewrite Hsc, String.eqb_refl. cbn [negb].
    rewrite Hl. cbn [bind]. rewrite Hmd. cbn [bind].
    eexists; split; [reflexivity|]. rewrite !map_length.
    destruct (zip_opt_length _ _ _ Hl) as [_ Hll]. split; [lia|].
    rewrite <- Eo in *. intros i a b Ha Hb.
    destruct (zip_opt_nth _ _ _ _ _ Hl Ha) as [b' [Hb1 Hb2]].
    assert (b' = b) by congruence. subst b'.
    exists (within_tolerance m (diff_row a b)).
    rewrite !nth_error_map, Hb2. simpl. split; [reflexivity|].
    apply nth_error_In in Ha, Hb. rewrite Forall_forall in *.
    apply within_tolerance_char; auto.
Qed.

(* ---- max / min ---------------------------------------------------------- *)
Lemma max_list_spec : forall l, l <> [] ->
  exists m, max_list l = Some m /\ In m l /\ forall x, In x l -> x <= m.
Proof.
  induction l as [|x xs IH]; intros H; [congruence|]. simpl.
  destruct xs as [|y ys].
  - exists x. simpl. split; [reflexivity|]. split; [auto|]. intros z [->|[]]; lia.
  - destruct IH as [m [H1 [H2 H3]]]; [discriminate|]. rewrite H1.
    exists (Z.max x m). split; [reflexivity|]. split.
    + destruct (Z.max_spec x m) as [[_ ->]|[_ ->]]; [right; exact H2|left; reflexivity].
    + intros z [->|Hz]; [lia|]. specialize (H3 z Hz). lia.
Qed.

Lemma min_list_spec : forall l, l <> [] ->
  exists m, min_list l = Some m /\ In m l /\ forall x, In x l -> m <= x.
Proof.
  induction l as [|x xs IH]; intros H; [congruence|]. simpl.
  destruct xs as [|y ys].
  - exists x. simpl. split; [reflexivity|]. split; [auto|]. intros z [->|[]]; lia.
  - destruct IH as [m [H1 [H2 H3]]]; [discriminate|]. rewrite H1.
    exists (Z.min x m). split; [reflexivity|]. split.
    + destruct (Z.min_spec x m) as [[_ ->]|[_ ->]]; [left; reflexivity|right; exact H2].
    + intros z [->|Hz]; [lia|]. specialize (H3 z Hz). lia.
Qed.

Lemma ts_max_spec : forall t, rows t <> [] -> Forall normal (rows t) ->
  exists r, ts_max t = Ok r /\ In r (rows t) /\
    forall x, In x (rows t) -> instant x <= instant r.
Proof.
  intros t Hne Hn. unfold ts_max.
  destruct (max_list_spec (map days (rows t))) as [md [H1 [H2 H3]]].
  { intro H. apply map_eq_nil in H. contradiction. }
  rewrite H1. apply in_map_iff in H2. destruct H2 as [r0 [Hr0 Hin0]].
  assert (Hf : In r0 (filter (fun r => days r =? md) (rows t))).
  { apply filter_In. split; [exact Hin0|lia]. }
  destruct (max_list_spec (map nanos (filter (fun r => days r =? md) (rows t)))) as [mn [M1 [M2 M3]]].
  { intro H. apply map_eq_nil in H. rewrite H in Hf. destruct Hf. }
  rewrite M1. apply in_map_iff in M2. destruct M2 as [r1 [Hr1 Hin1]].
  apply filter_In in Hin1. destruct Hin1 as [Hin1 Hd1].
  destruct (filter (fun r => (days r =? md) && (nanos r =? mn)) (rows t)) as [|r rest] eqn:E.
  - assert (In r1 []) as [].
    rewrite <- E. apply filter_In. split; [exact Hin1|]. rewrite Hd1. simpl. lia.
  - assert (Hr : In r (filter (fun r => (days r =? md) && (nanos r =? mn)) (rows t))) by (rewrite E; left; reflexivity).
    apply filter_In in Hr. destruct Hr as [Hr Hrb]. b2p.
    exists r. split; [reflexivity|]. split; [exact Hr|].
    intros x Hx. rewrite Forall_forall in Hn. pose proof (Hn x Hx). pose proof (Hn r Hr).
    unfold instant, normal in *.
    assert (days x <= md) by (apply H3, in_map, Hx).
    destruct (Z.eq_dec (days x) md) as [Ed|Ed].
    + assert (nanos x <= mn) by (apply M3, in_map, filter_In; split; [exact Hx|lia]). lia.
    + lia.
Qed.

Lemma ts_min_spec : forall t, rows t <> [] -> Forall normal (rows t) ->
  exists r, ts_min t = Ok r /\ In r (rows t) /\
    forall x, In x (rows t) -> instant r <= instant x.
Proof.
  intros t Hne Hn. unfold ts_min.
  destruct (min_list_spec (map days (rows t))) as [md [H1 [H2 H3]]].
  { intro H. apply map_eq_nil in H. contradiction. }
  rewrite H1. apply in_map_iff in H2. destruct H2 as [r0 [Hr0 Hin0]].
  assert (Hf : In r0 (filter (fun r => days r =? md) (rows t))).
  { apply filter_In. split; [exact Hin0|lia]. }
  destruct (min_list_spec (map nanos (filter (fun r => days r =? md) (rows t)))) as [mn [M1 [M2 M3]]].
  { intro H. apply map_eq_nil in H. rewrite H in Hf. destruct Hf. }
  rewrite M1. apply in_map_iff in M2. destruct M2 as [r1 [Hr1 Hin1]].
  apply filter_In in Hin1. destruct Hin1 as [Hin1 Hd1].
  destruct (filter (fun r => (days r =? md) && (nanos r =? mn)) (rows t)) as [|r rest] eqn:E.
  - assert (In r1 []) as [].
    rewrite <- E. apply filter_In. split; [exact Hin1|]. rewrite Hd1. simpl. lia.
  - assert (Hr : In r (filter (fun r => (days r =? md) && (nanos r =? mn)) (rows t))) by (rewrite E; left; reflexivity).
    apply filter_In in Hr. destruct Hr as [Hr Hrb]. b2p.
    exists r. split; [reflexivity|]. split; [exact Hr|].
    intros x Hx. rewrite Forall_forall in Hn. pose proof (Hn x Hx). pose proof (Hn r Hr).
    unfold instant, normal in *.
    assert (md <= days x) by (apply H3, in_map, Hx).
    destruct (Z.eq_dec (days x) md) as [Ed|Ed].
    + assert (mn <= nanos x) by (apply M3, in_map, filter_In; split; [exact Hx|lia]). lia.
    + lia.
Qed.

Lemma ts_extremum_empty : forall s, ts_max (mkts s []) = Err IndexError /\ ts_min (mkts s []) = Err IndexError.
Proof. intros; split; reflexivity. Qed.

(* ---- keys --------------------------------------------------------------- *)
Lemma key_injective : forall a b, normal a -> normal b ->
  -106751 <= days a < 106751 -> -106751 <= days b < 106751 ->
  key_row a = key_row b -> a = b.
Proof.
  intros a b Ha Hb Da Db H. apply instant_inj; auto.
  unfold key_row, normal, DAY in *.
  rewrite !(wrap64_id (_ * _)) in H by (unfold in_int64; lia).
  rewrite !wrap64_id in H by (unfold in_int64; lia). unfold instant. lia.
Qed.

Lemma key_congruent : forall a, exists k, key_row a = instant a + k * 2 ^ 64.
Proof.
  intros a. unfold key_row, instant, DAY.
  destruct (wrap64_cong (days a * 86400000000000)) as [k1 H1]. rewrite H1.
  destruct (wrap64_cong (days a * 86400000000000 + k1 * 2 ^ 64 + nanos a)) as [k2 H2].
  rewrite H2. exists (k1 + k2). lia.
Qed.

(* two instants share a key exactly when they differ by a multiple of 2^64 ns *)
Lemma key_eq_iff : forall a b,
  key_row a = key_row b <-> exists k, instant a = instant b + k * 2 ^ 64.
Proof.
  intros a b. destruct (key_congruent a) as [ka Ha]. destruct (key_congruent b) as [kb Hb].
  split.
  - intros H. exists (kb - ka). lia.
  - intros [k Hk].
    assert (Ra : in_int64 (key_row a)) by apply wrap64_range.
    assert (Rb : in_int64 (key_row b)) by apply wrap64_range.
    unfold in_int64 in *. assert (ka + k = kb \/ ka + k <> kb) as [E|E] by lia; [|nia]. nia.
Qed.
