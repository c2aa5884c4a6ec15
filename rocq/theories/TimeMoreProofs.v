(* Table-level corollaries and witnesses for TimeProps. *)
From Coq Require Import Reals String QArith Qabs Qround Lqa.
From Flocq Require Import Core.
From Verif Require Import Base TimeModel TimeRModel TimeSpec TimeProofs TimeQProofs
  TimeScaleProofs TimeLinkProofs TimeRProofs.
Open Scope Z_scope.
Ltac Zify.zify_post_hook ::= Z.div_mod_to_equations.

Lemma difference_scalar_exact : forall t d n,
  Forall normal (rows t) -> Forall sane (rows t) -> normal (mkrow d n) -> sane (mkrow d n) ->
  List.length (difference_scalar t d n) = List.length (rows t) /\
  forall i a, nth_error (rows t) i = Some a ->
    exists x, nth_error (difference_scalar t d n) i = Some x /\ normal x /\
      instant x = instant a - instant (mkrow d n).
Proof.
  intros t d n Hn Hs Hr Hrs. unfold difference_scalar. rewrite map_length. split; [reflexivity|].
  intros i a Ha. exists (diff_row a (mkrow d n)). rewrite nth_error_map, Ha. split; [reflexivity|].
  apply nth_error_In in Ha. rewrite Forall_forall in *.
  destruct (diff_row_exact a (mkrow d n)); auto.
Qed.

Lemma zip_opt_map_r : forall {A B C} (f : B -> C) (l : list A) (m : list B) z,
  zip_opt l m = Some z -> zip_opt l (map f m) = Some (map (fun p => (fst p, f (snd p))) z).
Proof.
  intros A B C f l; induction l as [|x xs IH]; intros [|y ys] z H; simpl in *; try discriminate.
  - injection H as <-. reflexivity.
  - destruct (zip_opt xs ys) eqn:E; [|discriminate]. injection H as <-.
    rewrite (IH _ _ E). reflexivity.
Qed.

Lemma difference_add_back_table : forall t o ds,
  Forall normal (rows t) -> Forall normal (rows o) ->
  Forall sane (rows t) -> Forall sane (rows o) ->
  difference t o = Ok ds ->
  bind (add_days o (Array (map days ds))) (fun o' => add_nanos o' (Array (map nanos ds)) true) = Ok t.
Proof.
  intros [s rt] [s' ro] ds Hn Hn' Hs Hs' H. simpl in *. unfold difference in H. simpl in H.
  destruct (String.eqb s s') eqn:Es; [|discriminate]. apply String.eqb_eq in Es. subst s'. simpl in H.
  destruct (zip_opt rt ro) as [l|] eqn:Hz; [|discriminate]. injection H as <-.
  destruct (zip_opt_length _ _ _ Hz) as [Hlen Hll].
  unfold add_days, broadcast. cbn [rows]. rewrite !map_length.
  assert (HL : (List.length l =? List.length ro)%nat = true) by (apply Nat.eqb_eq; lia).
  rewrite HL. cbn [bind].
  set (od := map (fun p => (snd p, diff_row (fst p) (snd p))) l).
  assert (Z1 : zip_opt ro (map days (map (fun p => diff_row (fst p) (snd p)) l)) =
               Some (map (fun p => (snd p, days (diff_row (fst p) (snd p)))) l)).
  { clear -Hz. revert ro l Hz. induction rt as [|x xs IH]; intros [|y ys] l Hz; simpl in Hz; try discriminate.
    - injection Hz as <-. reflexivity.
    - destruct (zip_opt xs ys) eqn:E; [|discriminate]. injection Hz as <-. simpl. rewrite (IH _ _ E). reflexivity. }
  rewrite Z1. cbn [bind]. unfold add_nanos. cbn [rows scale].
  set (mid := map (fun p => mkrow (wrap64 (days (fst p) + snd p)) (nanos (fst p))) _).
  assert (R : forallb nanos_in_range (arg_values (Array (map nanos (map (fun p => diff_row (fst p) (snd p)) l)))) = true).
  { simpl. rewrite map_map. apply forallb_forall. intros z Hzn. apply in_map_iff in Hzn.
    destruct Hzn as [[a b] [<- Hin]]. simpl.
    destruct (zip_opt_In _ _ _ _ _ Hz Hin) as [Ha Hb]. rewrite Forall_forall in *.
    destruct (diff_row_exact a b) as [_ D2]; auto. unfold normal, nanos_in_range, DAY in *. lia. }
  rewrite R. cbn [negb andb broadcast]. rewrite !map_length.
  replace (List.length l =? List.length mid)%nat with true
    by (symmetry; apply Nat.eqb_eq; unfold mid; rewrite !map_length; reflexivity).
  cbn [bind].
  assert (Z2 : zip_opt mid (map nanos (map (fun p => diff_row (fst p) (snd p)) l)) =
     Some (map (fun p => (mkrow (wrap64 (days (snd p) + days (diff_row (fst p) (snd p)))) (nanos (snd p)),
                          nanos (diff_row (fst p) (snd p)))) l)).
  { unfold mid. clear. induction l as [|p l IH]; simpl; [reflexivity|]. rewrite IH. reflexivity. }
  rewrite Z2.
  assert (M : mapM (fun p => add_nanos_row (fst p) (snd p))
     (map (fun p => (mkrow (wrap64 (days (snd p) + days (diff_row (fst p) (snd p)))) (nanos (snd p)),
                          nanos (diff_row (fst p) (snd p)))) l) = Ok rt).
  { clear -Hz Hn Hn' Hs Hs'. revert ro l Hz Hn' Hs'.
    induction rt as [|x xs IH]; intros [|y ys] l Hz Hn' Hs'; simpl in Hz; try discriminate.
    - injection Hz as <-. reflexivity.
    - destruct (zip_opt xs ys) as [l'|] eqn:E; [|discriminate]. injection Hz as <-.
      inversion Hn; inversion Hn'; inversion Hs; inversion Hs'; subst.
      cbn [map mapM fst snd].
      destruct (diff_row_exact x y) as [D1 D2]; auto.
      assert (Hb : days x - days y - 1 <= days (diff_row x y) <= days x - days y + 1).
      { unfold instant, normal in *. lia. }
      assert (W : wrap64 (days y + days (diff_row x y)) = days y + days (diff_row x y)).
      { apply wrap64_id. unfold in_int64, sane in *. lia. }
      rewrite W.
      destruct (add_nanos_row_exact (mkrow (days y + days (diff_row x y)) (nanos y)) (nanos (diff_row x y))) as [m [E1 [E2 E3]]].
      + assumption.
      + unfold interior, sane in *; cbn [days]. lia.
      + unfold normal, DAY in *. lia.
      + rewrite E1. cbn [bind].
        assert (m = x).
        { apply instant_inj; auto. rewrite E2. unfold instant in *. cbn [days nanos]. lia. }
        subst m. rewrite (IH H2 H10 ys _ E); auto. }
  rewrite M. reflexivity.
Qed.

Lemma rounded_truncates : forall p t, Forall normal (rows t) -> p <> OtherPrecision ->
  exists t', rounded p t = Ok t' /\ scale t' = scale t /\
    Forall2 (fun r r' => days r' = days r /\ nanos r - unit_ns p < nanos r' <= nanos r /\
                         nanos r' mod unit_ns p = 0 /\ normal r') (rows t) (rows t').
Proof.
  intros p t Hn Hp. rewrite rounded_table by auto. eexists. split; [reflexivity|]. split; [reflexivity|].
  simpl. induction Hn as [|r l Hr Hl IH]; simpl; constructor; [|exact IH].
  apply rounded_row_spec with (p := p); [exact Hr|]. apply rounded_row_eq; auto.
Qed.

Lemma rounded_ok_precision : forall p t t', rounded p t = Ok t' -> p <> OtherPrecision.
Proof. intros p t t' H ->. discriminate. Qed.

Lemma rounded_eq : forall p t t', Forall normal (rows t) -> rounded p t = Ok t' ->
  t' = mkts (scale t) (map (fun r => mkrow (days r) (nanos r - nanos r mod unit_ns p)) (rows t)).
Proof.
  intros p t t' Hn H. rewrite rounded_table in H; auto; [congruence|].
  eapply rounded_ok_precision; eauto.
Qed.

Lemma rounded_normal : forall p t t', Forall normal (rows t) -> rounded p t = Ok t' -> Forall normal (rows t').
Proof.
  intros p t t' Hn H. assert (Hp : p <> OtherPrecision) by (eapply rounded_ok_precision; eauto).
  rewrite (rounded_eq _ _ _ Hn H). simpl. rewrite Forall_map. eapply Forall_impl; [|exact Hn].
  intros r Hr. apply (rounded_row_spec p r); [exact Hr|]. apply rounded_row_eq; auto.
Qed.

Lemma rounded_idempotent_table : forall p t t', Forall normal (rows t) ->
  rounded p t = Ok t' -> rounded p t' = Ok t'.
Proof.
  intros p t t' Hn H. assert (Hp : p <> OtherPrecision) by (eapply rounded_ok_precision; eauto).
  rewrite rounded_table; auto; [|eapply rounded_normal; eauto].
  rewrite (rounded_eq _ _ _ Hn H). simpl. rewrite map_map. do 2 f_equal.
  apply map_ext_in. intros r Hr. rewrite Forall_forall in Hn.
  pose proof (rounded_idempotent p r _ (Hn r Hr) (rounded_row_eq p r (Hn r Hr) Hp)) as I.
  rewrite rounded_row_eq in I; auto; [congruence|].
  apply (rounded_row_spec p r); auto. apply rounded_row_eq; auto.
Qed.

Lemma rounded_compose_table : forall p q t t1 t2, Forall normal (rows t) ->
  unit_ns p <= unit_ns q -> rounded p t = Ok t1 -> rounded q t1 = Ok t2 -> rounded q t = Ok t2.
Proof.
  intros p q t t1 t2 Hn Hpq H1 H2.
  assert (Hp : p <> OtherPrecision) by (eapply rounded_ok_precision; eauto).
  assert (Hq : q <> OtherPrecision) by (eapply rounded_ok_precision; eauto).
  rewrite rounded_table by auto.
  rewrite (rounded_eq _ _ _ (rounded_normal _ _ _ Hn H1) H2).
  rewrite (rounded_eq _ _ _ Hn H1). simpl. rewrite map_map. do 2 f_equal.
  apply map_ext_in. intros r Hr. rewrite Forall_forall in Hn. specialize (Hn r Hr).
  pose proof (rounded_row_eq p r Hn Hp) as A.
  destruct (rounded_row_spec p r _ Hn A) as [_ [_ [_ N1]]].
  pose proof (rounded_row_eq q _ N1 Hq) as B.
  pose proof (rounded_compose p q r _ _ Hn Hpq A B) as C.
  rewrite rounded_row_eq in C by auto. congruence.
Qed.

Lemma rounded_monotone_table : forall p t t' i j a b a' b', Forall normal (rows t) ->
  rounded p t = Ok t' ->
  nth_error (rows t) i = Some a -> nth_error (rows t) j = Some b ->
  nth_error (rows t') i = Some a' -> nth_error (rows t') j = Some b' ->
  instant a <= instant b -> instant a' <= instant b'.
Proof.
  intros p t t' i j a b a' b' Hn H Ha Hb Ha' Hb' Hle.
  assert (Hp : p <> OtherPrecision) by (eapply rounded_ok_precision; eauto).
  rewrite (rounded_eq _ _ _ Hn H) in Ha', Hb'. simpl in *. rewrite nth_error_map, Ha in Ha'.
  rewrite nth_error_map, Hb in Hb'. simpl in *. injection Ha' as <-. injection Hb' as <-.
  apply nth_error_In in Ha, Hb. rewrite Forall_forall in Hn.
  eapply (rounded_monotone p a b); auto; apply rounded_row_eq; auto.
Qed.

Lemma rounded_other : forall t, rounded OtherPrecision t = Err ValueError.
Proof. reflexivity. Qed.

Lemma equals_refuted : exists t o,
  Forall normal (rows t) /\ Forall normal (rows o) /\
  equals t o MS = Ok [true] /\ equals o t MS = Ok [false].
Proof.
  exists (mkts "utc" [mkrow 59000 0]), (mkts "utc" [mkrow 59000 999999]).
  unfold normal. repeat split; try (constructor; [simpl; lia|constructor]); vm_compute; reflexivity.
Qed.

Lemma rescale_utc_tai_round : forall E t,
  (forall d, 0 <= env_dat E d <= 1000 /\ 0 <= env_dat E (d + 1) - env_dat E d <= 1) ->
  scale t = "utc"%string -> Forall normal (rows t) -> Forall sane (rows t) ->
  exists t', rescale E t "tai" = Ok t' /\ scale t' = "tai"%string /\ rescale E t' "utc" = Ok t.
Proof.
  intros E t HT Hs Hn Hsa. destruct (rescale_utc_tai E t HT Hs Hn Hsa) as [t' [A [B [_ D]]]]. eauto.
Qed.

Lemma compose_formula : forall dat ast a b c t,
  In (a, b, c) [("utc", "tai", "tt"); ("utc", "tai", "tdb"); ("utc", "tt", "tdb");
                ("utc", "tt", "tai"); ("tai", "tt", "tdb"); ("tt", "tai", "tdb");
                ("tdb", "tt", "tai"); ("tdb", "tai", "tt"); ("tdb", "tai", "utc")]%string ->
  (forall d, 0 <= dat d <= 1000 /\ 0 <= dat (d + 1) - dat d <= 1) ->
  scale t = a -> Forall normal (rows t) -> Forall sane (rows t) ->
  let E := mkenv dat tdb_formula ast in
  exists t1 t2, rescale E t b = Ok t1 /\ rescale E t1 c = Ok t2 /\ rescale E t c = Ok t2.
Proof.
  intros dat ast a b c t Hin HT Hs Hn Hsa E. apply compose_table with (a := a); auto.
  - simpl in Hin.
    repeat (destruct Hin as [Hin|Hin]; [injection Hin as <- <- <-; constructor|]). destruct Hin.
  - intros d n d' n'. apply tdb_formula_instant.
  - intros d n. apply tdb_formula_small.
Qed.

Definition dat2016 (d : Z) : Z := if d <=? 57753 then 36 else 37.

Lemma unknown_scale_refuted : exists t t',
  scale t = "utc"%string /\ scale t' = "xyz"%string /\
  rescale (mkenv dat2016 (fun _ _ => 0) (fun _ _ r => r)) t "xyz" = Ok t'.
Proof.
  exists (mkts "utc" [mkrow 59000 0]). exists (mkts "xyz" [mkrow 59000 37000000000]).
  split; [reflexivity|]. split; [reflexivity|]. vm_compute. reflexivity.
Qed.

Lemma utc_tt_utc_refuted : exists t t1 t2,
  scale t = "utc"%string /\ Forall normal (rows t) /\
  rescale (mkenv dat2016 (fun _ _ => 0) (fun _ _ r => r)) t "tt" = Ok t1 /\
  rescale (mkenv dat2016 (fun _ _ => 0) (fun _ _ r => r)) t1 "utc" = Ok t2 /\
  map instant (rows t2) = map (fun r => instant r - 1000000000) (rows t).
Proof.
  exists (mkts "utc" [mkrow 57753 43190000000000]). eexists. eexists.
  split; [reflexivity|]. split; [constructor; [unfold normal; simpl; lia|constructor]|].
  split; [vm_compute; reflexivity|]. split; [vm_compute; reflexivity|]. vm_compute. reflexivity.
Qed.

Lemma key_refuted : exists a b, normal a /\ normal b /\ days a <> days b /\
  in_int64 (days a) /\ in_int64 (days b) /\ key_row a = key_row b.
Proof.
  exists (mkrow 213503 85147709551616), (mkrow (213503 - 213503) (213503 * DAY + 85147709551616 - 2 ^ 64)).
  unfold normal, in_int64, DAY; cbn [days nanos]. repeat split; try lia.
Qed.

Lemma link_spec : forall E p t o, p <> OtherPrecision -> scale t = scale o ->
  Forall normal (rows t) -> Forall normal (rows o) ->
  exists gs, link E p t o = Ok gs /\
    NoDup (map (fun g => fst (fst g)) gs) /\
    (forall g, In g gs ->
       side_exact p t (fst (fst g)) (snd (fst g)) /\ side_exact p o (fst (fst g)) (snd g) /\
       (snd (fst g) <> [] \/ snd g <> [])) /\
    (forall i r, nth_error (rows t) i = Some r -> exists g, In g gs /\ In (i, r) (snd (fst g))) /\
    (forall i r, nth_error (rows o) i = Some r -> exists g, In g gs /\ In (i, r) (snd g)).
Proof.
  intros E p t o Hp Hs Ht Ho. unfold link. rewrite Hs, String.eqb_refl. apply link_same_spec; auto.
Qed.

Lemma rescale_scale : forall E t d t', rescale E t d = Ok t' -> scale t' = d.
Proof.
  intros E t d t' H. unfold rescale in H.
  destruct (String.eqb (scale t) d) eqn:E1; [apply String.eqb_eq in E1; injection H as <-; exact E1|].
  destruct (_ || _)%bool; [destruct (known_scale d); [injection H as <-; reflexivity|discriminate]|].
  destruct (supported (scale t) d); [|discriminate].
  destruct (mapM _ _); simpl in H; [injection H as <-; reflexivity|discriminate].
Qed.

Lemma link_other_scale : forall E p t o o', scale t <> scale o ->
  rescale E o (scale t) = Ok o' -> link E p t o = link E p t o'.
Proof.
  intros E p t o o' Hne H. unfold link. apply String.eqb_neq in Hne. rewrite Hne, H. simpl.
  rewrite (rescale_scale _ _ _ _ H), String.eqb_refl. reflexivity.
Qed.

Lemma sliver_witness : is_f64 (- bpow radix2 (-60)) /\ (- bpow radix2 (-54) <= - bpow radix2 (-60) < 0)%R.
Proof.
  split.
  - replace (- bpow radix2 (-60))%R with (IZR (-1) * bpow radix2 (-60))%R by (simpl; Lra.lra).
    apply f64_IZR_small; lia.
  - simpl. Lra.lra.
Qed.

Lemma add_units_all : forall t a,
  Forall normal (rows t) -> Forall interior (rows t) -> fits a (List.length (rows t)) ->
  forall u add, (u, add) = (1000000000, add_seconds) \/ (u, add) = (1000000, add_millis) \/ (u, add) = (1000, add_micros) ->
  arg_forall (fun n => - 86400000000000 <= n * u < 86400000000000) a ->
  exists t', add t a = Ok t' /\ scale t' = scale t /\
    List.length (rows t') = List.length (rows t) /\
    forall i r, nth_error (rows t) i = Some r ->
      exists n r', arg_at a i = Some n /\ nth_error (rows t') i = Some r' /\
        instant r' = instant r + n * u /\ normal r'.
Proof.
  intros t a Hn Hi Hf u add Hu Ha.
  destruct Hu as [Hu|[Hu|Hu]]; injection Hu as -> ->; apply add_units_exact; auto.
Qed.

Lemma add_seconds_wraps : forall t, Forall normal (rows t) -> Forall interior (rows t) ->
  exists t', add_seconds t (Scalar 18446744074) = Ok t' /\
    Forall2 (fun r r' => instant r' = instant r + 290448384) (rows t) (rows t').
Proof.
  intros t Hn Hi. unfold add_seconds.
  change (scale_arg 1000000000 (Scalar 18446744074)) with (Scalar 290448384).
  unfold add_nanos. cbn [arg_values forallb]. change (nanos_in_range 290448384) with true. cbn [andb negb broadcast bind].
  destruct (zip_opt_some (rows t) (repeat 290448384 (List.length (rows t)))) as [z Hz]; [rewrite repeat_length; reflexivity|].
  rewrite Hz.
  assert (X : exists rs, mapM (fun p => add_nanos_row (fst p) (snd p)) z = Ok rs /\
    Forall2 (fun r r' => instant r' = instant r + 290448384) (rows t) rs).
  { revert z Hz. induction (rows t) as [|r l IH]; simpl; intros z Hz.
    - injection Hz as <-. exists []. split; [reflexivity|constructor].
    - destruct (zip_opt l (repeat 290448384 (List.length l))) eqn:E; [|discriminate]. injection Hz as <-.
      inversion Hn; inversion Hi; subst. simpl.
      destruct (add_nanos_row_exact r 290448384) as [r' [A [B C]]]; auto; [unfold DAY; lia|].
      destruct (IH H2 H6 _ eq_refl) as [rs [I1 I2]]. rewrite A. simpl. rewrite I1. simpl.
      eexists. split; [reflexivity|]. constructor; auto. }
  destruct X as [rs [X1 X2]]. rewrite X1. simpl. eauto.
Qed.

Lemma from_mjd_full_day : forall q, 0 <= nanos (from_mjd q) <= 86400000000000 /\
  (nanos (from_mjd q) = 86400000000000 ->
     exists d, (inject_Z d - (1 # 172800000000000) <= q)%Q /\ (q < inject_Z d)%Q).
Proof.
  intros q. split; [apply from_mjd_range|]. intros H. unfold from_mjd in H. cbn [nanos] in H.
  exists (Qfloor q + 1). split; [|apply Qlt_floor].
  destruct (round_he_near ((q - inject_Z (Qfloor q)) * inject_Z DAY)%Q) as [N1 N2].
  rewrite H in N1. unfold DAY in *. change (inject_Z 86400000000000) with (86400000000000 # 1)%Q in *.
  rewrite inject_Z_plus. change (inject_Z 1) with 1%Q. lra.
Qed.

Lemma from_mjd_refuted : exists q, from_mjd q = mkrow (-1) 86400000000000.
Proof. exists (-1 # 1000000000000000)%Q. vm_compute. reflexivity. Qed.

Lemma utc_tai_offset : forall E t,
  (forall d, 0 <= env_dat E d <= 1000 /\ 0 <= env_dat E (d + 1) - env_dat E d <= 1) ->
  scale t = "utc"%string -> Forall normal (rows t) -> Forall sane (rows t) ->
  exists t', rescale E t "tai" = Ok t' /\
    Forall2 (fun r r' => normal r' /\
      ((env_dat E (days r + 1) = env_dat E (days r) \/ nanos r < 43200000000000) ->
        instant r' = instant r + env_dat E (days r) * 1000000000)) (rows t) (rows t').
Proof.
  intros E t HT Hs Hn Hsa. destruct (rescale_utc_tai E t HT Hs Hn Hsa) as [t' [A [B [C D]]]].
  exists t'. split; [exact A|]. eapply Forall2_impl'; [|exact C].
  intros r r' [H1 [k [H2 H3]]]. split; [exact H1|]. intros H4. rewrite H2.
  destruct H3 as [->|[-> H3]]; [reflexivity|]. destruct H4 as [H4|H4]; [rewrite H4; reflexivity|lia].
Qed.

Lemma utc_tai_offset_refuted : exists r r',
  normal r /\ rescale (mkenv dat2016 (fun _ _ => 0) (fun _ _ r => r)) (mkts "utc" [r]) "tai" = Ok (mkts "tai" [r']) /\
  instant r' = instant r + (dat2016 (days r) + 1) * 1000000000.
Proof.
  exists (mkrow 57753 43201000000000). eexists. split; [unfold normal; simpl; lia|].
  split; [vm_compute; reflexivity|]. vm_compute. reflexivity.
Qed.
