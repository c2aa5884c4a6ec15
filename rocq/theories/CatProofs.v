From Coq Require Import QArith Qround ZArith String List Bool Lia Lqa Permutation.
From Verif Require Import Base ListLemmas ResModel TimeModel TimeSpec TimeProofs TableModel TableProofs FitModel FitSpec FitProofs MpcModel CatModel CatSpec.
Import ListNotations.
Open Scope string_scope.
Open Scope list_scope.
Open Scope nat_scope.

Lemma exposure_row_iff s x : exposure_row s = Ok x <-> describes s x.
Proof.
  unfold exposure_row, describes. split.
  - destruct (s_exposure s), (s_start s), (s_duration s), (s_filter s); try discriminate. destruct (Qle_bool 0 q) eqn:A; [|discriminate]. destruct (Qle_bool q 3600) eqn:B; [|discriminate].
    intros [= <-]. cbn. apply Qle_bool_iff in A, B. repeat split; assumption.
  - intros (-> & -> & -> & -> & E1 & E2 & E3 & A & B). apply Qle_bool_iff in A, B. rewrite A, B, E1, E2, E3. cbn [andb]. now destruct x.
Qed.
Lemma rows_forall2 l ys : mapM exposure_row l = Ok ys <-> Forall2 describes l ys.
Proof.
  split.
  - revert ys. induction l as [|s l IH]; intros ys H; cbn in H; [injection H as <-; constructor|].
    destruct (exposure_row s) as [y|] eqn:E; [|discriminate]. cbn in H. destruct (mapM exposure_row l) as [r|]; [|discriminate]. injection H as <-. constructor; [now apply exposure_row_iff|now apply IH].
  - induction 1 as [|s y l ys D F IH]; [reflexivity|]. cbn. apply exposure_row_iff in D. rewrite D. cbn. now rewrite IH.
Qed.
Lemma same_id a b : String.eqb (x_id a) (x_id b) = true <-> x_id a = x_id b.
Proof. apply String.eqb_eq. Qed.
Lemma round_near q : (inject_Z (2 * round_half_even q) - 2 * q <= 1)%Q /\ (-(1) <= inject_Z (2 * round_half_even q) - 2 * q)%Q.
Proof.
  unfold round_half_even. pose proof (Qfloor_le q) as A. pose proof (Qlt_floor q) as B. rewrite inject_Z_plus in B. change (inject_Z 1) with 1%Q in B.
  assert (T : forall z, inject_Z (2 * z) == 2 * inject_Z z) by (intro; rewrite inject_Z_mult; reflexivity).
  assert (T1 : forall z, inject_Z (z + 1) == inject_Z z + 1) by (intro; rewrite inject_Z_plus; reflexivity).
  set (f := Qfloor q) in *. destruct (Qcompare_spec (q - inject_Z f) (1 # 2)) as [E|E|E].
  - destruct (Z.even f); rewrite ?T, ?T1; lra.
  - rewrite T. lra.
  - rewrite T, T1. lra.
Qed.
Lemma half_range d : (0 <= d <= 3600)%Q -> (0 <= half_nanos d <= 1800000000000)%Z.
Proof.
  intros [A B]. unfold half_nanos. destruct (round_near (d / 2 * inject_Z 1000000000)) as [C D]. set (r := round_half_even (d / 2 * inject_Z 1000000000)) in *.
  assert (E : 2 * (d / 2 * inject_Z 1000000000) == d * 1000000000) by (change (inject_Z 1000000000) with 1000000000%Q; field). rewrite E in C, D.
  assert (C' : (inject_Z (2 * r) <= inject_Z 3600000000001)%Q) by (change (inject_Z 3600000000001) with 3600000000001%Q; lra).
  assert (D' : (inject_Z (-1) <= inject_Z (2 * r))%Q) by (change (inject_Z (-1)) with (-(1))%Q; lra).
  rewrite <- Zle_Qle in C', D'. lia.
Qed.
Lemma midpoint_of s x : describes s x -> normal (x_start x) -> source_midpoint s = Ok (midpoint x).
Proof.
  intros (_ & S & D & _ & _ & _ & _ & R) N. unfold source_midpoint. rewrite S, D. pose proof (half_range _ R) as H. unfold normal in N.
  assert (X : nanos_in_range (half_nanos (x_duration x)) = true). { unfold nanos_in_range, DAY. apply andb_true_iff. rewrite Z.leb_le, Z.ltb_lt. lia. }
  rewrite X. unfold add_nanos_row. assert (Y : in_int64b (nanos (x_start x) + half_nanos (x_duration x)) = true). { unfold in_int64b. apply andb_true_iff. rewrite !Z.leb_le || rewrite Z.leb_le, Z.ltb_lt. lia. }
  now rewrite Y.
Qed.
Lemma midpoint_middle x : normal (x_start x) -> interior (x_start x) -> (0 <= x_duration x <= 3600)%Q -> middle_of x (midpoint x).
Proof.
  intros N I R. pose proof (half_range _ R) as H. unfold middle_of.
  assert (E : (instant (midpoint x) - instant (x_start x) = half_nanos (x_duration x))%Z).
  { unfold midpoint, carry, instant, DAY. unfold normal in N. unfold interior in I. destruct (Z.leb_spec 86400000000000 (nanos (x_start x) + half_nanos (x_duration x))).
    - cbn [days nanos]. rewrite !wrap64_id by (unfold in_int64; lia). lia.
    - destruct (Z.ltb_spec (nanos (x_start x) + half_nanos (x_duration x)) 0); [lia|]. cbn [days nanos]. lia. }
  rewrite E. unfold half_nanos. destruct (round_near (x_duration x / 2 * inject_Z 1000000000)) as [C D].
  assert (E2 : 2 * (x_duration x / 2 * inject_Z 1000000000) == x_duration x * inject_Z 1000000000) by (change (inject_Z 1000000000) with 1000000000%Q; field). rewrite E2 in C, D. split; assumption.
Qed.
