(* Proofs about Timestamp.rescale. *)
From Verif Require Import Base TimeModel TimeSpec TimeProofs TimeQProofs.
From Coq Require Import String QArith Qround Qabs Lqa.
Open Scope Z_scope.
Ltac Zify.zify_post_hook ::= Z.div_mod_to_equations.

(* ---- rows --------------------------------------------------------------- *)
Lemma days_near : forall r r', normal r -> normal r' ->
  - 86400000000000 <= instant r' - instant r <= 86400000000000 ->
  days r - 1 <= days r' <= days r + 1.
Proof. intros r r' H H' Hd. unfold normal, instant in *. lia. Qed.

Lemma shift_row : forall r c, normal r -> sane r -> - 86400000000000 <= c < 86400000000000 ->
  exists r', add_nanos_row r c = Ok r' /\ instant r' = instant r + c /\ normal r' /\ interior r'.
Proof.
  intros r c Hn Hs Hc.
  destruct (add_nanos_row_exact r c Hn) as [r' [H1 [H2 H3]]].
  - unfold sane, interior in *. lia.
  - exact Hc.
  - exists r'. repeat split; auto; try apply H3.
    + destruct (days_near r r' Hn H3); [lia|]. unfold sane in *. lia.
    + destruct (days_near r r' Hn H3); [lia|]. unfold sane in *. lia.
Qed.

Lemma unshift_row : forall r r' c c', normal r -> normal r' -> interior r' ->
  instant r' = instant r + c -> c' = - c -> - 86400000000000 <= c' < 86400000000000 ->
  add_nanos_row r' c' = Ok r.
Proof.
  intros r r' c c' Hn Hn' Hi E -> Hc.
  destruct (add_nanos_row_exact r' (- c) Hn' Hi Hc) as [r2 [H1 [H2 H3]]].
  rewrite H1. f_equal. apply instant_inj; auto. lia.
Qed.

(* lifting to tables *)
Lemma rescale_lift : forall E t src dst (P : row -> row -> Prop),
  scale t = src -> String.eqb src dst = false ->
  String.eqb src "ut1" = false -> String.eqb dst "ut1" = false -> supported src dst = true ->
  (forall r, In r (rows t) -> exists r', rescale_row E src dst r = Ok r' /\ P r r') ->
  exists rs, rescale E t dst = Ok (mkts dst rs) /\ Forall2 P (rows t) rs.
Proof.
  intros E [s rs0] src dst P Hs H1 H2 H3 H4 H. simpl in *. subst s.
  assert (A : exists rs, mapM (rescale_row E src dst) rs0 = Ok rs /\ Forall2 P rs0 rs).
  { clear -H. induction rs0 as [|r l IH]; simpl.
    - exists []. split; [reflexivity|constructor].
    - destruct (H r) as [r' [Hr HP]]; [left; reflexivity|].
      destruct IH as [rs [Hrs HF]]; [intros x Hx; apply H; right; exact Hx|].
      rewrite Hr. simpl. rewrite Hrs. simpl. eexists. split; [reflexivity|]. constructor; auto. }
  destruct A as [rs [Hrs HF]]. exists rs. split; [|exact HF].
  unfold rescale. simpl. rewrite H1, H2, H3. simpl. rewrite H4, Hrs. reflexivity.
Qed.

Lemma Forall2_eq_id : forall {A} (l m : list A), Forall2 eq l m -> l = m.
Proof. intros A l m H. induction H; congruence. Qed.

Lemma rescale_same : forall E t, rescale E t (scale t) = Ok t.
Proof. intros E t. unfold rescale. rewrite String.eqb_refl. reflexivity. Qed.

(* ---- TAI <-> TT --------------------------------------------------------- *)
Definition exactly (c : Z) (r r' : row) : Prop := instant r' = instant r + c /\ normal r' /\ interior r'.

Lemma tai_tt_row : forall E r, normal r -> sane r ->
  exists r', rescale_row E "tai" "tt" r = Ok r' /\ exactly 32184000000 r r' /\
             rescale_row E "tt" "tai" r' = Ok r.
Proof.
  intros E r Hn Hs. destruct (shift_row r TAI_TT Hn Hs) as [r' [H1 [H2 [H3 H4]]]].
  { unfold TAI_TT. lia. }
  exists r'. split; [exact H1|]. split; [split; [exact H2|split; auto]|].
  change (add_nanos_row r' (- TAI_TT) = Ok r).
  eapply unshift_row; eauto. unfold TAI_TT; lia.
Qed.

Lemma tt_tai_row : forall E r, normal r -> sane r ->
  exists r', rescale_row E "tt" "tai" r = Ok r' /\ exactly (-32184000000) r r' /\
             rescale_row E "tai" "tt" r' = Ok r.
Proof.
  intros E r Hn Hs. destruct (shift_row r (- TAI_TT) Hn Hs) as [r' [H1 [H2 [H3 H4]]]].
  { unfold TAI_TT. lia. }
  exists r'. split; [exact H1|]. split; [split; [exact H2|split; auto]|].
  change (add_nanos_row r' TAI_TT = Ok r).
  eapply unshift_row; eauto; unfold TAI_TT; lia.
Qed.

(* ---- ERFA --------------------------------------------------------------- *)
Definition L : Z := 1000000000.
Definition G (dat : Z -> Z) (x : Q) : Q :=
  let d := Qfloor (x / inject_Z DAY)%Q in
  let dleap := dat (d + 1) - dat d in
  (inject_Z (dat d * 1000000000) + (x - inject_Z (d * DAY)) * (dleap # 86400))%Q.

Definition table_ok (dat : Z -> Z) : Prop :=
  forall d, 0 <= dat d <= 1000 /\ 0 <= dat (d + 1) - dat d <= 1.

Lemma utctai_G : forall dat u, (erfa_utctai dat u == u + G dat u)%Q.
Proof. intros dat u. unfold erfa_utctai, G. cbv zeta. ring. Qed.

Lemma G_comp : forall dat x y, (x == y)%Q -> (G dat x == G dat y)%Q.
Proof.
  intros dat x y H. unfold G. cbv zeta.
  assert (E : Qfloor (x / inject_Z DAY) = Qfloor (y / inject_Z DAY)).
  { apply Qfloor_comp. rewrite H. reflexivity. }
  rewrite E, H. reflexivity.
Qed.

Lemma taiutc_G : forall dat tai,
  (erfa_taiutc dat tai == tai - G dat (tai - G dat (tai - G dat tai)))%Q.
Proof.
  intros dat tai. unfold erfa_taiutc.
  assert (S : forall u v, (u == v)%Q ->
    (Qred (u + (tai - erfa_utctai dat u)) == tai - G dat v)%Q).
  { intros u v H. rewrite Qred_correct, utctai_G, (G_comp dat u v H). ring. }
  apply S, S, S. reflexivity.
Qed.

Definition in_day (d : Z) (x : Q) : Prop :=
  (inject_Z d * (86400000000000 # 1) <= x)%Q /\ (x < (inject_Z d + 1) * (86400000000000 # 1))%Q.

Lemma in_day_floor : forall d x, in_day d x -> Qfloor (x / inject_Z DAY) = d.
Proof.
  intros d x [H1 H2]. apply Qfloor_unique.
  - apply Qle_shift_div_l; [reflexivity|]. exact H1.
  - apply Qlt_shift_div_r; [reflexivity|]. rewrite inject_Z_plus. exact H2.
Qed.

Lemma in_day_exists : forall x, in_day (Qfloor (x / inject_Z DAY)) x.
Proof.
  intros x. set (d := Qfloor (x / inject_Z DAY)).
  pose proof (Qfloor_le (x / inject_Z DAY)) as F1. pose proof (Qlt_floor (x / inject_Z DAY)) as F2.
  fold d in F1, F2. rewrite inject_Z_plus in F2. change (inject_Z 1) with 1%Q in F2.
  assert (E : (x == x / inject_Z DAY * (86400000000000 # 1))%Q) by (unfold DAY; field).
  split.
  - rewrite E. apply Qmult_le_compat_r; [exact F1|discriminate].
  - rewrite E. apply Qmult_lt_compat_r; [reflexivity|exact F2].
Qed.

Definition dz (z : Z) : Q := inject_Z z.

(* value of G on day d when the step is 0 or 1 *)
Lemma G_day : forall dat d x, in_day d x ->
  (dat (d + 1) = dat d -> (G dat x == dz (dat d) * (1000000000 # 1))%Q) /\
  (dat (d + 1) = dat d + 1 ->
     (G dat x == dz (dat d) * (1000000000 # 1) + (x - dz d * (86400000000000 # 1)) * (1 # 86400))%Q).
Proof.
  intros dat d x H. unfold G. rewrite (in_day_floor d x H). cbv zeta. split; intros E; rewrite E.
  - rewrite Z.sub_diag, inject_Z_mult. unfold dz.
    setoid_replace (0 # 86400)%Q with 0%Q by reflexivity.
    change (inject_Z 1000000000) with (1000000000 # 1)%Q. ring.
  - replace (dat d + 1 - dat d) with 1 by lia. rewrite !inject_Z_mult. unfold dz, DAY.
    change (inject_Z 1000000000) with (1000000000 # 1)%Q.
    change (inject_Z 86400000000000) with (86400000000000 # 1)%Q. ring.
Qed.

Lemma table_step : forall dat d, table_ok dat -> dat (d + 1) = dat d \/ dat (d + 1) = dat d + 1.
Proof. intros dat d H. destruct (H d). lia. Qed.

(* monotone and contracting between two points at most a day apart *)
Lemma G_lip : forall dat x y, table_ok dat ->
  (x <= y)%Q -> (y - x <= (86400000000000 # 1))%Q ->
  (0 <= G dat y - G dat x)%Q /\ (G dat y - G dat x <= (y - x) * (1 # 86400))%Q.
Proof.
  intros dat x y HT Hxy Hd.
  set (e := Qfloor (x / inject_Z DAY)). assert (Hx : in_day e x) by apply in_day_exists.
  set (e' := Qfloor (y / inject_Z DAY)). assert (Hy : in_day e' y) by apply in_day_exists.
  assert (Hee : e' = e \/ e' = e + 1).
  { destruct Hx as [X1 X2]. destruct Hy as [Y1 Y2].
    assert (A : (inject_Z e < inject_Z (e' + 1))%Q) by (rewrite inject_Z_plus; change (inject_Z 1) with 1%Q; lra).
    assert (B : (inject_Z e' < inject_Z (e + 2))%Q) by (rewrite inject_Z_plus; change (inject_Z 2) with 2%Q; lra).
    rewrite <- Zlt_Qlt in A, B. lia. }
  clearbody e e'. destruct (G_day dat e x Hx) as [X0 X1].
  destruct (G_day dat e' y Hy) as [Y0 Y1].
  destruct Hx as [Hx1 Hx2]. destruct Hy as [Hy1 Hy2].
  destruct Hee as [-> | ->].
  - destruct (table_step dat e HT) as [E|E].
    + rewrite (X0 E), (Y0 E). split; lra.
    + rewrite (X1 E), (Y1 E). split; lra.
  - unfold dz in *.
    assert (EE : (inject_Z (e + 1) == inject_Z e + 1)%Q) by (rewrite inject_Z_plus; reflexivity).
    rewrite EE in *.
    destruct (table_step dat e HT) as [E|E], (table_step dat (e + 1) HT) as [E'|E'].
    + rewrite (X0 E), (Y0 E'), E. split; lra.
    + rewrite (X0 E), (Y1 E'), E. split; lra.
    + rewrite (X1 E), (Y0 E'), E.
      assert (E2 : (inject_Z (dat e + 1) == inject_Z (dat e) + 1)%Q) by (rewrite inject_Z_plus; reflexivity).
      rewrite E2. split; lra.
    + rewrite (X1 E), (Y1 E'), E.
      assert (E2 : (inject_Z (dat e + 1) == inject_Z (dat e) + 1)%Q) by (rewrite inject_Z_plus; reflexivity).
      rewrite E2. split; lra.
Qed.

Lemma G_lip_abs : forall dat x y B, table_ok dat ->
  (B <= (86400000000000 # 1))%Q ->
  (- B <= y - x)%Q -> (y - x <= B)%Q ->
  (- (B * (1 # 86400)) <= G dat y - G dat x)%Q /\ (G dat y - G dat x <= B * (1 # 86400))%Q.
Proof.
  intros dat x y B HT HB H1 H2. destruct (Qlt_le_dec x y) as [H|H].
  - destruct (G_lip dat x y HT) as [A1 A2]; [lra|lra|]. split; lra.
  - destruct (G_lip dat y x HT) as [A1 A2]; [lra|lra|]. split; lra.
Qed.

Lemma G_bound : forall dat x, table_ok dat -> (0 <= G dat x)%Q /\ (G dat x <= (1001000000000 # 1))%Q.
Proof.
  intros dat x HT. pose proof (in_day_exists x) as Hx. set (e := Qfloor (x / inject_Z DAY)) in *.
  destruct (G_day dat e x Hx) as [X0 X1]. destruct Hx as [Hx1 Hx2].
  destruct (HT e) as [[T1 T2] _].
  assert (Q1 : (0 <= inject_Z (dat e))%Q) by (change 0%Q with (inject_Z 0); rewrite <- Zle_Qle; exact T1).
  assert (Q2 : (inject_Z (dat e) <= 1000)%Q) by (change 1000%Q with (inject_Z 1000); rewrite <- Zle_Qle; exact T2).
  unfold dz in *.
  destruct (table_step dat e HT) as [E|E]; [rewrite (X0 E)|rewrite (X1 E)]; split; lra.
Qed.

(* taiutc converges to the solution of utctai(x) = tai to within a thousandth of a ns *)
Lemma taiutc_near : forall dat tai x, table_ok dat -> (x == tai - G dat x)%Q ->
  (- (1 # 100) <= erfa_taiutc dat tai - x)%Q /\ (erfa_taiutc dat tai - x <= (1 # 100))%Q.
Proof.
  intros dat tai x HT Hx. rewrite taiutc_G.
  set (b := G dat tai). set (u1 := (tai - b)%Q). set (u2 := (tai - G dat u1)%Q).
  destruct (G_bound dat x HT) as [B1 B2].
  destruct (G_lip_abs dat x tai (1001000000000 # 1) HT) as [L1 L2]; [lra|lra|lra|].
  fold b in L1, L2.
  destruct (G_lip_abs dat x u1 (1001000000000 # 86400) HT) as [M1 M2];
    [lra|unfold u1; lra|unfold u1; lra|].
  destruct (G_lip_abs dat x u2 (1001000000000 # 7464960000) HT) as [N1 N2];
    [lra|unfold u2; lra|unfold u2; lra|].
  unfold u2 in *. split; lra.
Qed.

(* correction computed from UTC on day d, and its relation with noon *)
Lemma utctai_correction : forall dat d n, table_ok dat -> 0 <= n < 86400000000000 ->
  exists k, leap_correction (erfa_utctai dat) d n = k * 1000000000 /\
    ((dat (d + 1) = dat d /\ k = dat d) \/
     (dat (d + 1) = dat d + 1 /\ k = dat d /\ n <= 43200000000000) \/
     (dat (d + 1) = dat d + 1 /\ k = dat d + 1 /\ 43200000000000 <= n)).
Proof.
  intros dat d n HT Hn. unfold leap_correction. cbv zeta.
  set (u := inject_Z (d * DAY + n)).
  assert (Hu : (u == inject_Z d * (86400000000000 # 1) + inject_Z n)%Q).
  { unfold u. rewrite inject_Z_plus, inject_Z_mult. reflexivity. }
  assert (Qn1 : (0 <= inject_Z n)%Q) by (change 0%Q with (inject_Z 0); rewrite <- Zle_Qle; lia).
  assert (Qn2 : (inject_Z n < (86400000000000 # 1))%Q) by (change (86400000000000 # 1)%Q with (inject_Z 86400000000000); rewrite <- Zlt_Qlt; lia).
  assert (Hd : in_day d u) by (split; rewrite Hu; lra).
  destruct (G_day dat d u Hd) as [G0 G1]. unfold dz in *.
  set (q := ((erfa_utctai dat u - u) / inject_Z 1000000000)%Q).
  assert (Hq : (q == G dat u * (1 # 1000000000))%Q).
  { unfold q. rewrite utctai_G. change (inject_Z 1000000000) with (1000000000 # 1)%Q. field. }
  exists (round_he q). split; [reflexivity|].
  destruct (table_step dat d HT) as [E|E].
  - left. split; [exact E|]. apply round_he_unique; rewrite Hq, (G0 E); lra.
  - right. destruct (round_he_near q) as [N1 N2]. pose proof (G1 E) as GE.
    assert (K1 : (inject_Z (dat d - 1) < inject_Z (round_he q))%Q).
    { unfold Z.sub. rewrite inject_Z_plus. change (inject_Z (-(1))) with (-1)%Q. lra. }
    assert (K2 : (inject_Z (round_he q) < inject_Z (dat d + 2))%Q).
    { rewrite inject_Z_plus. change (inject_Z 2) with 2%Q. lra. }
    rewrite <- Zlt_Qlt in K1, K2.
    assert (K : round_he q = dat d \/ round_he q = dat d + 1) by lia.
    destruct K as [K|K]; rewrite K in *; [left|right]; (split; [exact E|split; [reflexivity|]]).
    + rewrite Zle_Qle. change (inject_Z 43200000000000) with (43200000000000 # 1)%Q. lra.
    + rewrite inject_Z_plus in N1, N2. change (inject_Z 1) with 1%Q in *.
      rewrite Zle_Qle. change (inject_Z 43200000000000) with (43200000000000 # 1)%Q. lra.
Qed.

Lemma taiutc_correction : forall dat d n d' n' k, table_ok dat -> 0 <= n < 86400000000000 ->
  d' * DAY + n' = d * DAY + n + k * 1000000000 ->
  ((dat (d + 1) = dat d /\ k = dat d) \/
   (dat (d + 1) = dat d + 1 /\ k = dat d /\ n <= 43200000000000) \/
   (dat (d + 1) = dat d + 1 /\ k = dat d + 1 /\ 43200000000000 <= n)) ->
  leap_correction (erfa_taiutc dat) d' n' = - (k * 1000000000).
Proof.
  intros dat d n d' n' k HT Hn Hinst Hk. unfold leap_correction. cbv zeta.
  rewrite Hinst. set (tai := inject_Z (d * DAY + n + k * 1000000000)).
  assert (Ht : (tai == inject_Z d * (86400000000000 # 1) + inject_Z n + inject_Z k * (1000000000 # 1))%Q).
  { unfold tai. rewrite !inject_Z_plus, !inject_Z_mult. reflexivity. }
  assert (Qn1 : (0 <= inject_Z n)%Q) by (change 0%Q with (inject_Z 0); rewrite <- Zle_Qle; lia).
  assert (Qn2 : (inject_Z n < (86400000000000 # 1))%Q) by (change (86400000000000 # 1)%Q with (inject_Z 86400000000000); rewrite <- Zlt_Qlt; lia).
  assert (X : exists x, (x == tai - G dat x)%Q /\
     (inject_Z k - (499995 # 1000000) < G dat x * (1 # 1000000000))%Q /\
     (G dat x * (1 # 1000000000) < inject_Z k + (499995 # 1000000))%Q).
  { destruct Hk as [[E ->]|[[E [-> H]]|[E [-> H]]]].
    - set (x := (inject_Z d * (86400000000000 # 1) + inject_Z n)%Q).
      assert (Hd : in_day d x) by (split; unfold x; lra).
      destruct (G_day dat d x Hd) as [G0 _]. unfold dz in *. specialize (G0 E).
      exists x. rewrite G0, Ht. unfold x. split; [ring|]. split; lra.
    - set (x := (inject_Z d * (86400000000000 # 1) + inject_Z n * (86400 # 86401))%Q).
      assert (Hd : in_day d x) by (split; unfold x; lra).
      destruct (G_day dat d x Hd) as [_ G1]. unfold dz in *. specialize (G1 E).
      assert (H' : (inject_Z n <= (43200000000000 # 1))%Q) by (change (43200000000000 # 1)%Q with (inject_Z 43200000000000); rewrite <- Zle_Qle; lia).
      exists x. rewrite G1, Ht. unfold x. split; [lra|]. split; lra.
    - set (x := (inject_Z d * (86400000000000 # 1) + (inject_Z n + (1000000000 # 1)) * (86400 # 86401))%Q).
      assert (Hd : in_day d x) by (split; unfold x; lra).
      destruct (G_day dat d x Hd) as [_ G1]. unfold dz in *. specialize (G1 E).
      assert (H' : ((43200000000000 # 1) <= inject_Z n)%Q) by (change (43200000000000 # 1)%Q with (inject_Z 43200000000000); rewrite <- Zle_Qle; lia).
      exists x. rewrite G1, Ht, inject_Z_plus. change (inject_Z 1) with 1%Q. unfold x.
      split; [lra|]. split; lra. }
  destruct X as [x [X1 [X2 X3]]].
  destruct (taiutc_near dat tai x HT X1) as [N1 N2].
  assert (R : round_he ((erfa_taiutc dat tai - tai) / inject_Z 1000000000) = - k).
  { set (w := erfa_taiutc dat tai) in *.
    assert (Hq : ((w - tai) / inject_Z 1000000000 == (w - tai) * (1 # 1000000000))%Q).
    { change (inject_Z 1000000000) with (1000000000 # 1)%Q. field. }
    apply round_he_unique; rewrite inject_Z_opp; lra. }
  rewrite R. ring.
Qed.

Lemma utc_tai_row : forall E r, table_ok (env_dat E) -> normal r -> sane r ->
  exists r', rescale_row E "utc" "tai" r = Ok r' /\ rescale_row E "tai" "utc" r' = Ok r /\
    normal r' /\ interior r' /\
    exists k, instant r' = instant r + k * 1000000000 /\
      (k = env_dat E (days r) \/
       (k = env_dat E (days r + 1) /\ 43200000000000 <= nanos r)).
Proof.
  intros E r HT Hn Hs.
  destruct (utctai_correction (env_dat E) (days r) (nanos r) HT Hn) as [k [Hk Hc]].
  assert (Bk : 0 <= k <= 1001).
  { destruct (HT (days r)) as [B1 B2]. lia. }
  destruct (shift_row r (k * 1000000000) Hn Hs) as [r' [H1 [H2 [H3 H4]]]]; [lia|].
  exists r'. split.
  { change (add_nanos_row r (leap_correction (erfa_utctai (env_dat E)) (days r) (nanos r)) = Ok r').
    rewrite Hk. exact H1. }
  split.
  { change (add_nanos_row r' (leap_correction (erfa_taiutc (env_dat E)) (days r') (nanos r')) = Ok r).
    rewrite (taiutc_correction (env_dat E) (days r) (nanos r) (days r') (nanos r') k HT Hn).
    - eapply unshift_row; eauto. lia.
    - unfold instant, DAY in *. exact H2.
    - exact Hc. }
  split; [exact H3|]. split; [exact H4|].
  exists k. split; [exact H2|]. destruct Hc as [[A ->]|[[A [-> B]]|[A [-> B]]]].
  - left; reflexivity.
  - left; reflexivity.
  - right. split; [lia|exact B].
Qed.

(* ---- table-level statements ---------------------------------------------- *)
Lemma Forall2_In_l : forall {A B} (P : A -> B -> Prop) l m x,
  Forall2 P l m -> In x l -> exists y, In y m /\ P x y.
Proof.
  intros A B P l m x H. induction H as [|a b l' m' Hab H IH]; intros Hin; [destruct Hin|].
  destruct Hin as [->|Hin]; [exists b; split; [left; reflexivity|exact Hab]|].
  destruct (IH Hin) as [y [Hy HP]]. exists y. split; [right; exact Hy|exact HP].
Qed.

Lemma mapM_Forall2 : forall {A B} (f : A -> result B) l m,
  Forall2 (fun x y => f x = Ok y) l m -> mapM f l = Ok m.
Proof. intros A B f l m H. induction H; simpl; [reflexivity|]. rewrite H. simpl. rewrite IHForall2. reflexivity. Qed.

Lemma Forall2_flip' : forall {A B} (P : A -> B -> Prop) l m,
  Forall2 P l m -> Forall2 (fun y x => P x y) m l.
Proof. intros A B P l m H. induction H; constructor; auto. Qed.

Lemma Forall2_impl' : forall {A B} (P Q : A -> B -> Prop) l m,
  (forall x y, P x y -> Q x y) -> Forall2 P l m -> Forall2 Q l m.
Proof. intros A B P Q l m HI H. induction H; constructor; auto. Qed.

Lemma round_trip_lift : forall E t src dst (P : row -> row -> Prop),
  scale t = src -> String.eqb src dst = false -> String.eqb dst src = false ->
  String.eqb src "ut1" = false -> String.eqb dst "ut1" = false ->
  supported src dst = true -> supported dst src = true ->
  (forall r, In r (rows t) -> exists r', rescale_row E src dst r = Ok r' /\
      rescale_row E dst src r' = Ok r /\ P r r') ->
  exists t', rescale E t dst = Ok t' /\ scale t' = dst /\ Forall2 P (rows t) (rows t') /\
    rescale E t' src = Ok t.
Proof.
  intros E t src dst P Hs A1 A2 A3 A4 A5 A6 H.
  destruct (rescale_lift E t src dst (fun r r' => rescale_row E dst src r' = Ok r /\ P r r')) as [rs [R1 R2]]; auto.
  exists (mkts dst rs). split; [exact R1|]. split; [reflexivity|]. split.
  - eapply Forall2_impl'; [|exact R2]. simpl. tauto.
  - unfold rescale. simpl. rewrite A2, A3, A4. simpl. rewrite A6.
    rewrite (mapM_Forall2 (rescale_row E dst src) rs (rows t)).
    + simpl. destruct t; simpl in *; subst. reflexivity.
    + apply Forall2_flip'. eapply Forall2_impl'; [|exact R2]. simpl. tauto.
Qed.

Lemma rescale_tai_tt : forall E t, scale t = "tai"%string ->
  Forall normal (rows t) -> Forall sane (rows t) ->
  exists t', rescale E t "tt" = Ok t' /\ scale t' = "tt"%string /\
    Forall2 (fun r r' => instant r' = instant r + 32184000000 /\ normal r') (rows t) (rows t') /\
    rescale E t' "tai" = Ok t.
Proof.
  intros E t Hs Hn Hsa. apply round_trip_lift with (src := "tai"%string); try reflexivity; auto.
  intros r Hr. rewrite Forall_forall in *.
  destruct (tai_tt_row E r) as [r' [H1 [[H2 [H3 _]] H4]]]; auto. exists r'. auto.
Qed.

Lemma rescale_tt_tai : forall E t, scale t = "tt"%string ->
  Forall normal (rows t) -> Forall sane (rows t) ->
  exists t', rescale E t "tai" = Ok t' /\ scale t' = "tai"%string /\
    Forall2 (fun r r' => instant r' = instant r - 32184000000 /\ normal r') (rows t) (rows t') /\
    rescale E t' "tt" = Ok t.
Proof.
  intros E t Hs Hn Hsa. apply round_trip_lift with (src := "tt"%string); try reflexivity; auto.
  intros r Hr. rewrite Forall_forall in *.
  destruct (tt_tai_row E r) as [r' [H1 [[H2 [H3 _]] H4]]]; auto. exists r'.
  repeat split; auto; try apply H3.
Qed.

Lemma rescale_utc_tai : forall E t, table_ok (env_dat E) -> scale t = "utc"%string ->
  Forall normal (rows t) -> Forall sane (rows t) ->
  exists t', rescale E t "tai" = Ok t' /\ scale t' = "tai"%string /\
    Forall2 (fun r r' => normal r' /\ exists k, instant r' = instant r + k * 1000000000 /\
       (k = env_dat E (days r) \/
        (k = env_dat E (days r + 1) /\ 43200000000000 <= nanos r))) (rows t) (rows t') /\
    rescale E t' "utc" = Ok t.
Proof.
  intros E t HT Hs Hn Hsa. apply round_trip_lift with (src := "utc"%string); try reflexivity; auto.
  intros r Hr. rewrite Forall_forall in *.
  destruct (utc_tai_row E r HT) as [r' [H1 [H2 [H3 [H4 H5]]]]]; auto. exists r'. auto.
Qed.

(* ---- composition ---------------------------------------------------------- *)
(* instant-determined TT->TDB correction, as the exact formula is *)
Definition tdb_by_instant (E : time_env) : Prop :=
  forall d n d' n', d * 86400000000000 + n = d' * 86400000000000 + n' -> env_tdb E d n = env_tdb E d' n'.
Definition tdb_small (E : time_env) : Prop :=
  forall d n, - 2000000 <= env_tdb E d n <= 2000000.
(* over an interval of at most 2 ms the correction changes by at most one ns *)
Definition tdb_slow (E : time_env) : Prop :=
  forall d n m, - 2000000 <= m - n <= 2000000 -> - 1 <= env_tdb E d m - env_tdb E d n <= 1.

Lemma leap_by_instant : forall conv d n d' n',
  d * DAY + n = d' * DAY + n' -> leap_correction conv d n = leap_correction conv d' n'.
Proof. intros conv d n d' n' H. unfold leap_correction. rewrite H. reflexivity. Qed.

Lemma utctai_bound : forall dat d n, table_ok dat -> 0 <= n < 86400000000000 ->
  0 <= leap_correction (erfa_utctai dat) d n <= 1001000000000.
Proof.
  intros dat d n HT Hn. destruct (utctai_correction dat d n HT Hn) as [k [Hk Hc]].
  destruct (HT d). rewrite Hk. lia.
Qed.

Lemma taiutc_bound : forall dat d n, table_ok dat ->
  -1002000000000 <= leap_correction (erfa_taiutc dat) d n <= 1000000000.
Proof.
  intros dat d n HT. unfold leap_correction. cbv zeta. set (tai := inject_Z _).
  set (q := ((erfa_taiutc dat tai - tai) / inject_Z 1000000000)%Q).
  assert (Hq : (q == - (G dat (tai - G dat (tai - G dat tai))) * (1 # 1000000000))%Q).
  { unfold q. rewrite taiutc_G. change (inject_Z 1000000000) with (1000000000 # 1)%Q. field. }
  destruct (G_bound dat (tai - G dat (tai - G dat tai)) HT) as [B1 B2].
  destruct (round_he_near q) as [N1 N2].
  assert (K1 : (inject_Z (-1002) <= inject_Z (round_he q))%Q) by (change (inject_Z (-1002)) with (-1002)%Q; lra).
  assert (K2 : (inject_Z (round_he q) <= inject_Z 1)%Q) by (change (inject_Z 1) with 1%Q; lra).
  rewrite <- Zle_Qle in K1, K2. lia.
Qed.

(* the scale triples for which converting in two steps is the same as in one *)
Inductive composes : string -> string -> string -> Prop :=
| c1 : composes "utc" "tai" "tt" | c2 : composes "utc" "tai" "tdb"
| c3 : composes "utc" "tt" "tdb" | c4 : composes "utc" "tt" "tai"
| c5 : composes "tai" "tt" "tdb" | c6 : composes "tt" "tai" "tdb"
| c7 : composes "tdb" "tt" "tai" | c8 : composes "tdb" "tai" "tt"
| c9 : composes "tdb" "tai" "utc".

Lemma two_steps : forall r c c1 c2 r1, normal r -> sane r ->
  - 86400000000000 <= c1 < 86400000000000 -> add_nanos_row r c1 = Ok r1 ->
  c = c1 + c2 -> - 86400000000000 <= c < 86400000000000 -> - 86400000000000 <= c2 < 86400000000000 ->
  add_nanos_row r c = add_nanos_row r1 c2.
Proof.
  intros r c c1 c2 r1 Hn Hs Hc1 H1 -> Hc Hc2.
  destruct (shift_row r c1 Hn Hs Hc1) as [x [X1 [X2 [X3 X4]]]]. rewrite X1 in H1. injection H1 as <-.
  destruct (shift_row r (c1 + c2) Hn Hs Hc) as [y [Y1 [Y2 [Y3 Y4]]]].
  destruct (add_nanos_row_exact x c2 X3 X4 Hc2) as [z [Z1 [Z2 Z3]]].
  rewrite Y1, Z1. f_equal. apply instant_inj; auto. lia.
Qed.

Lemma compose_row : forall E a b c r, composes a b c ->
  table_ok (env_dat E) -> tdb_by_instant E -> tdb_small E -> normal r -> sane r ->
  exists r1 r2, rescale_row E a b r = Ok r1 /\ rescale_row E b c r1 = Ok r2 /\
    rescale_row E a c r = Ok r2.
Proof.
  intros E a b c r HC HT HI HB Hn Hs.
  assert (Bu := utctai_bound (env_dat E) (days r) (nanos r) HT Hn).
  assert (forall c1 (c2 : row -> Z) c,
     - 86400000000000 <= c1 < 86400000000000 ->
     - 86400000000000 <= c < 86400000000000 ->
     (forall r1, instant r1 = instant r + c1 -> normal r1 ->
        - 86400000000000 <= c2 r1 < 86400000000000 /\ c = c1 + c2 r1) ->
     exists r1 r2, add_nanos_row r c1 = Ok r1 /\ add_nanos_row r1 (c2 r1) = Ok r2 /\
       add_nanos_row r c = Ok r2) as K.
  { intros k1 k2 k Hk1 Hk H. destruct (shift_row r k1 Hn Hs Hk1) as [r1 [X1 [X2 [X3 X4]]]].
    destruct (H r1 X2 X3) as [Hk2 He].
    destruct (shift_row r k Hn Hs Hk) as [r2 [Y1 [Y2 [Y3 Y4]]]].
    exists r1, r2. split; [exact X1|]. split; [|exact Y1].
    rewrite <- Y1. symmetry. apply (two_steps r k k1 (k2 r1) r1); auto. }
  destruct HC; unfold rescale_row, correction; simpl.
  - (* utc tai tt *)
    apply (K _ (fun _ => TAI_TT)); unfold TAI_TT; try (cbv beta; intros; lia).
  - (* utc tai tdb *)
    pose proof (HB (days r) (nanos r + (leap_correction (erfa_utctai (env_dat E)) (days r) (nanos r) + TAI_TT))) as B.
    apply (K _ (fun r1 => env_tdb E (days r1) (nanos r1 + TAI_TT) + TAI_TT)); unfold TAI_TT in *; try (cbv beta; intros; lia).
    intros r1 H1 H2. pose proof (HB (days r1) (nanos r1 + 32184000000)). split; [lia|].
    rewrite (HI (days r) _ (days r1) (nanos r1 + 32184000000)); [lia|].
    unfold instant in H1. lia.
  - (* utc tt tdb *)
    pose proof (HB (days r) (nanos r + (leap_correction (erfa_utctai (env_dat E)) (days r) (nanos r) + TAI_TT))) as B.
    apply (K _ (fun r1 => env_tdb E (days r1) (nanos r1))); unfold TAI_TT in *; try (cbv beta; intros; lia).
    intros r1 H1 H2. pose proof (HB (days r1) (nanos r1)). split; [lia|].
    rewrite (HI (days r) _ (days r1) (nanos r1)); [lia|].
    unfold instant in H1. lia.
  - (* utc tt tai *)
    apply (K _ (fun _ => - TAI_TT)); unfold TAI_TT; try (cbv beta; intros; lia).
  - (* tai tt tdb *)
    pose proof (HB (days r) (nanos r + TAI_TT)) as B.
    apply (K _ (fun r1 => env_tdb E (days r1) (nanos r1))); unfold TAI_TT in *; try (cbv beta; intros; lia).
    intros r1 H1 H2. pose proof (HB (days r1) (nanos r1)). split; [lia|].
    rewrite (HI (days r) _ (days r1) (nanos r1)); [lia|].
    unfold instant in H1. lia.
  - (* tt tai tdb *)
    pose proof (HB (days r) (nanos r)) as B.
    apply (K _ (fun r1 => env_tdb E (days r1) (nanos r1 + TAI_TT) + TAI_TT)); unfold TAI_TT in *; try (cbv beta; intros; lia).
    intros r1 H1 H2. pose proof (HB (days r1) (nanos r1 + 32184000000)). split; [lia|].
    rewrite (HI (days r) _ (days r1) (nanos r1 + 32184000000)); [lia|].
    unfold instant in H1. lia.
  - (* tdb tt tai *)
    pose proof (HB (days r) (nanos r)) as B.
    apply (K _ (fun _ => - TAI_TT)); unfold TAI_TT; try (cbv beta; intros; lia).
  - (* tdb tai tt *)
    pose proof (HB (days r) (nanos r)) as B.
    apply (K _ (fun _ => TAI_TT)); unfold TAI_TT; try (cbv beta; intros; lia).
  - (* tdb tai utc *)
    pose proof (HB (days r) (nanos r)) as B.
    pose proof (taiutc_bound (env_dat E) (days r) (nanos r + (- env_tdb E (days r) (nanos r) - TAI_TT)) HT) as B'.
    apply (K _ (fun r1 => leap_correction (erfa_taiutc (env_dat E)) (days r1) (nanos r1)));
      unfold TAI_TT in *; try (cbv beta; intros; lia).
    intros r1 H1 H2. pose proof (taiutc_bound (env_dat E) (days r1) (nanos r1) HT). split; [lia|].
    rewrite (leap_by_instant _ (days r) _ (days r1) (nanos r1)); [lia|].
    unfold instant, DAY in *. lia.
Qed.

Lemma compose_table : forall E a b c t, composes a b c -> scale t = a ->
  table_ok (env_dat E) -> tdb_by_instant E -> tdb_small E ->
  Forall normal (rows t) -> Forall sane (rows t) ->
  exists t1 t2, rescale E t b = Ok t1 /\ rescale E t1 c = Ok t2 /\ rescale E t c = Ok t2.
Proof.
  intros E a b c t HC Hs HT HI HB Hn Hsa.
  assert (D : String.eqb a b = false /\ String.eqb b c = false /\ String.eqb a c = false /\
              String.eqb a "ut1" = false /\ String.eqb b "ut1" = false /\ String.eqb c "ut1" = false /\
              supported a b = true /\ supported b c = true /\ supported a c = true)
    by (destruct HC; repeat split; reflexivity).
  destruct D as [D1 [D2 [D3 [D4 [D5 [D6 [D7 [D8 D9]]]]]]]].
  rewrite Forall_forall in *.
  destruct (rescale_lift E t a b (fun r r1 => exists r2, rescale_row E b c r1 = Ok r2 /\ rescale_row E a c r = Ok r2))
    as [rs1 [R1 R2]]; auto.
  { intros r Hr. destruct (compose_row E a b c r) as [r1 [r2 [X1 [X2 X3]]]]; auto. eauto. }
  assert (X : exists rs2, mapM (rescale_row E b c) rs1 = Ok rs2 /\ mapM (rescale_row E a c) (rows t) = Ok rs2).
  { clear -R2. induction R2 as [|r r1 l l1 [r2 [H1 H2]] R IH]; simpl.
    - exists []. auto.
    - destruct IH as [rs2 [I1 I2]]. rewrite H1, H2. simpl. rewrite I1, I2. simpl. eauto. }
  destruct X as [rs2 [X1 X2]].
  exists (mkts b rs1), (mkts c rs2). split; [exact R1|]. unfold rescale. simpl.
  rewrite Hs, D2, D3, D4, D5, D6. simpl. rewrite D8, D9, X1, X2. auto.
Qed.

(* TT -> TDB -> TT within one nanosecond *)
Lemma tt_tdb_tt_row : forall E r, tdb_by_instant E -> tdb_small E -> tdb_slow E -> normal r -> sane r ->
  exists r1 r2, rescale_row E "tt" "tdb" r = Ok r1 /\ rescale_row E "tdb" "tt" r1 = Ok r2 /\
    normal r2 /\ - 1 <= instant r2 - instant r <= 1.
Proof.
  intros E r HI HB HS Hn Hs. unfold rescale_row, correction; simpl.
  pose proof (HB (days r) (nanos r)) as B.
  destruct (shift_row r (env_tdb E (days r) (nanos r)) Hn Hs) as [r1 [X1 [X2 [X3 X4]]]]; [lia|].
  pose proof (HB (days r1) (nanos r1)) as B1.
  destruct (add_nanos_row_exact r1 (- env_tdb E (days r1) (nanos r1)) X3 X4) as [r2 [Y1 [Y2 Y3]]]; [unfold DAY; lia|].
  exists r1, r2. split; [exact X1|]. split; [exact Y1|]. split; [exact Y3|].
  assert (Heq : env_tdb E (days r1) (nanos r1) = env_tdb E (days r) (nanos r + env_tdb E (days r) (nanos r))).
  { apply HI. unfold instant in X2. lia. }
  pose proof (HS (days r) (nanos r) (nanos r + env_tdb E (days r) (nanos r))) as S. lia.
Qed.
