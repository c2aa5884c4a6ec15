(* Proofs about the SPK windows of OemModel. *)
From Coq Require Import String QArith Qround Lqa Lia.
From Verif Require Import Base OemModel OemSpec.
Open Scope Q_scope.

Lemma inj_le : forall k m w, 0 < w -> (k <= m)%Z -> inject_Z k * w <= inject_Z m * w.
Proof. intros k m w W H. apply Qmult_le_compat_r; [rewrite <- Zle_Qle; auto|lra]. Qed.
Lemma inj_S : forall k w, inject_Z (k + 1) * w == inject_Z k * w + w.
Proof. intros k w. rewrite inject_Z_plus. ring. Qed.
Lemma mul_lt : forall x y w, 0 < w -> x < y -> x * w < y * w.
Proof. intros. apply Qmult_lt_compat_r; auto. Qed.
Lemma mul_le : forall x y w, 0 < w -> x <= y -> x * w <= y * w.
Proof. intros. apply Qmult_le_compat_r; auto. lra. Qed.
Lemma div_mul : forall x w, 0 < w -> x == x / w * w.
Proof. intros x w W. field. lra. Qed.
Lemma ceil_spec : forall d w, 0 < w -> inject_Z (Qceiling (d / w) - 1) * w < d /\ d <= inject_Z (Qceiling (d / w)) * w.
Proof.
  intros d w W. pose proof (div_mul d w W) as E. split.
  - rewrite E at 2. apply mul_lt; auto. apply Qceiling_lt.
  - rewrite E at 1. apply mul_le; auto. apply Qle_ceiling.
Qed.
Lemma floor_spec : forall d w, 0 < w -> inject_Z (Qfloor (d / w)) * w <= d /\ d < inject_Z (Qfloor (d / w) + 1) * w.
Proof.
  intros d w W. pose proof (div_mul d w W) as E. split.
  - rewrite E at 2. apply mul_le; auto. apply Qfloor_le.
  - rewrite E at 1. apply mul_lt; auto. apply Qlt_floor.
Qed.
Lemma pos_cancel : forall k w d, 0 < w -> 0 <= d -> d < inject_Z k * w -> (0 < k)%Z.
Proof.
  intros k w d W D H. destruct (Z_lt_le_dec 0 k) as [|L]; auto. exfalso.
  pose proof (inj_le k 0 w W L). change (inject_Z 0) with 0 in *. lra.
Qed.

Definition win (lo hi w : Q) (k : nat) : Q * Q := (window_start lo w k, window_end lo hi w k).
Lemma win_end : forall lo hi w k, (window_end lo hi w k == window_start lo w k + w /\ window_start lo w k + w <= hi)
  \/ (window_end lo hi w k == hi /\ hi < window_start lo w k + w).
Proof.
  intros. unfold window_end. cbv zeta. destruct (Qle_bool _ hi) eqn:E.
  - left. apply Qle_bool_iff in E. split; [reflexivity|auto].
  - right. split; [reflexivity|]. destruct (Qlt_le_dec hi (window_start lo w k + w)) as [|L]; auto.
    apply Qle_bool_iff in L. congruence.
Qed.
Lemma win_S : forall lo w k, window_start lo w (S k) == window_start lo w k + w.
Proof.
  intros. unfold window_start. replace (Z.of_nat (S k)) with (Z.of_nat k + 1)%Z by lia. rewrite inj_S. ring.
Qed.

Lemma tiles_eq : forall a a' b ws, a == a' -> tiles a b ws -> tiles a' b ws.
Proof. intros a a' b ws E T. inversion T; subst; [apply tiles_last|eapply tiles_next; eauto]; lra. Qed.

Lemma windows_tile : forall lo hi w n, 0 < w -> lo < hi -> n = Z.to_nat (num_windows lo hi w) ->
  (0 < n)%nat /\ tiles lo hi (map (win lo hi w) (seq 0 n)).
Proof.
  intros lo hi w n W L E. unfold num_windows in E. destruct (ceil_spec (hi - lo) w W) as [C1 C2].
  set (c := Qceiling ((hi - lo) / w)) in *.
  assert (Pc : (0 < c)%Z).
  { apply (pos_cancel (c + 1 - 1) w 0) in W as X; [lia|lra|]. replace (c + 1 - 1)%Z with c by lia. lra. }
  assert (Ec : c = Z.of_nat n) by lia. split; [lia|].
  assert (G : forall m k, (0 < m)%nat -> (k + m = n)%nat -> tiles (window_start lo w k) hi (map (win lo hi w) (seq k m))).
  { induction m as [|m IH]; intros k Pm Hk; [lia|]. cbn [seq map].
    assert (B1 : inject_Z (Z.of_nat k) * w <= inject_Z (c - 1) * w) by (apply inj_le; auto; lia).
    destruct m as [|m].
    - cbn [seq map]. apply tiles_last; [reflexivity| |unfold window_start; lra].
      destruct (win_end lo hi w k) as [[H1 H2]|[H1 H2]]; auto. rewrite H1.
      assert (window_start lo w k + w == lo + inject_Z c * w).
      { rewrite <- win_S. unfold window_start. replace (Z.of_nat (S k)) with c by lia. reflexivity. }
      lra.
    - apply tiles_next with (m := window_start lo w (S k)); [reflexivity| | |apply IH; lia].
      + rewrite win_S. destruct (win_end lo hi w k) as [[H1 H2]|[H1 H2]]; [exact H1|exfalso].
        assert (B2 : inject_Z (Z.of_nat (S k)) * w <= inject_Z (c - 1) * w) by (apply inj_le; auto; lia).
        rewrite <- win_S in H2. unfold window_start in H2. lra.
      + rewrite win_S. lra. }
  eapply tiles_eq; [|apply (G n 0%nat); lia]. unfold window_start. cbn. ring.
Qed.

Lemma record_covers : forall lo hi w n t, 0 < w -> lo < hi -> n = Z.to_nat (num_windows lo hi w) -> lo <= t -> t <= hi ->
  exists k, nth_error (map (win lo hi w) (seq 0 n)) (Z.to_nat (record_for lo w (Z.of_nat n) t)) = Some (win lo hi w k) /\
    Z.of_nat k = record_for lo w (Z.of_nat n) t /\ window_start lo w k <= t /\ t <= window_end lo hi w k.
Proof.
  intros lo hi w n t W L E T1 T2. destruct (windows_tile lo hi w n W L E) as [Pn _].
  unfold num_windows in E. destruct (ceil_spec (hi - lo) w W) as [C1 C2].
  set (c := Qceiling ((hi - lo) / w)) in *. assert (Ec : c = Z.of_nat n) by lia.
  unfold record_for. destruct (floor_spec (t - lo) w W) as [F1 F2]. set (j := Qfloor ((t - lo) / w)) in *.
  assert (Pj : (0 <= j)%Z). { apply (pos_cancel (j + 1) w (t - lo)) in W as X; [lia|lra|auto]. }
  set (r := Z.min j (Z.of_nat n - 1)). assert (Hr : (0 <= r < Z.of_nat n)%Z) by lia.
  exists (Z.to_nat r). assert (Er : Z.of_nat (Z.to_nat r) = r) by lia.
  split; [|split; [auto|]].
  - rewrite nth_error_map. assert (N : nth_error (seq 0 n) (Z.to_nat r) = Some (Z.to_nat r)).
    { rewrite (nth_error_nth' _ 0%nat); [rewrite seq_nth; [reflexivity|lia]|rewrite seq_length; lia]. }
    rewrite N. reflexivity.
  - assert (A : inject_Z r * w <= inject_Z j * w) by (apply inj_le; auto; lia).
    split; [unfold window_start; rewrite Er; lra|].
    destruct (win_end lo hi w (Z.to_nat r)) as [[H1 H2]|[H1 H2]]; rewrite H1; [|auto].
    rewrite <- win_S. unfold window_start. replace (Z.of_nat (S (Z.to_nat r))) with (r + 1)%Z by lia.
    destruct (Z_lt_le_dec j (Z.of_nat n - 1)) as [X|X].
    + replace (r + 1)%Z with (j + 1)%Z by lia. lra.
    + replace (r + 1)%Z with c by lia. lra.
Qed.

Lemma scaled_read : forall lo hi w k t, 0 < w -> window_start lo w k + w <= hi ->
  scaled (window_start lo w k) (window_end lo hi w k) t == read_scaled lo w k t.
Proof.
  intros lo hi w k t W H. destruct (win_end lo hi w k) as [[H1 _]|[_ H2]]; [|lra].
  unfold scaled, read_scaled. rewrite H1. unfold window_start. field. lra.
Qed.
Lemma scaled_unread : forall lo hi w k t, 0 < w -> window_start lo w k < hi -> hi < window_start lo w k + w ->
  window_start lo w k < t -> ~ scaled (window_start lo w k) (window_end lo hi w k) t == read_scaled lo w k t.
Proof.
  intros lo hi w k t W A B T E. destruct (win_end lo hi w k) as [[_ H1]|[H1 _]]; [lra|].
  unfold scaled, read_scaled in E. rewrite H1 in E.
  assert (Ew : lo + w * (inject_Z (Z.of_nat k) + (1 # 2)) == window_start lo w k + w / 2) by (unfold window_start; field).
  rewrite Ew in E. set (a := window_start lo w k) in *. clearbody a.
  assert (X : 2 * (t - a) / (hi - a) == 2 * (t - a) / w).
  { assert (X1 : (t - (hi + a) / 2) / ((hi - a) / 2) == 2 * (t - a) / (hi - a) - 1) by (field; lra).
    assert (X2 : (t - (a + w / 2)) / (w / 2) == 2 * (t - a) / w - 1) by (field; lra).
    rewrite X1, X2 in E. lra. }
  assert (Y : 2 * (t - a) / (hi - a) * (hi - a) * w == 2 * (t - a) / w * (hi - a) * w) by (rewrite X; reflexivity).
  assert (Y1 : 2 * (t - a) / (hi - a) * (hi - a) * w == 2 * (t - a) * w) by (field; lra).
  assert (Y2 : 2 * (t - a) / w * (hi - a) * w == 2 * (t - a) * (hi - a)) by (field; lra).
  rewrite Y1, Y2 in Y. assert (Z : (t - a) * (hi - a) < (t - a) * w).
  { rewrite (Qmult_comm (t - a) (hi - a)), (Qmult_comm (t - a) w). apply mul_lt; lra. }
  lra.
Qed.

(* the last window is partial unless w divides the span *)
Lemma last_partial : forall lo hi w, 0 < w -> lo < hi -> (forall m : Z, ~ hi - lo == inject_Z m * w) ->
  exists k, (k < Z.to_nat (num_windows lo hi w))%nat /\ window_start lo w k < hi /\ hi < window_start lo w k + w.
Proof.
  intros lo hi w W L N. destruct (windows_tile lo hi w _ W L eq_refl) as [Pn _]. unfold num_windows in *.
  destruct (ceil_spec (hi - lo) w W) as [C1 C2]. set (c := Qceiling ((hi - lo) / w)) in *.
  exists (Z.to_nat (c - 1)). assert (E : Z.of_nat (Z.to_nat (c - 1)) = (c - 1)%Z) by lia. split; [lia|].
  split; [unfold window_start; rewrite E; lra|]. rewrite <- win_S. unfold window_start.
  replace (Z.of_nat (S (Z.to_nat (c - 1)))) with c by lia. specialize (N c).
  destruct (Qlt_le_dec (hi - lo) (inject_Z c * w)) as [X|X]; [lra|exfalso; apply N; lra].
Qed.
Lemma all_full : forall lo hi w m k, 0 < w -> hi - lo == inject_Z m * w -> (k < Z.to_nat (num_windows lo hi w))%nat ->
  window_start lo w k + w <= hi.
Proof.
  intros lo hi w m k W E K. unfold num_windows in K.
  assert (Em : Qceiling ((hi - lo) / w) = m).
  { rewrite <- (Qceiling_Z m). apply Qceiling_comp. rewrite E. field. lra. }
  rewrite Em in K. rewrite <- win_S. unfold window_start.
  assert (X : inject_Z (Z.of_nat (S k)) * w <= inject_Z m * w) by (apply inj_le; auto; lia). lra.
Qed.

(* minimum and maximum *)
Lemma fold_min : forall ts t0, let m := fold_left (fun a b => if Qle_bool a b then a else b) ts t0 in
  In m (t0 :: ts) /\ forall t, In t (t0 :: ts) -> m <= t.
Proof.
  induction ts as [|t ts IH]; intros t0; cbv zeta; cbn [fold_left].
  - split; [left; auto|]. intros t [<-|[]]. lra.
  - destruct (IH (if Qle_bool t0 t then t0 else t)) as [I B]. cbv zeta in *. split.
    + destruct I as [<-|I]; [destruct (Qle_bool t0 t); cbn; auto|cbn; auto].
    + intros u Hu. assert (X : (if Qle_bool t0 t then t0 else t) <= t0 /\ (if Qle_bool t0 t then t0 else t) <= t).
      { destruct (Qle_bool t0 t) eqn:E; [apply Qle_bool_iff in E; lra|]. destruct (Qlt_le_dec t t0); [lra|]. apply Qle_bool_iff in q. congruence. }
      pose proof (B _ (or_introl eq_refl)) as B0. destruct Hu as [<-|[<-|Hu]]; [lra|lra|]. apply B. cbn. auto.
Qed.
Lemma fold_max : forall ts t0, let m := fold_left (fun a b => if Qle_bool a b then b else a) ts t0 in
  In m (t0 :: ts) /\ forall t, In t (t0 :: ts) -> t <= m.
Proof.
  induction ts as [|t ts IH]; intros t0; cbv zeta; cbn [fold_left].
  - split; [left; auto|]. intros t [<-|[]]. lra.
  - destruct (IH (if Qle_bool t0 t then t else t0)) as [I B]. cbv zeta in *. split.
    + destruct I as [<-|I]; [destruct (Qle_bool t0 t); cbn; auto|cbn; auto].
    + intros u Hu. assert (X : t0 <= (if Qle_bool t0 t then t else t0) /\ t <= (if Qle_bool t0 t then t else t0)).
      { destruct (Qle_bool t0 t) eqn:E; [apply Qle_bool_iff in E; lra|]. destruct (Qlt_le_dec t t0); [lra|]. apply Qle_bool_iff in q. congruence. }
      pose proof (B _ (or_introl eq_refl)) as B0. destruct Hu as [<-|[<-|Hu]]; [lra|lra|]. apply B. cbn. auto.
Qed.

Lemma segment_ok : forall times w lo hi ws, 0 < w -> segment times w = Ok (lo, hi, ws) ->
  In lo times /\ In hi times /\ (forall t, In t times -> lo <= t /\ t <= hi) /\ lo < hi /\
  ws = map (win lo hi w) (seq 0 (Z.to_nat (num_windows lo hi w))).
Proof.
  intros times w lo hi ws W H. destruct times as [|t0 ts]; [discriminate|]. unfold segment in H.
  destruct (fold_min ts t0) as [I1 B1]. destruct (fold_max ts t0) as [I2 B2]. cbv zeta in *.
  set (mn := fold_left (fun a b => if Qle_bool a b then a else b) ts t0) in *.
  set (mx := fold_left (fun a b => if Qle_bool a b then b else a) ts t0) in *.
  destruct (Z.to_nat (num_windows mn mx w)) as [|n] eqn:E; [discriminate|].
  assert (L : mn < mx).
  { destruct (Qlt_le_dec mn mx) as [|X]; auto. exfalso. unfold num_windows in E.
    destruct (ceil_spec (mx - mn) w W) as [C1 _]. set (c := Qceiling _) in *.
    assert (P : (0 <= c - 1)%Z) by lia. pose proof (inj_le 0 (c - 1) w W P). change (inject_Z 0) with 0 in *. lra. }
  injection H as <- <- <-. split; auto. split; auto. split; [intros; split; auto|]. split; auto. rewrite E. reflexivity.
Qed.
Lemma segment_err : forall times w, 0 < w -> (exists a b, In a times /\ In b times /\ a < b) -> exists s, segment times w = Ok s.
Proof.
  intros times w W [a [b [Ia [Ib L]]]]. destruct times as [|t0 ts]; [destruct Ia|]. unfold segment.
  destruct (fold_min ts t0) as [I1 B1]. destruct (fold_max ts t0) as [I2 B2]. cbv zeta in *.
  set (mn := fold_left (fun a b => if Qle_bool a b then a else b) ts t0) in *.
  set (mx := fold_left (fun a b => if Qle_bool a b then b else a) ts t0) in *.
  assert (X : mn < mx) by (pose proof (B1 _ Ia); pose proof (B2 _ Ib); lra).
  destruct (windows_tile mn mx w _ W X eq_refl) as [P _]. destruct (Z.to_nat _); [lia|eauto].
Qed.

(* sampled times *)
Lemma samples_ok : forall start stop step, 0 < step -> start <= stop ->
  let m := Qfloor ((stop - start) / step) in
  (0 <= m)%Z /\ sample_times start stop step = Ok (map (fun i => start + inject_Z (Z.of_nat i) * step) (seq 0 (Z.to_nat (m + 1)))).
Proof.
  intros start stop step W L m. unfold sample_times, qtrunc.
  assert (P : 0 <= (stop - start) / step).
  { assert (X : 0 * step <= (stop - start) / step * step) by (rewrite <- div_mul by auto; lra). apply Qmult_le_r in X; auto. }
  rewrite (proj2 (Qle_bool_iff _ _) P). fold m.
  assert (Pm : (0 <= m)%Z). { destruct (floor_spec (stop - start) step W) as [_ F]. fold m in F. apply (pos_cancel (m + 1) step (stop - start)) in W as X; [lia|lra|auto]. }
  split; auto. destruct (Z.to_nat (m + 1)) eqn:E; [lia|]. reflexivity.
Qed.
Lemma sample_In : forall start step n t, In t (map (fun i => start + inject_Z (Z.of_nat i) * step) (seq 0 n)) ->
  0 < step -> exists i, (i < n)%nat /\ t = start + inject_Z (Z.of_nat i) * step.
Proof. intros start step n t H _. apply in_map_iff in H. destruct H as [i [<- Hi]]. apply in_seq in Hi. exists i. split; [lia|auto]. Qed.

Lemma kernel_span : forall start stop step w, 0 < step -> 0 < w -> step <= stop - start ->
  exists times lo hi ws, sample_times start stop step = Ok times /\ segment times w = Ok (lo, hi, ws) /\
    lo == start /\ hi == start + inject_Z (Qfloor ((stop - start) / step)) * step.
Proof.
  intros start stop step w S W L. destruct (samples_ok start stop step S) as [Pm E]; [lra|]. cbv zeta in *.
  destruct (floor_spec (stop - start) step S) as [F1 F2].
  set (m := Qfloor ((stop - start) / step)) in *.
  assert (M1 : (1 <= m)%Z).
  { apply (pos_cancel m step 0) in S as X; [lia|lra|]. rewrite inj_S in F2. lra. }
  set (times := map (fun i : nat => start + inject_Z (Z.of_nat i) * step) (seq 0 (Z.to_nat (m + 1)))) in *.
  assert (I0 : exists a, In a times /\ a == start).
  { exists (start + inject_Z (Z.of_nat 0) * step). split; [apply in_map_iff; exists 0%nat; split; auto; apply in_seq; lia|]. cbn. ring. }
  assert (Im : exists b, In b times /\ b == start + inject_Z m * step).
  { exists (start + inject_Z (Z.of_nat (Z.to_nat m)) * step). split; [apply in_map_iff; exists (Z.to_nat m); split; auto; apply in_seq; lia|].
    rewrite Z2Nat.id by lia. reflexivity. }
  destruct I0 as [a [Ia Ea]]. destruct Im as [b [Ib Eb]].
  destruct (segment_err times w W) as [[[lo hi] ws] Hs].
  { exists a, b. split; auto. split; auto. pose proof (inj_le 1 m step S M1). change (inject_Z 1) with 1 in *. lra. }
  exists times, lo, hi, ws. split; auto. split; auto.
  destruct (segment_ok _ _ _ _ _ W Hs) as [Il [Ih [B _]]].
  destruct (sample_In _ _ _ _ Il S) as [i [Hi Ei]]. destruct (sample_In _ _ _ _ Ih S) as [j [Hj Ej]].
  split.
  - pose proof (proj1 (B _ Ia)) as X. assert (Y : (0 <= Z.of_nat i)%Z) by lia. pose proof (inj_le 0 (Z.of_nat i) step S Y) as Z.
    change (inject_Z 0) with 0 in Z. clear - X Z Ei Ea. subst lo. lra.
  - pose proof (proj2 (B _ Ib)) as X. assert (Y : (Z.of_nat j <= m)%Z) by lia. pose proof (inj_le (Z.of_nat j) m step S Y) as Z.
    clear - X Z Ej Eb. subst hi. lra.
Qed.
