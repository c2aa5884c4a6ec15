From Coq Require Import Reals Lra.
From Coq Require Import List String Bool ZArith Lia Permutation Sorted.
From Verif Require Import Base ListLemmas SchedModel SchedSpec SchedProofs TimeModel SphModel KepModel LightModel FrameModel LambertModel PorkModel PorkSpec.
Import ListNotations.
Open Scope string_scope.
Open Scope list_scope.
Open Scope R_scope.

Lemma mjdR_lt : forall p q, rlt (mjdR p) (mjdR q) = (instant p <? instant q)%Z.
Proof.
  intros p q. unfold rlt, mjdR, instant, DAY.
  assert (E : forall t, IZR (days t) + IZR (nanos t) / IZR 86400000000000 = IZR (days t * 86400000000000 + nanos t) / IZR 86400000000000).
  { intro t. rewrite plus_IZR, mult_IZR. field. }
  rewrite !E. destruct (Z.ltb_spec (days p * 86400000000000 + nanos p) (days q * 86400000000000 + nanos q)) as [L|L]; destruct Rlt_dec as [R|R]; try reflexivity; exfalso.
  - apply R. apply Rmult_lt_compat_r; [apply Rinv_0_lt_compat; lra|]. now apply IZR_lt.
  - apply IZR_le in L. unfold Rdiv in R. apply Rmult_lt_reg_r in R; [lra|]. apply Rinv_0_lt_compat. lra.
Qed.

(* the grid is the filtered product *)
Lemma flat_map_perm_pt {A B} (f g : A -> list B) l : (forall a, Permutation (f a) (g a)) -> Permutation (flat_map f l) (flat_map g l).
Proof. intro H. induction l; cbn; [reflexivity|]. now apply Permutation_app. Qed.
Lemma flat_map_split {A B} (f g : A -> list B) l : Permutation (flat_map (fun a => f a ++ g a) l) (flat_map f l ++ flat_map g l).
Proof.
  induction l; cbn; [reflexivity|]. rewrite IHl. rewrite <- !app_assoc. apply Permutation_app_head. rewrite !app_assoc. apply Permutation_app_tail. apply Permutation_app_comm.
Qed.
Lemma flat_map_nil {A B} (l : list A) : flat_map (fun _ => @nil B) l = [].
Proof. induction l; auto. Qed.
Lemma filter_map_pair d arrs : filter before (map (pair d) arrs) = flat_map (fun a => if before (d, a) then [(d, a)] else []) arrs.
Proof. induction arrs; cbn [map filter flat_map]; [reflexivity|]. destruct (before (d, a)); cbn; now rewrite IHarrs. Qed.
Lemma pairs_prod : forall deps arrs, Permutation (pairs deps arrs) (filter before (list_prod deps arrs)).
Proof.
  unfold pairs. induction deps as [|d ds IH]; intro arrs.
  - cbn. rewrite flat_map_nil. reflexivity.
  - cbn [list_prod]. rewrite filter_app, filter_map_pair, <- IH. rewrite <- flat_map_split. apply flat_map_perm_pt. intro a.
    cbn [filter]. rewrite mjdR_lt. unfold before. cbn [fst snd]. destruct (_ <? _)%Z; reflexivity.
Qed.
Lemma filter_perm {A} (f : A -> bool) l m : Permutation l m -> Permutation (filter f l) (filter f m).
Proof.
  intro H. induction H; cbn [filter].
  - constructor.
  - destruct (f x); [constructor|]; assumption.
  - destruct (f x), (f y); try reflexivity. constructor.
  - etransitivity; eassumption.
Qed.
Lemma pairs_perm d d' a a' : Permutation d d' -> Permutation a a' -> Permutation (pairs d a) (pairs d' a').
Proof.
  intros D A. unfold pairs. rewrite (Permutation_flat_map _ A). apply flat_map_perm_pt. intro x. apply Permutation_map. now apply filter_perm.
Qed.

(* the waiting loop *)
Lemma submit_gt_ok {A} pick P : forall (tasks : list A) k pending done,
  let '(_, p', d') := submit_gt pick P k pending done tasks in Permutation (d' ++ p') (done ++ pending ++ tasks).
Proof.
  induction tasks as [|t ts IH]; intros k pending done; cbn [submit_gt]; [now rewrite app_nil_r|].
  set (p := pending ++ [t]). destruct (_ <? _)%Z.
  - destruct (wait_some pick k p) as (x & r & E & Pm & _); [unfold p; destruct pending; discriminate|]. rewrite E.
    specialize (IH (Datatypes.S k) r (done ++ [x])). destruct submit_gt as [[k' p'] d']. rewrite IH. rewrite <- !app_assoc. cbn [app].
    apply Permutation_app_head. change (x :: r ++ ts) with ((x :: r) ++ ts). rewrite Pm. unfold p. now rewrite <- app_assoc.
  - specialize (IH k p done). destruct submit_gt as [[k' p'] d']. rewrite IH. unfold p. now rewrite <- !app_assoc.
Qed.
Lemma window_gt_perm {A} pick P (tasks : list A) : Permutation (window_gt pick P tasks) tasks.
Proof.
  unfold window_gt. pose proof (submit_gt_ok pick P tasks 0 [] []) as H. destruct submit_gt as [[k p] d]. cbn [app] in H. rewrite <- H.
  apply Permutation_app_head. now apply drain_perm.
Qed.

Section G.
Variable mu : string -> result R.
Variables (o : string) (m : R) (pro : bool) (n : nat) (tol : R).
Hypothesis mu_ok : mu o = Ok m.
(* one row of the answer *)
Definition row_for (p : orb * orb) : transfer :=
  mktransfer (fst p) (snd p)
    (izzo_lambert (b_pos (fst p)) (b_pos (snd p)) (flight_time (fst p) (snd p)) m (mkopt 0 pro true n tol tol)) o.
Lemma worker_ok ps : worker mu o pro n tol ps = Ok (map row_for ps).
Proof.
  unfold worker. rewrite mu_ok. cbn [bind]. unfold solve_lambert. rewrite !map_length, Nat.eqb_refl. cbn [andb bind]. f_equal.
  induction ps as [|p r IH]; [reflexivity|]. cbn [map combine]. f_equal. exact IH.
Qed.
Lemma chunks_rows chunks : mapM (worker mu o pro n tol) chunks = Ok (map (map row_for) chunks).
Proof. induction chunks as [|c r IH]; [reflexivity|]. cbn [mapM map]. rewrite worker_ok. cbn [bind]. rewrite IH. reflexivity. Qed.

Lemma generate_rows : forall pick mp deps arrs s, generate mu pick mp deps arrs o pro n tol = Ok s ->
  Permutation (s_rows s) (map row_for (pairs (sort time_leb (t_rows deps)) (sort time_leb (t_rows arrs)))) /\
  ((mp <= 1)%Z -> s_rows s = map row_for (pairs (sort time_leb (t_rows deps)) (sort time_leb (t_rows arrs)))) /\
  (s_rows s <> [] -> s_frame s = t_frame deps /\ s_dep_scale s = t_scale deps /\ s_arr_scale s = t_scale arrs) /\
  t_frame deps = t_frame arrs /\ exists c, origin_of (t_rows deps) = Some c /\ origin_of (t_rows arrs) = Some c.
Proof.
  intros pick mp deps arrs s H. unfold generate in H. destruct (String.eqb_spec (t_frame deps) (t_frame arrs)) as [F|]; [|discriminate]. cbn [negb] in H.
  destruct (origin_of (t_rows deps)) as [o1|]; [|discriminate]. destruct (origin_of (t_rows arrs)) as [o2|]; [|discriminate].
  destruct (String.eqb_spec o1 o2) as [EO|]; [subst o2|discriminate]. cbn [negb] in H.
  assert (T : t_frame deps = t_frame arrs /\ exists c, Some o1 = Some c /\ Some o1 = Some c) by (split; [exact F|exists o1; auto]).
  set (ps := pairs _ _) in *. destruct ps as [|p0 pr] eqn:Eps.
  - injection H as <-. cbn. repeat split; auto; try congruence. exact (proj2 T).
  - destruct (Z.ltb_spec 1 mp) as [M|M].
    + destruct (tiles_ok (p0 :: pr) 100 ltac:(lia)) as (chunks & Ec & (Cc & _)). rewrite Ec in H. cbn [bind] in H.
      rewrite chunks_rows in H. cbn [bind] in H. injection H as <-. cbn [s_rows s_frame s_dep_scale s_arr_scale]. split; [|split; [lia|split; [auto|exact T]]].
      rewrite <- Cc. rewrite concat_map. apply Permutation_concat, Permutation_map, window_gt_perm.
    + rewrite worker_ok in H. cbn [bind] in H. injection H as <-. cbn [s_rows s_frame s_dep_scale s_arr_scale]. repeat split; auto. exact (proj2 T).
Qed.
Lemma generate_succeeds : forall pick mp deps arrs c, t_frame deps = t_frame arrs -> all_from c (t_rows deps) -> all_from c (t_rows arrs) ->
  exists s, generate mu pick mp deps arrs o pro n tol = Ok s.
Proof.
  intros pick mp deps arrs c F [D1 D2] [A1 A2]. unfold generate. rewrite F, String.eqb_refl. cbn [negb].
  assert (U : forall l, l <> [] -> Forall (fun b => b_origin b = c) l -> origin_of l = Some c).
  { intros l N H. unfold origin_of. assert (uniq String.eqb (map b_origin l) = [c]) as ->; [|reflexivity].
    assert (G : forall k, Forall (fun b => b_origin b = c) k -> map b_origin k = repeat c (List.length k)).
    { induction 1; cbn; [reflexivity|]. now f_equal. }
    rewrite (G l H). destruct l as [|x r]; [congruence|]. cbn [List.length repeat].
    pose proof (uniq_NoDup String.eqb String.eqb_eq) as ND. pose proof (uniq_In String.eqb String.eqb_eq) as IN.
    specialize (ND (c :: repeat c (List.length r))). specialize (IN (c :: repeat c (List.length r))).
    destruct (uniq String.eqb (c :: repeat c (List.length r))) as [|y z] eqn:E.
    - destruct (IN c) as [_ I]. destruct I. left. reflexivity.
    - assert (Y : forall q, In q (y :: z) -> q = c). { intros q Q. apply IN in Q. destruct Q as [Q|Q]; [auto|]. now apply repeat_spec in Q. }
      rewrite (Y y) by (left; auto). f_equal. destruct z as [|w z]; [reflexivity|]. inversion ND as [|? ? NI _]. exfalso. apply NI. rewrite (Y y) by (left; auto). rewrite <- (Y w) by (right; left; auto). left. reflexivity. }
  rewrite (U _ D1 D2), (U _ A1 A2), String.eqb_refl. cbn [negb]. destruct (pairs _ _) as [|p0 pr]; [eauto|].
  destruct (1 <? mp)%Z.
  - destruct (tiles_ok (p0 :: pr) 100 ltac:(lia)) as (chunks & Ec & _). rewrite Ec. cbn [bind]. rewrite chunks_rows. cbn [bind]. eauto.
  - rewrite worker_ok. cbn [bind]. eauto.
Qed.
End G.
