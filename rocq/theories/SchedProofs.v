From Verif Require Import Base ListLemmas SchedModel SchedSpec.
From Coq Require Import Lia ZArith Permutation Sorted Arith.
Open Scope Z_scope.
Open Scope list_scope.
Ltac Zify.zify_post_hook ::= Z.div_mod_to_equations.

(* ------------------------------------------------------------ chunks ---- *)
Lemma firstn_plus {A} a b (l : list A) : firstn (a + b) l = firstn a l ++ firstn b (skipn a l).
Proof. revert l; induction a; intros [|x l]; cbn; auto. now rewrite firstn_nil. now rewrite IHa. Qed.
Lemma skipn_plus {A} a b (l : list A) : skipn (a + b) l = skipn b (skipn a l).
Proof. revert l; induction a; intros [|x l]; cbn; auto. now rewrite skipn_nil. Qed.

Definition nch (n cs : Z) : nat := Z.to_nat ((n + cs - 1) / cs).

Lemma range0_pos n cs : 1 <= cs -> range0 n cs = Ok (map (fun k => Z.of_nat k * cs) (seq 0 (nch n cs))).
Proof.
  intros H. unfold range0. destruct (Z.eqb_spec cs 0); [lia|]. destruct (Z.ltb_spec cs 0); [lia|]. reflexivity.
Qed.
Lemma nch_bounds n cs : 0 <= n -> 1 <= cs -> n <= Z.of_nat (nch n cs) * cs < n + cs.
Proof.
  intros Hn Hc. unfold nch. rewrite Z2Nat.id by (apply Z.div_pos; lia).
  pose proof (Z.div_mod (n + cs - 1) cs ltac:(lia)). pose proof (Z.mod_pos_bound (n + cs - 1) cs ltac:(lia)). nia.
Qed.
Lemma slice_chunk {A} (l : list A) k cs : 1 <= cs ->
  slice l (Z.of_nat k * cs) (Z.of_nat k * cs + cs) = firstn (Z.to_nat cs) (skipn (k * Z.to_nat cs) l).
Proof.
  intros H. unfold slice. f_equal. f_equal. lia. f_equal.
  rewrite Z2Nat.inj_mul by lia. now rewrite Nat2Z.id.
Qed.
Definition chunk_list {A} (l : list A) (c k0 m : nat) : list (list A) :=
  map (fun k => firstn c (skipn (k * c) l)) (seq k0 m).
Lemma iterate_chunks_eq {A} (l : list A) cs : 1 <= cs ->
  iterate_chunks l cs = Ok (chunk_list l (Z.to_nat cs) 0 (nch (zlen l) cs)).
Proof.
  intros H. unfold iterate_chunks. rewrite range0_pos by auto. cbn [bind]. f_equal. rewrite map_map.
  apply map_ext. intros k. now apply slice_chunk.
Qed.
Lemma chunk_list_concat {A} (l : list A) c k0 m :
  concat (chunk_list l c k0 m) = firstn (m * c) (skipn (k0 * c) l).
Proof.
  revert k0. induction m as [|m IH]; intros k0; cbn [chunk_list seq map concat]. reflexivity.
  change (map _ (seq (Datatypes.S k0) m)) with (chunk_list l c (Datatypes.S k0) m). rewrite IH.
  replace (Datatypes.S m * c)%nat with (c + m * c)%nat by lia. rewrite firstn_plus. f_equal. f_equal.
  rewrite <- skipn_plus. f_equal. lia.
Qed.
Lemma zlen_nn {A} (l : list A) : 0 <= zlen l. Proof. unfold zlen. lia. Qed.

Lemma tiles_ok {A} (l : list A) cs : 1 <= cs -> exists chunks, iterate_chunks l cs = Ok chunks /\ tiles cs l chunks.
Proof.
  intros H. rewrite iterate_chunks_eq by auto. eexists. split. reflexivity.
  pose proof (nch_bounds (zlen l) cs (zlen_nn l) H) as B. set (m := nch (zlen l) cs) in *. unfold zlen in B.
  assert (Lc : forall k, (k < m)%nat -> zlen (firstn (Z.to_nat cs) (skipn (k * Z.to_nat cs) l)) = Z.min cs (zlen l - Z.of_nat k * cs)).
  { intros k Hk. unfold zlen. rewrite firstn_length, skipn_length. nia. }
  assert (N : forall i c, nth_error (chunk_list l (Z.to_nat cs) 0 m) i = Some c ->
      (i < m)%nat /\ c = firstn (Z.to_nat cs) (skipn (i * Z.to_nat cs) l)).
  { intros i c E. unfold chunk_list in E. rewrite nth_error_map in E.
    destruct (nth_error (seq 0 m) i) eqn:Es; [|discriminate]. injection E as <-.
    assert (Hi : (i < m)%nat) by (rewrite <- (seq_length m 0); apply nth_error_Some; congruence).
    split; auto. rewrite (nth_error_nth' _ 0%nat) in Es by (now rewrite seq_length). rewrite seq_nth in Es by auto. injection Es as <-. reflexivity. }
  split; [|split].
  - rewrite chunk_list_concat. cbn [Nat.mul skipn]. apply firstn_all2. nia.
  - apply Forall_forall. intros c Hc. apply In_nth_error in Hc. destruct Hc as [i Hi]. apply N in Hi. destruct Hi as [Hi ->].
    rewrite Lc by auto. unfold zlen. nia.
  - intros i c E Hi. unfold chunk_list in Hi. rewrite map_length, seq_length in Hi. apply N in E. destruct E as [_ ->].
    rewrite Lc by lia. unfold zlen. nia.
Qed.

Lemma indices_ok {A} (l : list A) cs : 1 <= cs -> exists ixs chunks,
  iterate_chunk_indices l cs = Ok ixs /\ iterate_chunks l cs = Ok chunks /\
  chunks = map (fun p => slice l (fst p) (snd p)) ixs /\
  Forall (fun p => 0 <= fst p < snd p /\ snd p <= zlen l) ixs.
Proof.
  intros H. unfold iterate_chunk_indices, iterate_chunks. rewrite range0_pos by auto. cbn [bind].
  eexists _, _. split. reflexivity. split. reflexivity.
  pose proof (nch_bounds (zlen l) cs (zlen_nn l) H) as B. set (m := nch (zlen l) cs) in *.
  split.
  - rewrite !map_map. apply map_ext_in. intros k Hk. cbn [fst snd]. unfold slice.
    destruct (Z.le_gt_cases (Z.of_nat k * cs + cs) (zlen l)). f_equal; lia.
    rewrite Z.min_r by lia. rewrite !firstn_all2; auto; rewrite skipn_length; unfold zlen in *; lia.
  - rewrite Forall_map, Forall_map. apply Forall_forall. intros k Hk. apply in_seq in Hk. cbn [fst snd]. nia.
Qed.

(* -- padded chunks -- *)
Inductive padded {A} (c : nat) : list (list A) -> list A -> Prop :=
| padded_nil : padded c [] []
| padded_cons : forall ch rest l, l <> [] -> length ch = c ->
    firstn (Nat.min c (length l)) ch = firstn c l -> padded c rest (skipn c l) -> padded c (ch :: rest) l.

Lemma process_eq {A} (pad : A) l cs : 1 <= cs ->
  process_in_chunks pad l cs = Ok (map (fun k => let chunk := firstn (Z.to_nat cs) (skipn (k * Z.to_nat cs) l) in
     if zlen chunk <? cs then pad_to_fixed_size pad chunk cs else chunk) (seq 0 (nch (zlen l) cs))).
Proof.
  intros H. unfold process_in_chunks. rewrite range0_pos by auto. cbn [bind]. f_equal. rewrite map_map.
  apply map_ext. intros k. cbv zeta. now rewrite slice_chunk.
Qed.

Lemma process_padded {A} (pad : A) l cs : 1 <= cs -> exists chunks,
  process_in_chunks pad l cs = Ok chunks /\ padded (Z.to_nat cs) chunks l.
Proof.
  intros H. rewrite process_eq by auto. eexists. split. reflexivity.
  pose proof (nch_bounds (zlen l) cs (zlen_nn l) H) as B. set (m := nch (zlen l) cs) in *. unfold zlen in B.
  set (c := Z.to_nat cs) in *.
  assert (G : forall j k0, (k0 + j = m)%nat ->
    padded c (map (fun k => let chunk := firstn c (skipn (k * c) l) in
      if zlen chunk <? cs then pad_to_fixed_size pad chunk cs else chunk) (seq k0 j)) (skipn (k0 * c) l)).
  { induction j as [|j IH]; intros k0 E; cbn [seq map].
    - rewrite skipn_all2 by nia. constructor.
    - set (rest := skipn (k0 * c) l).
      assert (Lr : (0 < length rest)%nat) by (unfold rest; rewrite skipn_length; nia).
      constructor.
      + intros Z0. rewrite Z0 in Lr. cbn in Lr. lia.
      + cbv zeta. destruct (Z.ltb_spec (zlen (firstn c rest)) cs) as [L|L]; unfold zlen in L; rewrite firstn_length in L.
        * unfold pad_to_fixed_size, zlen. rewrite app_length, repeat_length, firstn_length. lia.
        * rewrite firstn_length. lia.
      + cbv zeta. destruct (Z.ltb_spec (zlen (firstn c rest)) cs) as [L|L]; unfold zlen in L; rewrite firstn_length in L.
        * unfold pad_to_fixed_size. rewrite firstn_app, firstn_length.
          replace (Nat.min c (length rest) - Nat.min c (length rest))%nat with 0%nat by lia.
          rewrite firstn_O, app_nil_r. rewrite firstn_firstn, !firstn_all2; auto; lia.
        * rewrite firstn_firstn. f_equal. lia.
      + unfold rest. rewrite <- skipn_plus. replace (k0 * c + c)%nat with (Datatypes.S k0 * c)%nat by lia.
        apply IH. lia. }
  apply (G m 0%nat). lia.
Qed.

Lemma padded_lengths {A} c chunks (l : list A) : padded c chunks l -> Forall (fun ch => length ch = c) chunks.
Proof. induction 1; constructor; auto. Qed.

Lemma padded_concat {A B} (f : A -> B) c chunks (l : list A) : padded c chunks l ->
  firstn (length l) (concat (map (map f) chunks)) = map f l.
Proof.
  induction 1 as [|ch rest l Hl Lc F P IH]. reflexivity.
  cbn [map concat]. destruct (Nat.le_gt_cases (length l) c) as [Hle|Hgt].
  - rewrite firstn_app, map_length, Lc. replace (length l - c)%nat with 0%nat by lia. rewrite firstn_O, app_nil_r.
    rewrite <- firstn_map_. replace (Nat.min c (length l)) with (length l) in F by lia. rewrite F.
    now rewrite firstn_all2 by lia.
  - replace (Nat.min c (length l)) with c in F by lia.
    rewrite firstn_all2 in F by lia. subst ch.
    replace (length l) with (c + length (skipn c l))%nat by (rewrite skipn_length; lia).
    rewrite firstn_app, map_length, Lc.
    replace (c + length (skipn c l) - c)%nat with (length (skipn c l)) by lia.
    rewrite IH. rewrite firstn_all2 by (rewrite map_length, Lc; lia).
    rewrite <- map_app. now rewrite firstn_skipn.
Qed.

Lemma padded_eval_ok {A B} (pad : A) (f : A -> B) l cs : 1 <= cs -> padded_eval pad f l cs = Ok (map f l).
Proof.
  intros H. unfold padded_eval. destruct (process_padded pad l cs H) as (ch & -> & P). cbn [bind].
  f_equal. eapply padded_concat; eauto.
Qed.

Lemma existsb_app_ {A} (f : A -> bool) l m : existsb f (l ++ m) = (existsb f l || existsb f m)%bool.
Proof. induction l; cbn; auto. now rewrite IHl, orb_assoc. Qed.

Lemma checked_loop_ok {A B} (bi : A -> bool) (f : A -> B) (bo : B -> bool) cs chunks l : 1 <= cs ->
  padded (Z.to_nat cs) chunks l -> forall start,
  checked_loop bi f bo cs chunks start (start + zlen l)
  = if (existsb bi l || existsb bo (map f l))%bool then Err RuntimeError else Ok (map f l).
Proof.
  intros H. induction 1 as [|ch rest l Hl Lc F P IH]; intros start; cbn [checked_loop].
  - unfold zlen. cbn. replace (start + 0) with start by lia. now rewrite Z.eqb_refl.
  - set (c := Z.to_nat cs) in *.
    assert (K : Z.to_nat (Z.min cs (start + zlen l - start)) = Nat.min c (length l)) by (unfold zlen; lia).
    rewrite K, <- firstn_map_, F.
    assert (E : start + zlen l = start + Z.min cs (start + zlen l - start) + zlen (skipn c l)).
    { unfold zlen. rewrite skipn_length. lia. }
    rewrite E at 2. rewrite IH.
    assert (X : existsb bi l = (existsb bi (firstn c l) || existsb bi (skipn c l))%bool).
    { now rewrite <- existsb_app_, firstn_skipn. }
    assert (Y : existsb bo (map f l) = (existsb bo (map f (firstn c l)) || existsb bo (map f (skipn c l)))%bool).
    { now rewrite <- existsb_app_, <- map_app, firstn_skipn. }
    rewrite X, Y. destruct (existsb bi (firstn c l)); cbn [orb]; auto.
    destruct (existsb bo (map f (firstn c l))); cbn [orb]; [now rewrite orb_true_r|].
    destruct (existsb bi (skipn c l) || existsb bo (map f (skipn c l)))%bool; cbn [bind]; auto.
    now rewrite <- map_app, firstn_skipn.
Qed.

Lemma checked_eval_ok {A B} (bi : A -> bool) (f : A -> B) (bo : B -> bool) cs pad l : 1 <= cs ->
  checked_eval bi f bo cs pad l
  = if (existsb bi l || existsb bo (map f l))%bool then Err RuntimeError else Ok (map f l).
Proof.
  intros H. unfold checked_eval. destruct (process_padded pad l cs H) as (ch & -> & P). cbn [bind].
  exact (checked_loop_ok bi f bo cs ch l H P 0).
Qed.

(* ------------------------------------------------------------ 2-body ---- *)
Lemma np_repeat_tile {A B} (os : list A) (ts : list B) :
  combine (np_repeat os (length ts)) (np_tile ts (length os)) = list_prod os ts.
Proof.
  unfold np_repeat, np_tile. induction os as [|o os IH]; cbn [flat_map length repeat concat list_prod]. reflexivity.
  assert (G : forall (l1 l2 : list A) (m1 m2 : list B), length l1 = length m1 -> combine (l1 ++ l2) (m1 ++ m2) = combine l1 m1 ++ combine l2 m2).
  { clear. intros l1 l2 m1. revert l1. induction m1; intros [|x l1] m2 E; cbn in *; try discriminate; auto.
    f_equal. apply IHm1. lia. }
  rewrite G by (apply repeat_length). rewrite IH. f_equal.
  clear. induction ts; cbn; congruence.
Qed.

Section TwoBodyProofs.
  Context {O T S C : Type}.
  Variable bad_orbit : O -> bool.
  Variable prop2 : O -> T -> S.
  Variable bad_state : S -> bool.
  Variable cov : O -> C.
  Variable is_nan : C -> bool.
  Variable nan : C.
  Variable jac : O -> T -> C -> C.
  Variable pad : O * T.
  Hypothesis jac_nan : forall o t c, is_nan c = true -> jac o t c = nan.

  Definition pair_bad (p : O * T) : bool := bad_orbit (fst p) || bad_state (prop2 (fst p) (snd p)).

  Lemma propagate_serial_ok os ts :
    propagate_serial bad_orbit prop2 bad_state cov is_nan nan jac pad os ts
    = if existsb pair_bad (list_prod os ts) then Err RuntimeError
      else Ok (map (fun p => two_body_row prop2 cov jac (fst p) (snd p)) (list_prod os ts)).
  Proof.
    unfold propagate_serial. rewrite np_repeat_tile. rewrite checked_eval_ok by lia.
    assert (E : (existsb (fun p => bad_orbit (fst p)) (list_prod os ts) ||
       existsb bad_state (map (fun p => prop2 (fst p) (snd p)) (list_prod os ts)))%bool = existsb pair_bad (list_prod os ts)).
    { generalize (list_prod os ts) as l. induction l as [|p l IH]; cbn; auto. rewrite <- IH. unfold pair_bad.
      destruct (bad_orbit (fst p)); cbn; auto. destruct (bad_state _); cbn; auto. now rewrite orb_true_r. }
    rewrite E. destruct (existsb pair_bad (list_prod os ts)). reflexivity. cbn [bind]. f_equal.
    assert (Cv : (if forallb (fun o => is_nan (cov o)) os then map (fun _ => nan) (list_prod os ts)
       else map (fun p => jac (fst p) (snd p) (cov (fst p))) (list_prod os ts))
       = map (fun p => jac (fst p) (snd p) (cov (fst p))) (list_prod os ts)).
    { destruct (forallb _ os) eqn:F; auto. rewrite forallb_forall in F. apply map_ext_in. intros [o t] I.
      apply in_prod_iff in I. symmetry. apply jac_nan. apply F. tauto. }
    rewrite Cv. generalize (list_prod os ts) as l. induction l as [|p l IH]; cbn; auto. now rewrite IH.
  Qed.

  Lemma table_prod os ts : map (fun p => two_body_row prop2 cov jac (fst p) (snd p)) (list_prod os ts)
    = two_body_table prop2 cov jac os ts.
  Proof.
    unfold two_body_table. induction os as [|o os IH]; cbn; auto. rewrite map_app, IH. f_equal.
    rewrite map_map. reflexivity.
  Qed.

  Lemma bad_prod os ts : existsb pair_bad (list_prod os ts) = true <-> two_body_bad bad_orbit prop2 bad_state os ts.
  Proof using bad_orbit prop2 bad_state.
    clear. rewrite existsb_exists. unfold two_body_bad, pair_bad. split.
    - intros ([o t] & I & B). apply in_prod_iff in I. apply orb_true_iff in B. exists o, t. cbn in B. tauto.
    - intros (o & t & Io & It & B). exists (o, t). split. apply in_prod_iff; auto. apply orb_true_iff. exact B.
  Qed.
End TwoBodyProofs.

(* ------------------------------------------------------------ window ---- *)
Section WindowProofs.
  Context {A : Type} (pick : nat -> nat).

  Lemma take_at_perm i : forall (l : list A) x r, take_at i l = Some (x, r) -> Permutation (x :: r) l.
  Proof.
    induction i as [|i IH]; intros [|y l] x r; cbn; try discriminate.
    - intros [= -> ->]. reflexivity.
    - destruct (take_at i l) as [[z r']|] eqn:E; try discriminate. intros [= -> <-].
      rewrite perm_swap. constructor. auto.
  Qed.
  Lemma take_at_some i : forall l : list A, (i < length l)%nat -> exists x r, take_at i l = Some (x, r).
  Proof.
    induction i as [|i IH]; intros [|y l]; cbn; try lia; intros H. eauto.
    destruct (IH l) as (x & r & ->). lia. eauto.
  Qed.
  Lemma wait_some k (p : list A) : p <> [] -> exists x r, wait_one pick k p = Some (x, r) /\
    Permutation (x :: r) p /\ length p = Datatypes.S (length r).
  Proof.
    intros H. assert (L : (0 < length p)%nat) by (destruct p; cbn in *; [congruence|lia]).
    destruct (take_at_some (pick k mod length p) p) as (x & r & E). apply Nat.mod_upper_bound. lia.
    exists x, r. split. exact E. apply take_at_perm in E. split; auto. apply Permutation_length in E. cbn in E. lia.
  Qed.

  Lemma drain_perm n : forall k (p : list A), length p = n -> Permutation (drain pick n k p) p.
  Proof.
    induction n as [|n IH]; intros k p L; cbn [drain].
    - destruct p; [reflexivity|discriminate].
    - destruct (wait_some k p) as (x & r & E & Pm & Lr). intros ->; discriminate.
      rewrite E. rewrite <- Pm. constructor. apply IH. lia.
  Qed.

  Lemma submit_ok P : 1 <= P -> forall tasks k (pending done : list A) fl,
    2 * zlen pending < 3 * P ->
    let '(k', p', d', fl') := submit pick P k pending done fl tasks in
    Permutation (d' ++ p') (done ++ pending ++ tasks) /\
    exists new, fl' = fl ++ new /\ length new = length tasks /\ Forall (fun n => Z.of_nat n <= (3 * P + 1) / 2) new.
  Proof.
    intros HP. induction tasks as [|t ts IH]; intros k pending done fl I; cbn [submit].
    - split. now rewrite app_nil_r. exists []. rewrite app_nil_r. repeat split; auto.
    - set (p := pending ++ [t]).
      assert (Lp : zlen p = zlen pending + 1) by (unfold zlen, p; rewrite app_length; cbn; lia).
      assert (B : Z.of_nat (length p) <= (3 * P + 1) / 2) by (unfold zlen in *; lia).
      destruct (Z.leb_spec (3 * P) (2 * zlen p)) as [W|W].
      + destruct (wait_some k p) as (x & r & E & Pm & Lr). unfold p; destruct pending; discriminate.
        rewrite E.
        assert (I' : 2 * zlen r < 3 * P) by (unfold zlen in *; lia).
        specialize (IH (Datatypes.S k) r (done ++ [x]) (fl ++ [length p]) I').
        destruct (submit pick P (Datatypes.S k) r (done ++ [x]) (fl ++ [length p]) ts) as [[[k' p'] d'] fl'].
        destruct IH as (Pm2 & new & -> & Ln & Fn). split.
        * rewrite Pm2. rewrite <- !app_assoc. cbn [app]. apply Permutation_app_head.
          change (x :: r ++ ts) with ((x :: r) ++ ts). rewrite Pm. unfold p. now rewrite <- app_assoc.
        * exists (length p :: new). rewrite <- app_assoc. repeat split; auto. cbn; lia.
      + assert (I' : 2 * zlen p < 3 * P) by lia.
        specialize (IH k p done (fl ++ [length p]) I').
        destruct (submit pick P k p done (fl ++ [length p]) ts) as [[[k' p'] d'] fl'].
        destruct IH as (Pm2 & new & -> & Ln & Fn). split.
        * rewrite Pm2. unfold p. now rewrite <- !app_assoc.
        * exists (length p :: new). rewrite <- app_assoc. repeat split; auto. cbn; lia.
  Qed.

  Lemma window_ok P (tasks : list A) : 1 <= P ->
    Permutation (fst (window pick P tasks)) tasks /\
    length (snd (window pick P tasks)) = length tasks /\
    Forall (fun n => Z.of_nat n <= (3 * P + 1) / 2) (snd (window pick P tasks)).
  Proof.
    intros HP. unfold window.
    pose proof (submit_ok P HP tasks 0 [] [] []) as H. cbn [zlen] in H.
    destruct (submit pick P 0 [] [] [] tasks) as [[[k p] d] fl]. destruct H as (Pm & new & -> & L & F).
    unfold zlen; cbn [length]; lia. cbn [fst snd app] in *. split; auto. rewrite drain_perm by auto. exact Pm.
  Qed.

  Lemma submit_all_ok (tasks : list A) : Permutation (submit_all pick tasks) tasks.
  Proof. apply drain_perm. reflexivity. Qed.
End WindowProofs.

(* ----------------------------------------------------------- drivers ---- *)
Lemma mapM_all_ok {A B} (f : A -> result B) (g : A -> B) l :
  (forall x, In x l -> f x = Ok (g x)) -> mapM f l = Ok (map g l).
Proof.
  induction l as [|a l IH]; cbn; intros H. reflexivity. rewrite H by now left. cbn. rewrite IH by (intros; apply H; now right). reflexivity.
Qed.
Lemma mapM_some_err {A B} (f : A -> result B) e l :
  (forall x, In x l -> (exists y, f x = Ok y) \/ f x = Err e) -> (exists x, In x l /\ f x = Err e) -> mapM f l = Err e.
Proof.
  induction l as [|a l IH]; cbn; intros H (x & I & E). easy.
  destruct (H a (or_introl eq_refl)) as [[y Hy]|Hy]; rewrite Hy; cbn; auto.
  destruct I as [->|I]; [congruence|]. rewrite IH; eauto.
Qed.

(* a worker that treats its rows one by one *)
Definition rowwise {A B} (worker : list A -> result (list B)) (bad : A -> bool) (g : A -> list B) (e : err) : Prop :=
  forall l, worker l = if existsb bad l then Err e else Ok (flat_map g l).

Lemma Permutation_existsb {A} (f : A -> bool) l m : Permutation l m -> existsb f l = existsb f m.
Proof.
  intros P. destruct (existsb f l) eqn:E.
  - symmetry. apply existsb_exists in E. destruct E as (x & I & F). apply existsb_exists. exists x. split; auto. eapply Permutation_in; eauto.
  - symmetry. destruct (existsb f m) eqn:E'; auto. apply existsb_exists in E'. destruct E' as (x & I & F).
    assert (existsb f l = true). apply existsb_exists. exists x. split; auto. eapply Permutation_in; [symmetry|]; eauto. congruence.
Qed.
Lemma existsb_concat {A} (f : A -> bool) ll : existsb (existsb f) ll = existsb f (concat ll).
Proof. induction ll; cbn; auto. now rewrite existsb_app_, IHll. Qed.
Lemma flat_map_concat_ {A B} (f : A -> list B) ll : concat (map (flat_map f) ll) = flat_map f (concat ll).
Proof. induction ll; cbn; auto. now rewrite flat_map_app, IHll. Qed.

Lemma Permutation_concat {A} (l m : list (list A)) : Permutation l m -> Permutation (concat l) (concat m).
Proof.
  induction 1; cbn; auto. now apply Permutation_app_head. rewrite !app_assoc. apply Permutation_app_tail, Permutation_app_comm.
  etransitivity; eauto.
Qed.

Section ParProofs.
  Context {A B : Type} (worker : list A -> result (list B)) (bad : A -> bool) (g : A -> list B) (e : err).
  Hypothesis RW : rowwise worker bad g e.
  Variable pick : nat -> nat.

  Lemma keyed_tasks_eq (xs : list A) cs : 1 <= cs -> exists chunks, iterate_chunks xs cs = Ok chunks /\
    keyed_tasks xs cs = Ok (combine (map (fun k => Z.of_nat k * cs) (seq 0 (length chunks))) chunks).
  Proof.
    intros H. unfold iterate_chunks, keyed_tasks. rewrite range0_pos by auto. cbn [bind]. eexists. split. reflexivity.
    f_equal. rewrite !map_length, seq_length. set (s := seq 0 (nch (zlen xs) cs)).
    rewrite map_map. clear. induction s as [|k s IH]; cbn; auto. rewrite <- IH. reflexivity.
  Qed.

  Lemma starts_sorted cs m k0 : 1 <= cs -> forall chunks : list (list B), 
    StronglySorted (le (fun a b : Z * list B => fst a <=? fst b)) (combine (map (fun k => Z.of_nat k * cs) (seq k0 m)) chunks).
  Proof.
    intros H. revert k0. induction m as [|m IH]; intros k0 chunks; cbn. constructor.
    destruct chunks as [|c chunks]; constructor. apply IH.
    apply Forall_forall. intros [s r] I. apply in_combine_l in I. apply in_map_iff in I. destruct I as (k & <- & I).
    apply in_seq in I. unfold le. cbn. apply Z.leb_le. nia.
  Qed.

  Lemma par_keyed_ok P cs xs : 1 <= P -> 1 <= cs ->
    par_keyed worker pick P cs xs = if existsb bad xs then Err e else Ok (flat_map g xs).
  Proof.
    intros HP Hc. unfold par_keyed. destruct (keyed_tasks_eq xs cs Hc) as (chunks & It & ->). cbn [bind].
    destruct (tiles_ok xs cs Hc) as (ch' & It' & (Cc & _)). rewrite It in It'. injection It' as <-.
    set (starts := map (fun k => Z.of_nat k * cs) (seq 0 (length chunks))).
    set (tasks := combine starts chunks).
    assert (Ls : length starts = length chunks) by (unfold starts; now rewrite map_length, seq_length).
    assert (St : map snd tasks = chunks).
    { unfold tasks. clear - Ls. clearbody starts. revert chunks Ls. induction starts; intros [|c cs'] L; cbn in *; try discriminate; auto. f_equal. apply IHstarts. lia. }
    destruct (window_ok pick P tasks HP) as (Pm & _).
    set (done := fst (window pick P tasks)) in *.
    set (f := fun t : Z * list A => bind (worker (snd t)) (fun r => Ok (fst t, r))).
    assert (Bd : existsb (fun t : Z * list A => existsb bad (snd t)) done = existsb bad xs).
    { rewrite (Permutation_existsb _ _ _ Pm). rewrite <- Cc, <- existsb_concat, <- St.
      clear. induction tasks; cbn; auto. now rewrite IHtasks. }
    destruct (existsb bad xs) eqn:Ex.
    - rewrite (mapM_some_err f e). reflexivity.
      + intros t _. unfold f. pose proof (RW (snd t)) as Rt. destruct (existsb bad (snd t)); [right|left; eexists]; rewrite Rt; reflexivity.
      + apply existsb_exists in Bd. destruct Bd as (t & I & Bt). exists t. split; auto. unfold f. rewrite RW, Bt. reflexivity.
    - rewrite (mapM_all_ok f (fun t => (fst t, flat_map g (snd t)))).
      2:{ intros t I. unfold f. rewrite RW. destruct (existsb bad (snd t)) eqn:Et; auto.
          assert (existsb (fun t : Z * list A => existsb bad (snd t)) done = true) by (apply existsb_exists; eauto). congruence. }
      cbn [bind]. f_equal.
      set (h := fun t : Z * list A => (fst t, flat_map g (snd t))).
      assert (Sd : StronglySorted (le (fun a b : Z * list B => fst a <=? fst b)) (map h tasks)).
      { assert (map h tasks = combine starts (map (flat_map g) chunks)) as ->.
        { unfold tasks. clear. clearbody starts. revert chunks. induction starts; intros [|c l]; cbn; auto. now rewrite IHstarts. }
        unfold starts. apply starts_sorted. lia. }
      assert (NDs : NoDup starts).
      { unfold starts. apply FinFun.Injective_map_NoDup. intros a b E. nia. apply seq_NoDup. }
      rewrite (sort_perm_eq (fun a b : Z * list B => fst a <=? fst b)) with (m := map h tasks).
      + rewrite sort_sorted_id by exact Sd. rewrite map_map. cbn [snd h].
        rewrite <- (map_map snd (flat_map g)), St, flat_map_concat_. now rewrite Cc.
      + intros x y. unfold le. destruct (Z.leb_spec (fst x) (fst y)), (Z.leb_spec (fst y) (fst x)); auto; lia.
      + intros x y z. unfold le. rewrite !Z.leb_le. lia.
      + intros x y Ix Iy L1 L2. unfold le in *. apply Z.leb_le in L1, L2. assert (Ef : fst x = fst y) by lia.
        apply in_map_iff in Ix, Iy. destruct Ix as (tx & <- & Ix), Iy as (ty & <- & Iy). cbn in Ef.
        assert (Ix' : In tx tasks) by (eapply Permutation_in; eauto).
        assert (Iy' : In ty tasks) by (eapply Permutation_in; eauto).
        assert (Etx : tx = ty).
        { clear St Pm Bd done Sd Ix Iy L1 L2. clear - NDs Ix' Iy' Ef. revert Ix' Iy'. unfold tasks. clear tasks. intros Ix' Iy'. clearbody starts. revert chunks Ix' Iy'. induction starts as [|s l IH]; intros [|c cs'] Ix Iy; cbn in *; try easy.
          inversion NDs as [|? ? N1 N2]; subst.
          destruct Ix as [<-|Ix], Iy as [<-|Iy]; auto.
          - exfalso. apply N1. cbn in Ef. rewrite Ef. destruct ty. eapply in_combine_l; eauto.
          - exfalso. apply N1. cbn in Ef. rewrite <- Ef. destruct tx. eapply in_combine_l; eauto.
          - eapply IH; eauto. }
        now rewrite Etx.
      + now apply Permutation_map.
  Qed.

  Lemma par_unordered_perm P cs xs : 1 <= P -> 1 <= cs -> existsb bad xs = false ->
    serial_chunks worker cs xs = Ok (flat_map g xs) /\
    exists r, par_unordered worker pick P cs xs = Ok r /\ Permutation r (flat_map g xs).
  Proof.
    intros HP Hc Ex. unfold serial_chunks, par_unordered. destruct (tiles_ok xs cs Hc) as (chunks & -> & (Cc & _)). cbn [bind].
    assert (G : forall l, (forall c, In c l -> In c chunks) -> mapM worker l = Ok (map (flat_map g) l)).
    { intros l Hl. apply mapM_all_ok. intros c I. rewrite RW. destruct (existsb bad c) eqn:E; auto.
      assert (existsb bad xs = true). rewrite <- Cc, <- existsb_concat. apply existsb_exists. eauto. congruence. }
    destruct (window_ok pick P chunks HP) as (Pm & _). split.
    - rewrite G by auto. cbn [bind]. now rewrite flat_map_concat_, Cc.
    - rewrite G. 2: intros c I; eapply Permutation_in; eauto.
      cbn [bind]. eexists. split. reflexivity. rewrite flat_map_concat_, <- Cc.
      rewrite !flat_map_concat_map. apply Permutation_concat. apply Permutation_map. now apply Permutation_concat.
  Qed.

  Lemma par_collisions_perm cs xs : 1 <= cs -> existsb bad xs = false -> xs <> [] ->
    exists r, par_collisions worker pick cs xs = Ok r /\ Permutation r (flat_map g xs).
  Proof.
    intros Hc Ex Hx. unfold par_collisions. destruct (tiles_ok xs cs Hc) as (chunks & -> & (Cc & _)). cbn [bind].
    pose proof (submit_all_ok pick chunks) as Pm.
    assert (M : mapM worker (submit_all pick chunks) = Ok (map (flat_map g) (submit_all pick chunks))).
    { apply mapM_all_ok. intros c I. rewrite RW. destruct (existsb bad c) eqn:E; auto.
      assert (existsb bad xs = true). rewrite <- Cc, <- existsb_concat. apply existsb_exists. exists c. split; auto. eapply Permutation_in; eauto. congruence. }
    rewrite M. cbn [bind]. destruct (submit_all pick chunks) as [|c l] eqn:Es.
    - apply Permutation_nil in Pm. subst. cbn in Hx. congruence.
    - cbn [map]. eexists. split. reflexivity.
      change (flat_map g c :: map (flat_map g) l) with (map (flat_map g) (c :: l)).
      rewrite flat_map_concat_, <- Cc.
      rewrite !flat_map_concat_map. apply Permutation_concat. apply Permutation_map. now apply Permutation_concat.
  Qed.
End ParProofs.

Section Propagate2BodyProofs.
  Context {O T S C : Type}.
  Variable bad_orbit : O -> bool.
  Variable prop2 : O -> T -> S.
  Variable bad_state : S -> bool.
  Variable cov : O -> C.
  Variable is_nan : C -> bool.
  Variable nan : C.
  Variable jac : O -> T -> C -> C.
  Variable pad : O * T.
  Hypothesis jac_nan : forall o t c, is_nan c = true -> jac o t c = nan.

  Lemma propagate_2body_eq pick P cs os ts : 1 <= cs ->
    propagate_2body bad_orbit prop2 bad_state cov is_nan nan jac pad pick P cs os ts
    = if existsb (pair_bad bad_orbit prop2 bad_state) (list_prod os ts) then Err RuntimeError
      else Ok (two_body_table prop2 cov jac os ts).
  Proof.
    intros Hc. unfold propagate_2body. destruct (Z.leb_spec P 1).
    - rewrite propagate_serial_ok by auto. now rewrite table_prod.
    - rewrite (par_keyed_ok _ (fun o => existsb (fun t => pair_bad bad_orbit prop2 bad_state (o, t)) ts)
         (fun o => map (two_body_row prop2 cov jac o) ts) RuntimeError); try lia.
      + assert (Ex : existsb (fun o => existsb (fun t => pair_bad bad_orbit prop2 bad_state (o, t)) ts) os
          = existsb (pair_bad bad_orbit prop2 bad_state) (list_prod os ts)).
        { induction os as [|o os IH]; cbn; auto. rewrite existsb_app_, IH. f_equal.
          clear. induction ts; cbn; congruence. }
        rewrite Ex. reflexivity.
      + intros l. rewrite propagate_serial_ok by auto. rewrite table_prod.
        assert (Ex : existsb (fun o => existsb (fun t => pair_bad bad_orbit prop2 bad_state (o, t)) ts) l
          = existsb (pair_bad bad_orbit prop2 bad_state) (list_prod l ts)).
        { clear. induction l as [|o os IH]; cbn; auto. rewrite existsb_app_, IH. f_equal.
          clear. induction ts; cbn; congruence. }
        rewrite Ex. reflexivity.
  Qed.

  Lemma propagate_2body_ok pick P cs os ts : 1 <= cs ->
    (~ two_body_bad bad_orbit prop2 bad_state os ts ->
       propagate_2body bad_orbit prop2 bad_state cov is_nan nan jac pad pick P cs os ts = Ok (two_body_table prop2 cov jac os ts)) /\
    (two_body_bad bad_orbit prop2 bad_state os ts ->
       propagate_2body bad_orbit prop2 bad_state cov is_nan nan jac pad pick P cs os ts = Err RuntimeError).
  Proof.
    intros Hc. rewrite propagate_2body_eq by auto. pose proof (bad_prod bad_orbit prop2 bad_state os ts) as Bp.
    destruct (existsb _ (list_prod os ts)); split; intros H; auto.
    - exfalso. apply H. now apply Bp.
    - apply Bp in H. discriminate.
  Qed.

End Propagate2BodyProofs.

Lemma two_body_table_nth {O T S C : Type} (prop2 : O -> T -> S) (cov : O -> C) (jac : O -> T -> C -> C) os ts i j o t : nth_error os i = Some o -> nth_error ts j = Some t ->
  nth_error (two_body_table prop2 cov jac os ts) (i * length ts + j) = Some (two_body_row prop2 cov jac o t).
Proof.
  intros Hi Hj. unfold two_body_table. revert os Hi. induction i as [|i IH]; intros [|x os] Hi; cbn in Hi; try discriminate.
  - injection Hi as ->. cbn [flat_map Nat.mul Nat.add]. rewrite nth_error_app1. now rewrite nth_error_map, Hj.
    rewrite map_length. apply nth_error_Some. congruence.
  - cbn [flat_map]. rewrite nth_error_app2; rewrite map_length. 2: cbn; lia.
    replace (Datatypes.S i * length ts + j - length ts)%nat with (i * length ts + j)%nat by (cbn; lia). auto.
Qed.

(* ------------------------------------------------------------- moids ---- *)
Section MoidProofs.
  Context {Orb P R : Type} (moid_row : P -> Orb -> result R).

  Lemma moid_tasks_ok orbits (ps : list P) cs : 1 <= cs -> exists tasks, moid_tasks orbits ps cs = Ok tasks /\
    concat (map (fun t : P * list Orb => map (pair (fst t)) (snd t)) tasks) = list_prod ps orbits.
  Proof.
    intros Hc. unfold moid_tasks. destruct (tiles_ok orbits cs Hc) as (chunks & -> & (Cc & _)). cbn [bind].
    rewrite (mapM_all_ok _ (fun p => map (fun c => (p, c)) chunks)) by reflexivity. cbn [bind]. eexists. split. reflexivity.
    induction ps as [|p ps IH]; cbn [map concat list_prod]; auto. rewrite map_app, concat_app, IH. f_equal.
    rewrite map_map. cbn [fst snd]. rewrite <- Cc. clear. induction chunks; cbn; auto. now rewrite map_app, IHchunks.
  Qed.

  (* all rows in order *)
  Definition moid_rows (ps : list P) (orbits : list Orb) : result (list R) :=
    mapM (fun x => moid_row (fst x) (snd x)) (list_prod ps orbits).

  Lemma mapM_app {A B} (f : A -> result B) l m : mapM f (l ++ m) = bind (mapM f l) (fun a => bind (mapM f m) (fun b => Ok (a ++ b))).
  Proof.
    induction l as [|x l IH]; cbn. destruct (mapM f m); reflexivity. destruct (f x); cbn; auto.
    rewrite IH. destruct (mapM f l); cbn; auto. destruct (mapM f m); reflexivity.
  Qed.
  Lemma mapM_map {A B C} (f : B -> result C) (h : A -> B) l : mapM f (map h l) = mapM (fun x => f (h x)) l.
  Proof. induction l; cbn; auto. now rewrite IHl. Qed.
  Lemma mapM_concat {A B} (f : A -> result B) ll : mapM f (concat ll) = bind (mapM (mapM f) ll) (fun r => Ok (concat r)).
  Proof.
    induction ll as [|l ll IH]; cbn. reflexivity. rewrite mapM_app, IH. destruct (mapM f l); cbn; auto.
    destruct (mapM (mapM f) ll); reflexivity.
  Qed.
  Lemma mapM_perm {A B} (f : A -> result B) l m r : Permutation l m -> mapM f l = Ok r ->
    exists r', mapM f m = Ok r' /\ Permutation r r'.
  Proof.
    intros Pm. revert r. induction Pm; intros r H.
    - exists r. split; auto.
    - cbn in *. destruct (f x); cbn in *; try discriminate. destruct (mapM f l) eqn:E; cbn in *; try discriminate.
      injection H as <-. destruct (IHPm _ eq_refl) as (r' & -> & Q). cbn. eexists. split. reflexivity. now constructor.
    - cbn in *. destruct (f y); cbn in *; try discriminate. destruct (f x); cbn in *; try discriminate.
      destruct (mapM f l); cbn in *; try discriminate. injection H as <-. eexists. split. reflexivity. apply perm_swap.
    - destruct (IHPm1 _ H) as (r1 & H1 & Q1). destruct (IHPm2 _ H1) as (r2 & H2 & Q2). exists r2. split; auto. now rewrite Q1.
  Qed.

  Lemma moid_serial pick cs orbits ps mp : 1 <= cs -> mp <= 1 ->
    perturber_moids moid_row pick mp cs orbits ps = moid_rows ps orbits.
  Proof.
    intros Hc Hm. unfold perturber_moids. destruct (moid_tasks_ok orbits ps cs Hc) as (tasks & -> & E). cbn [bind].
    destruct (Z.ltb_spec 1 mp); [lia|]. unfold moid_rows. rewrite <- E, mapM_concat, mapM_map.
    assert (X : forall t, moid_worker moid_row t = mapM (fun x => moid_row (fst x) (snd x)) (map (pair (fst t)) (snd t))).
    { intros t. unfold moid_worker. now rewrite mapM_map. }
    assert (Y : mapM (moid_worker moid_row) tasks = mapM (fun t => mapM (fun x => moid_row (fst x) (snd x)) (map (pair (fst t)) (snd t))) tasks).
    { clear E. induction tasks; cbn; auto. now rewrite X, IHtasks. }
    now rewrite Y.
  Qed.

  Lemma moid_parallel pick cs orbits ps mp rows : 1 <= cs -> moid_rows ps orbits = Ok rows ->
    exists r, perturber_moids moid_row pick mp cs orbits ps = Ok r /\ Permutation r rows.
  Proof.
    intros Hc H. destruct (Z.ltb_spec 1 mp).
    2:{ exists rows. split; auto. rewrite moid_serial; auto. }
    pose proof (moid_serial pick cs orbits ps 1 Hc ltac:(lia)) as Sr. rewrite H in Sr.
    unfold perturber_moids in *. destruct (moid_tasks_ok orbits ps cs Hc) as (tasks & Et & E). rewrite Et in *. cbn [bind] in *.
    change (1 <? 1) with false in Sr. cbn iota in Sr. destruct (Z.ltb_spec 1 mp); [|lia].
    destruct (mapM (moid_worker moid_row) tasks) as [rs|] eqn:M; cbn in Sr; [|discriminate]. injection Sr as <-.
    destruct (window_ok pick mp tasks ltac:(lia)) as (Pm & _). symmetry in Pm.
    destruct (mapM_perm _ _ _ _ Pm M) as (rs' & -> & Q). cbn. eexists. split. reflexivity.
    apply Permutation_concat. now symmetry.
  Qed.
End MoidProofs.

(* --------------------------------------------------------- ephemeris ---- *)
Section EphProofs.
  Context {O B E C M : Type}.
  Variable eph : O -> B -> E.
  Variable bad_eph : E -> bool.
  Variable cov : O -> C.
  Variable is_nan : C -> bool.
  Variable nan : C.
  Variable jac : O -> B -> C -> C.
  Variable has_hg : O -> bool.
  Variable mag : O -> B -> result (option M).
  Variable mag' : O -> B -> option M.
  Variable pad : O * B.
  Hypothesis jac_nan : forall o b c, is_nan c = true -> jac o b c = nan.
  Hypothesis mag_ok : forall o b, mag o b = Ok (mag' o b).

  Lemma eph_serial_ok pm rows :
    eph_serial eph bad_eph cov is_nan nan jac has_hg mag pad pm rows
    = if existsb (fun p => bad_eph (eph (fst p) (snd p))) rows then Err RuntimeError
      else Ok (flat_map (fun p => [eph_row eph cov jac has_hg mag' pm (fst p) (snd p)]) rows).
  Proof.
    unfold eph_serial. rewrite checked_eval_ok by lia.
    assert (F0 : existsb (fun _ : O * B => false) rows = false) by (clear; induction rows; auto). rewrite F0. cbn [orb].
    assert (E1 : existsb bad_eph (map (fun p => eph (fst p) (snd p)) rows) = existsb (fun p => bad_eph (eph (fst p) (snd p))) rows).
    { clear. induction rows; cbn; congruence. }
    rewrite E1. clear E1 F0. destruct (existsb (fun p => bad_eph (eph (fst p) (snd p))) rows). reflexivity. cbn [bind].
    assert (Cv : (if forallb (fun p => is_nan (cov (fst p))) rows then map (fun _ => nan) rows
       else map (fun p => jac (fst p) (snd p) (cov (fst p))) rows)
       = map (fun p => jac (fst p) (snd p) (cov (fst p))) rows).
    { destruct (forallb _ rows) eqn:F; auto. rewrite forallb_forall in F. apply map_ext_in. intros [o b] I.
      symmetry. apply jac_nan. exact (F _ I). }
    rewrite Cv.
    assert (Mg : (if (pm && existsb (fun p => has_hg (fst p)) rows)%bool
          then mapM (fun p => bind (mag (fst p) (snd p)) (fun m => Ok (if has_hg (fst p) then m else None))) rows
          else Ok (map (fun _ => None) rows))
       = Ok (map (fun p => if (pm && has_hg (fst p))%bool then mag' (fst p) (snd p) else None) rows)).
    { destruct pm; cbn [andb].
      - destruct (existsb _ rows) eqn:X.
        + apply mapM_all_ok. intros p _. rewrite mag_ok. reflexivity.
        + f_equal. apply map_ext_in. intros p I. destruct (has_hg (fst p)) eqn:Hh; auto.
          assert (existsb (fun p => has_hg (fst p)) rows = true) by (apply existsb_exists; eauto). congruence.
      - reflexivity. }
    rewrite Mg. cbn [bind]. f_equal. clear. induction rows as [|p l IH]; cbn; auto. now rewrite IH.
  Qed.

  Lemma generate_ephemeris_ok pick pm P cs os bs : 1 <= cs -> length os = length bs ->
    (~ eph_bad eph bad_eph (combine os bs) ->
      generate_ephemeris_2body eph bad_eph cov is_nan nan jac has_hg mag pad pick pm P cs os bs
      = Ok (map (fun p => eph_row eph cov jac has_hg mag' pm (fst p) (snd p)) (combine os bs))) /\
    (eph_bad eph bad_eph (combine os bs) ->
      generate_ephemeris_2body eph bad_eph cov is_nan nan jac has_hg mag pad pick pm P cs os bs = Err RuntimeError).
  Proof.
    intros Hc Hl. unfold generate_ephemeris_2body. rewrite Hl, Nat.eqb_refl.
    assert (X : (if P <=? 1 then eph_serial eph bad_eph cov is_nan nan jac has_hg mag pad pm (combine os bs)
       else par_keyed (eph_serial eph bad_eph cov is_nan nan jac has_hg mag pad pm) pick P cs (combine os bs))
       = if existsb (fun p => bad_eph (eph (fst p) (snd p))) (combine os bs) then Err RuntimeError
         else Ok (flat_map (fun p => [eph_row eph cov jac has_hg mag' pm (fst p) (snd p)]) (combine os bs))).
    { destruct (Z.leb_spec P 1). apply eph_serial_ok.
      apply par_keyed_ok; try lia. intros l. apply eph_serial_ok. }
    rewrite X.
    assert (Bd : existsb (fun p => bad_eph (eph (fst p) (snd p))) (combine os bs) = true <-> eph_bad eph bad_eph (combine os bs)).
    { rewrite existsb_exists. unfold eph_bad. split. intros ([o b] & I & F). eauto. intros (o & b & I & F). exists (o, b). auto. }
    destruct (existsb _ (combine os bs)); split; intros H.
    - exfalso. apply H, Bd. reflexivity.
    - reflexivity.
    - apply f_equal. generalize (combine os bs) as l. clear. induction l; cbn; congruence.
    - apply Bd in H. discriminate.
  Qed.
End EphProofs.

(* ----------------------------------------------------- error reports ---- *)
Lemma find_ix_some {A} (f : A -> bool) l i : find_ix f l = Some i ->
  0 <= i < zlen l /\ exists x, nth_error l (Z.to_nat i) = Some x /\ f x = true.
Proof.
  unfold zlen. revert i. induction l as [|a l IH]; intros i; cbn [find_ix length]; [discriminate|].
  destruct (f a) eqn:F.
  - intros [= <-]. split. lia. exists a. split; auto.
  - destruct (find_ix f l) as [j|]; [|discriminate]. intros [= <-]. destruct (IH j eq_refl) as (H1 & x & H2 & H3).
    split. lia. exists x. replace (Z.to_nat (j + 1)) with (Datatypes.S (Z.to_nat j)) by lia. cbn. auto.
Qed.
Lemma find_ix_none {A} (f : A -> bool) l : find_ix f l = None -> existsb f l = false.
Proof.
  induction l as [|a l IH]; cbn; auto. destruct (f a); [discriminate|]. destruct (find_ix f l); [discriminate|]. auto.
Qed.
Lemma negb_In l : existsb negb l = true <-> In false l.
Proof.
  rewrite existsb_exists. split. intros (x & I & N). destruct x; [discriminate|auto]. intros I. exists false. auto.
Qed.

Lemma report_row_ok start chunk :
  match report_row start chunk with
  | Some (NumericalError i) => row_is (fun r => non_finite (fst r) \/ non_finite (snd r)) chunk (i - start)
  | Some RowIndexError => False
  | None => Forall (fun r => ~ non_finite (fst r) /\ ~ non_finite (snd r)) chunk
  end.
Proof.
  unfold report_row. destruct (find_ix _ chunk) as [i|] eqn:E1.
  - apply find_ix_some in E1. destruct E1 as (H & x & N & F). split. lia. exists x. replace (start + i - start) with i by lia.
    split; auto. left. now apply negb_In.
  - destruct (find_ix (fun r => existsb negb (snd r)) chunk) as [i|] eqn:E2.
    + apply find_ix_some in E2. destruct E2 as (H & x & N & F). split. lia. exists x. replace (start + i - start) with i by lia.
      split; auto. right. now apply negb_In.
    + apply find_ix_none in E1, E2. apply Forall_forall. intros x I. unfold non_finite. rewrite <- !negb_In.
      split; intros X.
      * assert (existsb (fun r : list bool * list bool => existsb negb (fst r)) chunk = true) by (apply existsb_exists; eauto). congruence.
      * assert (existsb (fun r : list bool * list bool => existsb negb (snd r)) chunk = true) by (apply existsb_exists; eauto). congruence.
Qed.

Lemma first_report_ok chunks : forall start,
  match first_report report_row chunks start with
  | Some (NumericalError i) => row_is (fun r => non_finite (fst r) \/ non_finite (snd r)) (concat chunks) (i - start)
  | Some RowIndexError => False
  | None => Forall (fun r => ~ non_finite (fst r) /\ ~ non_finite (snd r)) (concat chunks)
  end.
Proof.
  induction chunks as [|c chunks IH]; intros start; cbn [first_report concat]. constructor.
  pose proof (report_row_ok start c) as H. destruct (report_row start c) as [[i|]|].
  - destruct H as (H1 & x & H2 & H3). split; auto. exists x. split; auto. rewrite nth_error_app1; auto. apply nth_error_Some. congruence.
  - auto.
  - specialize (IH (start + zlen c)). destruct (first_report report_row chunks (start + zlen c)) as [[i|]|]; auto.
    + destruct IH as (H1 & x & H2 & H3). split. pose proof (zlen_nn c). lia. exists x. split; auto.
      rewrite nth_error_app2; unfold zlen in *. rewrite <- H2. f_equal. lia. lia.
    + apply Forall_app. auto.
Qed.

Lemma propagation_report_ok rows : exists r, propagation_report rows = Ok r /\
  match r with
  | Some (NumericalError i) => row_is (fun x => non_finite (fst x) \/ non_finite (snd x)) rows i
  | Some RowIndexError => False
  | None => Forall (fun x => ~ non_finite (fst x) /\ ~ non_finite (snd x)) rows
  end.
Proof.
  unfold propagation_report. destruct (tiles_ok rows 200 ltac:(lia)) as (chunks & -> & (Cc & _)). cbn [bind].
  eexists. split. reflexivity. pose proof (first_report_ok chunks 0) as H. rewrite Cc in H.
  destruct (first_report report_row chunks 0) as [[i|]|]; auto. replace (i - 0) with i in H by lia. auto.
Qed.

Lemma ephemeris_report_refuted : exists rows row k,
  Forall (fun r => length r = 6%nat) rows /\
  nth_error rows k = Some row /\ non_finite row /\
  (forall j r, nth_error rows j = Some r -> non_finite r -> j = k) /\
  ephemeris_report rows = Ok (Some RowIndexError).
Proof.
  exists [[true;true;true;true;true;true]; [true;true;true;false;false;false]], [true;true;true;false;false;false], 1%nat.
  split. repeat constructor. split. reflexivity. split. unfold non_finite; cbn; auto. split.
  - intros [|[|j]] r H N; cbn in *; auto.
    + injection H as <-. unfold non_finite in N. cbn in N. intuition discriminate.
    + now destruct j.
  - vm_compute. reflexivity.
Qed.
Lemma ephemeris_report_wrong_row : exists rows k i row,
  Forall (fun r => length r = 6%nat) rows /\
  (forall j r, nth_error rows j = Some r -> non_finite r -> j = k) /\
  ephemeris_report rows = Ok (Some (NumericalError i)) /\ nth_error rows (Z.to_nat i) = Some row /\ ~ non_finite row.
Proof.
  set (good := [true;true;true;true;true;true]). set (bad := [true;true;true;false;false;false]).
  exists [bad; good; good; good; good; good], 0%nat, 3, good.
  split. repeat constructor. split.
  - intros j r H N. destruct j as [|j]; auto. exfalso.
    assert (r = good). { destruct j as [|[|[|[|[|j]]]]]; cbn in H; try (injection H as <-; reflexivity). destruct j; discriminate. }
    subst r. unfold non_finite in N. cbn in N. intuition discriminate.
  - split. vm_compute. reflexivity. split. reflexivity. unfold non_finite. cbn. intuition discriminate.
Qed.
(* an error is raised exactly when some row is non-finite *)
Lemma report_flat_none n start chunk : report_flat n start chunk = None <-> Forall (fun r => ~ non_finite r) chunk.
Proof.
  unfold report_flat. destruct (find_ix negb (concat chunk)) as [k|] eqn:E.
  - split. destruct (_ <=? _); [discriminate|]. destruct (_ <=? _); discriminate.
    intros H. exfalso. apply find_ix_some in E. destruct E as (_ & x & N & F). destruct x; [discriminate|].
    apply nth_error_In, in_concat in N. destruct N as (r & Ir & If). rewrite Forall_forall in H. exact (H r Ir If).
  - split; auto. intros _. apply find_ix_none in E. apply Forall_forall. intros r Ir N.
    assert (existsb negb (concat chunk) = true). apply negb_In. apply in_concat. eauto. congruence.
Qed.
Lemma ephemeris_report_detects rows : exists r, ephemeris_report rows = Ok r /\
  (r = None <-> Forall (fun x => ~ non_finite x) rows).
Proof.
  unfold ephemeris_report. destruct (tiles_ok rows 2000 ltac:(lia)) as (chunks & -> & (Cc & _)). cbn [bind].
  eexists. split. reflexivity. rewrite <- Cc at 2. clear Cc. generalize 0 as st. generalize (zlen rows) as n. intros n.
  induction chunks as [|c l IH]; intros st; cbn [first_report concat]. split; auto. rewrite Forall_app, <- (IH (st + zlen c)), <- (report_flat_none n st c).
  destruct (report_flat n st c). split; [discriminate|]. intros [H _]; discriminate. tauto.
Qed.

(* ---------------------------------------------------------- od batch ---- *)
Lemma od_chunk_ok {I R} (fit : I -> result (list R)) (g : I -> list R) (ids : list I) :
  (forall i, In i ids -> fit i = Ok (g i)) -> od_chunk fit ids = Ok (flat_map g ids).
Proof.
  intros H. unfold od_chunk. rewrite (mapM_all_ok _ _ _ H). cbn. now rewrite flat_map_concat_map.
Qed.
Lemma od_batch_ok {I R} (fit : I -> result (list R)) (g : I -> list R) pick P cs (ids : list I) :
  (forall i, fit i = Ok (g i)) -> 1 <= cs ->
  exists r, od_batch fit pick P cs ids = Ok r /\ Permutation r (flat_map g ids) /\ (P <= 1 -> r = flat_map g ids).
Proof.
  intros H Hc. unfold od_batch.
  assert (RW : rowwise (od_chunk fit) (fun _ => false) g RuntimeError).
  { intros l. rewrite (od_chunk_ok fit g) by auto. now replace (existsb (fun _ => false) l) with false by (induction l; auto). }
  assert (F : existsb (fun _ : I => false) ids = false) by (clear; induction ids; auto).
  destruct (Z.ltb_spec 1 P).
  - destruct (par_unordered_perm _ _ _ _ RW pick P cs ids ltac:(lia) Hc F) as (_ & r & E & Pm). exists r. split; auto. split; auto. lia.
  - destruct (par_unordered_perm _ _ _ _ RW pick 1 cs ids ltac:(lia) Hc F) as (Sr & _). exists (flat_map g ids). auto.
Qed.

Lemma all_different_perm {R} (same : R -> R -> bool) l m : Permutation l m -> all_different same l -> all_different same m.
Proof.
  induction 1; cbn; auto.
  - intros [H1 H2]. split; auto. eapply Permutation_Forall; eauto.
  - intros [H1 [H2 H3]]. inversion H1; subst. split. constructor; auto. tauto. split; auto.
Qed.
Lemma uniq_different {R} (same : R -> R -> bool) l : all_different same l -> uniq same l = l.
Proof.
  unfold uniq. assert (G : forall l seen, all_different same l -> (forall x y, In x l -> In y seen -> same x y = false) -> uniq_aux same seen l = l).
  { clear l. induction l as [|x l IH]; intros seen D S; cbn; auto. destruct D as [D1 D2].
    assert (memb same x seen = false) as ->.
    { destruct (memb same x seen) eqn:E; auto. unfold memb in E. apply existsb_exists in E. destruct E as (y & I & T). rewrite S in T; auto. now left. }
    f_equal. apply IH; auto. intros a b Ia [<-|Ib]. rewrite Forall_forall in D1. apply D1; auto. apply S; auto. now right. }
  intros D. apply G; auto. intros ? ? _ [].
Qed.

Lemma iod_batch_ok {I R} (fit : I -> result (list R)) (g : I -> list R) same leb pick P cs (ids : list I) :
  (forall i, fit i = Ok (g i)) -> 1 <= cs ->
  (forall x y, leb x y = true \/ leb y x = true) -> (forall x y z, leb x y = true -> leb y z = true -> leb x z = true) ->
  (forall x y, In x (flat_map g ids) -> In y (flat_map g ids) -> leb x y = true -> leb y x = true -> x = y) ->
  all_different same (flat_map g ids) ->
  iod_batch fit same leb pick P cs ids = Ok (Base.sort leb (flat_map g ids)).
Proof.
  intros H Hc Ht Htr Ha Hd. unfold iod_batch. destruct (od_batch_ok fit g pick P cs ids H Hc) as (r & -> & Pm & _). cbn [bind].
  f_equal. unfold drop_dups. rewrite uniq_different by (eapply all_different_perm; [symmetry; eauto|auto]).
  symmetry. apply sort_perm_eq; auto. now symmetry.
Qed.
