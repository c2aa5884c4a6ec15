From Coq Require Import String Lia ZArith Permutation Sorted Bool.
From Verif Require Import Base ListLemmas StrOrder SchedModel SchedSpec SchedProofs PropModel PropSpec PropProofs.
From Verif Require Import TimeModel TimeSpec TimeProofs TimeLinkProofs TableModel TableSpec.
Open Scope Z_scope.
Open Scope list_scope.
Notation length := List.length.
Notation ileb := (fun a b => Nat.leb (fst a) (fst b)).

(* ---------------------------------------------------------- regrouping ---- *)
Lemma indexed_sorted {A} (l : list A) s : StronglySorted (fun a b => ileb a b = true) (combine (seq s (length l)) l).
Proof.
  revert s. induction l as [|x l IH]; intros s; cbn; constructor; auto.
  apply Forall_forall. intros [i y] H. apply combine_seq_In in H. cbn. apply Nat.leb_le. lia.
Qed.
Lemma indexed_unique {A} (l : list A) i x y : In (i, x) (combine (seq 0 (length l)) l) -> In (i, y) (combine (seq 0 (length l)) l) -> x = y.
Proof. intros H1 H2. apply combine_seq_In in H1, H2. destruct H1, H2. congruence. Qed.

Lemma ileb_total {A} (x y : nat * A) : ileb x y = true \/ ileb y x = true.
Proof. cbn. destruct (Nat.leb_spec (fst x) (fst y)); auto. right. apply Nat.leb_le. lia. Qed.
Lemma ileb_trans {A} (x y z : nat * A) : ileb x y = true -> ileb y z = true -> ileb x z = true.
Proof. cbn. rewrite !Nat.leb_le. lia. Qed.

Lemma filter_ext_in_ {A} (p q : A -> bool) l : (forall x, In x l -> p x = q x) -> filter p l = filter q l.
Proof. apply filter_ext_in. Qed.

Lemma filter_perm_key {A K} (same : K -> K -> bool) (key : A -> K) (ks : list K) (l : list A) :
  (forall x y, same x y = true <-> x = y) -> NoDup ks -> (forall x, In x l -> In (key x) ks) ->
  Permutation (concat (map (fun k => filter (fun x => same (key x) k) l) ks)) l.
Proof.
  intros He Hn Hl. apply (filter_perm_uniq same (fun x => Some (key x))); auto.
  intros x Ix. exists (key x). auto.
Qed.
(* all groups of the indexed table, put back in order *)
Lemma regroup {X K} (eqb same : K -> K -> bool) (key : X -> K) (xs : list X) :
  (forall x y, same x y = true <-> x = y) -> (forall x k, In x xs -> eqb (key x) k = same (key x) k) ->
  sort ileb (concat (map (fun k => filter (fun p => eqb (key (snd p)) k) (combine (seq 0 (length xs)) xs)) (uniq same (map key xs))))
  = combine (seq 0 (length xs)) xs.
Proof.
  intros He Hs. set (rows := combine (seq 0 (length xs)) xs).
  assert (Hin : forall p, In p rows -> In (snd p) xs).
  { intros [i k] H. apply in_combine_r in H. auto. }
  rewrite <- (sort_sorted_id ileb rows) by apply indexed_sorted. symmetry. apply sort_perm_eq.
  - intros; apply ileb_total.
  - intros x y z. apply ileb_trans.
  - intros [i x] [j y] Hx Hy L1 L2. unfold le in *. apply Nat.leb_le in L1, L2. cbn in *. assert (i = j) by lia. subst j.
    f_equal. eapply indexed_unique; eauto.
  - symmetry. rewrite sort_sorted_id by apply indexed_sorted.
    rewrite (map_ext (fun k => filter (fun p => eqb (key (snd p)) k) rows) (fun k => filter (fun p => same ((fun q => key (snd q)) p) k) rows)).
    + apply filter_perm_key; auto. now apply uniq_NoDup. intros p Ip. apply uniq_In; auto. apply in_map. auto.
    + intros k. apply filter_ext_in. intros p Ip. apply Hs. auto.
Qed.

Lemma take_map {A B} (f : A -> B) l is ys : take l is = Ok ys -> take (map f l) is = Ok (map f ys).
Proof.
  unfold take. revert ys. induction is as [|i is IH]; cbn; intros ys H. injection H as <-. auto.
  rewrite nth_error_map. destruct (nth_error l i); cbn in *; [|discriminate].
  destruct (mapM _ is) as [r|] eqn:E; cbn in *; [|discriminate]. injection H as <-. rewrite (IH r); auto.
Qed.
Lemma insert_map_snd {A B} (f : nat * A -> B) x l :
  insert ileb (fst x, f x) (map (fun p => (fst p, f p)) l) = map (fun p => (fst p, f p)) (insert ileb x l).
Proof. induction l as [|y l IH]; cbn; auto. destruct (Nat.leb _ _); cbn; auto. now rewrite IH. Qed.
Lemma sort_map_snd {A B} (f : nat * A -> B) l :
  sort ileb (map (fun p => (fst p, f p)) l) = map (fun p => (fst p, f p)) (sort ileb l).
Proof. induction l as [|y l IH]; cbn; auto. rewrite IH. apply insert_map_snd. Qed.

(* take(argsort(indices)) sorts the rows by index *)
Lemma take_argsort {V} (is : list nat) (vs : list V) : length is = length vs ->
  take vs (argsort is) = Ok (map snd (sort ileb (combine is vs))).
Proof.
  intros L. unfold argsort.
  set (cs := combine is (seq 0 (length is))).
  assert (Hc : forall p, In p cs -> (snd p < length vs)%nat).
  { intros [i j] H. apply in_combine_r in H. apply in_seq in H. cbn. lia. }
  destruct vs as [|v0 vs0] eqn:Ev.
  { destruct is; [|discriminate]. reflexivity. }
  rewrite <- Ev in *. 
  assert (E : combine is vs = map (fun p => (fst p, nth (snd p) vs v0)) cs).
  { unfold cs. clear - L. assert (G : forall k (is : list nat) (vs pre : list V), length is = length vs -> length pre = k ->
      combine is vs = map (fun p => (fst p, nth (snd p) (pre ++ vs) v0)) (combine is (seq k (length is)))).
    { clear. intros k is. revert k. induction is as [|i is IH]; intros k vs pre L Lp; cbn; auto. destruct vs as [|v vs]; [discriminate|].
      cbn. rewrite app_nth2 by lia. replace (k - length pre)%nat with 0%nat by lia. cbn. f_equal.
      rewrite (IH (Datatypes.S k) vs (pre ++ [v])). now rewrite <- app_assoc. cbn in L; lia. rewrite app_length; cbn; lia. }
    apply (G 0%nat is vs []); auto. }
  rewrite E, (sort_map_snd (fun p => nth (snd p) vs v0)), map_map. unfold take.
  assert (Hs : forall p, In p (sort ileb cs) -> (snd p < length vs)%nat) by (intros p Hp; apply sort_In in Hp; auto).
  revert Hs. generalize (sort ileb cs). induction l as [|p l IH]; intros Hs; cbn; auto.
  rewrite (nth_error_nth' vs v0) by (apply Hs; now left). cbn. rewrite IH. reflexivity. intros; apply Hs; now right.
Qed.

Lemma okey_same_eq a b : okey_same a b = true <-> a = b.
Proof.
  destruct a as [x|], b as [y|]; cbn; split; try congruence; auto.
  - intros H. apply String.eqb_eq in H. now subst.
  - intros [= ->]. apply String.eqb_refl.
Qed.

(* ----------------------------------------------------------- from_codes ---- *)
Lemma take_positions {K T} (eqb : K -> K -> bool) (k : K) (ks : list K) (ts : list T) : length ks = length ts ->
  take ts (positions eqb k ks) = Ok (map (fun p => snd (snd p)) (filter (fun p => eqb (fst (snd p)) k) (combine (seq 0 (length ks)) (combine ks ts)))).
Proof.
  intros L. unfold positions. 
  assert (G : forall s (ks : list K) (ts pre : list T), length ks = length ts -> length pre = s ->
    take (pre ++ ts) (map fst (filter (fun p => eqb (snd p) k) (combine (seq s (length ks)) ks)))
    = Ok (map (fun p => snd (snd p)) (filter (fun p => eqb (fst (snd p)) k) (combine (seq s (length ks)) (combine ks ts))))).
  { clear. intros s ks. revert s. induction ks as [|x ks IH]; intros s ts pre L Lp; cbn. reflexivity.
    destruct ts as [|t ts]; [discriminate|]. cbn. specialize (IH (Datatypes.S s) ts (pre ++ [t])).
    rewrite <- app_assoc in IH. cbn in IH. cbn in L.
    destruct (eqb x k); cbn.
    - rewrite nth_error_app2 by lia. replace (s - length pre)%nat with 0%nat by lia. cbn.
      unfold take in IH. rewrite IH; [reflexivity|lia|rewrite app_length; cbn; lia].
    - apply IH. lia. rewrite app_length; cbn; lia. }
  apply (G 0%nat ks ts []); auto.
Qed.

Section FromCodesProofs.
  Context {T S : Type} (state : string -> list T -> result (list S)) (st : string -> T -> S).

  Lemma from_codes_rows (cs : list string) (ts : list T) : length cs = length ts ->
    (forall c l, In c cs -> state c l = Ok (map (st c) l)) ->
    from_codes state (map Some cs) ts = Ok (map (fun p => (fst p, st (fst p) (snd p))) (combine cs ts)).
  Proof.
    intros L H. unfold from_codes. rewrite map_length, L, Nat.eqb_refl. cbn [negb].
    set (ks := map Some cs).
    set (trows := combine (seq 0 (length ks)) (combine ks ts)).
    assert (Lk : length ks = length ts) by (unfold ks; now rewrite map_length).
    set (code := fun k : option string => match k with Some c => c | None => ""%string end).
    rewrite (mapM_all_ok _ (fun k => map (fun p => (fst p, (code k, st (code k) (snd (snd p))))) (filter (fun p => okey_eqb (fst (snd p)) k) trows))).
    2:{ intros k Ik. apply uniq_In in Ik; [|intros; apply okey_same_eq]. apply in_map_iff in Ik. destruct Ik as (c & <- & Ic).
        rewrite take_positions by auto. cbn [bind]. rewrite H by auto. cbn [bind].
        fold trows. unfold positions. 
        assert (X : map fst (filter (fun p => okey_eqb (snd p) (Some c)) (combine (seq 0 (length ks)) ks)) = map fst (filter (fun p => okey_eqb (fst (snd p)) (Some c)) trows)).
        { unfold trows. clear - Lk. generalize 0%nat. revert ts Lk. induction ks as [|x ks IH]; intros ts Lk s; cbn; auto.
          destruct ts as [|t ts]; [discriminate|]. cbn. destruct (okey_eqb x (Some c)); cbn; rewrite IH with (ts := ts); auto. }
        rewrite X. set (fl := filter _ trows). rewrite zip_opt_ok by (now rewrite !map_length).
        f_equal. clear. induction fl as [|p l IH]; cbn; auto. f_equal. exact IH. }
    cbn [bind]. f_equal.
    set (h := fun p : nat * (option string * T) => (code (fst (snd p)), st (code (fst (snd p))) (snd (snd p)))).
    assert (E : map (fun k => map (fun p : nat * (option string * T) => (fst p, (code k, st (code k) (snd (snd p))))) (filter (fun p => okey_eqb (fst (snd p)) k) trows)) (uniq okey_same ks)
         = map (fun k => map (fun p => (fst p, h p)) (filter (fun p => okey_eqb (fst (snd p)) k) trows)) (uniq okey_same ks)).
    { apply map_ext_in. intros k _. apply map_ext_in. intros [i [k' t]] Ip. apply filter_In in Ip. destruct Ip as [_ Ek]. unfold h. cbn in *.
      destruct k' as [c|], k as [c'|]; cbn in Ek; try discriminate. apply String.eqb_eq in Ek. now subst. }
    rewrite E. rewrite <- (map_map (fun k => filter (fun p : nat * (option string * T) => okey_eqb (fst (snd p)) k) trows) (map (fun p => (fst p, h p)))), <- concat_map.
    rewrite sort_map_snd.
    assert (Lt : length ks = length (combine ks ts)) by (rewrite combine_length; lia).
    assert (Kf : ks = map fst (combine ks ts)).
    { clear - Lk. revert ts Lk. induction ks as [|k ks IH]; intros [|t ts] L; cbn in *; try discriminate; auto. f_equal. apply IH. lia. }
    assert (R := regroup okey_eqb okey_same fst (combine ks ts)). rewrite <- Kf, <- Lt in R. fold trows in R. rewrite R; clear R.
    2: intros; apply okey_same_eq.
    2:{ intros [k t] k' Ip. apply in_combine_l in Ip. unfold ks in Ip. apply in_map_iff in Ip. destruct Ip as (c & <- & _). destruct k'; auto. }
    rewrite map_map. unfold h, trows, ks. cbn [snd]. clear - L.
    rewrite map_length. generalize 0%nat as s. revert ts L. induction cs as [|c cs IH]; intros ts L s; cbn; auto.
    destruct ts as [|t ts]; [discriminate|]. cbn. f_equal. apply IH. cbn in L; lia.
  Qed.

  Lemma from_codes_lengths codes ts : length codes <> length ts -> from_codes state codes ts = Err ValueError.
  Proof. intros H. unfold from_codes. destruct (Nat.eqb_spec (length codes) (length ts)); [contradiction|reflexivity]. Qed.
  Lemma from_codes_null codes (ts : list T) : length codes = length ts -> In None codes ->
    (forall c l, In (Some c) codes -> exists r, state c l = Ok r /\ length r = length l) ->
    from_codes state codes ts = Err ValueError.
  Proof.
    intros L Hn Ht. unfold from_codes. rewrite L, Nat.eqb_refl. cbn [negb].
    assert (X : In None (uniq okey_same codes)) by (apply uniq_In; auto; intros; apply okey_same_eq).
    assert (Y : forall k, In k (uniq okey_same codes) -> In k codes) by (intros k; apply uniq_In; intros; apply okey_same_eq).
    match goal with |- bind (mapM ?f _) _ = _ => set (F := f) end.
    assert (Z0 : forall us, (forall k, In k us -> In k codes) -> In None us -> mapM F us = Err ValueError).
    { induction us as [|k us IH]; intros Hu Hi; [easy|]. cbn. destruct k as [c|]; [|reflexivity].
      destruct Hi as [E|Hi]; [discriminate|].
      assert (exists r, F (Some c) = Ok r) as (r & ->).
      { unfold F. rewrite take_positions by auto. cbn [bind]. destruct (Ht c (map (fun p => snd (snd p)) (filter (fun p => okey_eqb (fst (snd p)) (Some c)) (combine (seq 0 (length codes)) (combine codes ts))))) as (r & -> & Lr).
        apply Hu. now left. cbn [bind]. rewrite zip_opt_ok; eauto. rewrite Lr. unfold positions. rewrite !map_length.
        clear - L. generalize 0%nat. revert ts L. induction codes as [|x xs IH]; intros ts L s; cbn; auto. destruct ts; [discriminate|]. cbn.
        destruct (okey_eqb x (Some c)); cbn; rewrite (IH ts); auto. }
      cbn [bind]. rewrite IH; auto. intros; apply Hu; now right. }
    rewrite Z0; auto.
  Qed.

  Lemma exposure_observers_rows {X} (code : X -> string) (mid : X -> T) (xs : list X) : xs <> [] ->
    (forall c l, In c (map code xs) -> state c l = Ok (map (st c) l)) ->
    exposure_observers state code mid xs = Ok (map (fun x => (code x, st (code x) (mid x))) xs).
  Proof.
    intros Hn H. unfold exposure_observers. set (ks := map code xs).
    set (trows := combine (seq 0 (length xs)) xs).
    assert (Fil : forall c, filter (fun x => String.eqb (code x) c) xs = map snd (filter (fun p => String.eqb (code (snd p)) c) trows)).
    { intros c. unfold trows. generalize 0%nat. clear. induction xs as [|x xs IH]; intros s; cbn; auto.
      destruct (String.eqb (code x) c); cbn; now rewrite <- IH. }
    assert (Pos : forall c, positions String.eqb c ks = map fst (filter (fun p => String.eqb (code (snd p)) c) trows)).
    { intros c. unfold positions, ks, trows. rewrite map_length. generalize 0%nat. clear. induction xs as [|x xs IH]; intros s; cbn; auto.
      destruct (String.eqb (code x) c); cbn; now rewrite IH. }
    rewrite (mapM_all_ok _ (fun c => (map fst (filter (fun p => String.eqb (code (snd p)) c) trows),
       map (fun p => (code (snd p), st (code (snd p)) (mid (snd p)))) (filter (fun p => String.eqb (code (snd p)) c) trows)))).
    2:{ intros c Ic. apply uniq_In in Ic; [|intros; apply String.eqb_eq]. rewrite H by auto. cbn [bind]. rewrite Pos, Fil, !map_map.
        f_equal. f_equal. apply map_ext_in. intros p Ip. apply filter_In in Ip. destruct Ip as [_ Ip]. apply String.eqb_eq in Ip. now subst. }
    cbn [bind]. destruct (uniq String.eqb ks) as [|k0 us] eqn:Eu.
    { exfalso. destruct xs as [|x xs]; [congruence|]. assert (In (code x) (uniq String.eqb ks)) by (apply uniq_In; [intros; apply String.eqb_eq|now left]).
      rewrite Eu in *. easy. }
    rewrite <- Eu. destruct (map _ (uniq String.eqb ks)) as [|p0 ps] eqn:Ep. { rewrite Eu in Ep. discriminate. }
    rewrite <- Ep. clear Ep p0 ps. rewrite !map_map. cbn [fst snd].
    set (F := fun c => filter (fun p : nat * X => String.eqb (code (snd p)) c) trows).
    rewrite <- (map_map F (map fst)), <- (map_map F (map (fun p => (code (snd p), st (code (snd p)) (mid (snd p)))))), <- !concat_map.
    set (all := concat (map F (uniq String.eqb ks))).
    rewrite take_argsort by now rewrite !map_length.
    assert (C : combine (map fst all) (map (fun p => (code (snd p), st (code (snd p)) (mid (snd p)))) all)
       = map (fun p => (fst p, (code (snd p), st (code (snd p)) (mid (snd p))))) all).
    { clear. induction all; cbn; auto. now f_equal. }
    rewrite C, (sort_map_snd (fun p => (code (snd p), st (code (snd p)) (mid (snd p))))), map_map. cbn [snd].
    assert (R : sort ileb all = trows).
    { apply regroup. intros; apply String.eqb_eq. auto. }
    rewrite R. unfold trows. f_equal. generalize 0%nat. clear. induction xs as [|x xs IH]; intros s; cbn; auto. f_equal. auto.
  Qed.
End FromCodesProofs.

(* ------------------------------------------------------------- rotation ---- *)
Section RotationProofs.
  Context {St : Type} (rot : string -> string -> row -> St -> St).
  Lemma rotation_rows fin fout (cs : list (@frow St)) si so :
    spice_name fin = Ok si -> spice_name fout = Ok so -> cs <> [] ->
    (forall a b, In a cs -> In b cs -> f_origin a = f_origin b) ->
    apply_time_varying_rotation rot fin fout cs =
    Ok (map (fun r => mkfrow (f_time r) (f_origin r) (rot si so (f_time r) (f_state r))) cs).
  Proof.
    intros Hi Ho Hn Hor. unfold apply_time_varying_rotation.
    assert (U : length (uniq String.eqb (map f_origin cs)) = 1%nat).
    { destruct cs as [|r cs]; [congruence|].
      assert (A : forall k, In k (uniq String.eqb (map f_origin (r :: cs))) -> k = f_origin r).
      { intros k Hk. apply uniq_In in Hk; [|intros; apply String.eqb_eq]. apply in_map_iff in Hk. destruct Hk as (x & <- & Ix).
        apply Hor; auto. now left. }
      assert (N : NoDup (uniq String.eqb (map f_origin (r :: cs)))) by (apply uniq_NoDup; intros; apply String.eqb_eq).
      assert (I : In (f_origin r) (uniq String.eqb (map f_origin (r :: cs)))) by (apply uniq_In; [intros; apply String.eqb_eq|now left]).
      destruct (uniq String.eqb (map f_origin (r :: cs))) as [|a [|b l]]; [easy|reflexivity|]. exfalso.
      assert (a = b) by (rewrite (A a), (A b); cbn; auto). subst. inversion N as [|? ? N1 _]. apply N1. now left. }
    rewrite U. cbn [Nat.eqb negb]. rewrite Ho, Hi. cbn [bind]. set (ks := map f_time cs). set (ut := uniq row_eqb ks).
    set (trows := combine (seq 0 (length cs)) cs).
    assert (Fil : forall c, filter (fun x => row_eqb (f_time x) c) cs = map snd (filter (fun p => row_eqb (f_time (snd p)) c) trows)).
    { intros c. unfold trows. generalize 0%nat. clear. induction cs as [|x xs IH]; intros s; cbn; auto.
      destruct (row_eqb (f_time x) c); cbn; now rewrite <- IH. }
    assert (Pos : forall c, positions row_eqb c ks = map fst (filter (fun p => row_eqb (f_time (snd p)) c) trows)).
    { intros c. unfold positions, ks, trows. rewrite map_length. generalize 0%nat. clear. induction cs as [|x xs IH]; intros s; cbn; auto.
      destruct (row_eqb (f_time x) c); cbn; now rewrite IH. }
    set (G := fun p : nat * @frow St => mkfrow (f_time (snd p)) (f_origin (snd p)) (rot si so (f_time (snd p)) (f_state (snd p)))).
    set (F := fun c => filter (fun p : nat * @frow St => row_eqb (f_time (snd p)) c) trows).
    assert (E1 : map (fun t => positions row_eqb t ks) ut = map (map fst) (map F ut)) by (rewrite map_map; apply map_ext; intros; apply Pos).
    assert (E2 : map (fun t => map (fun r => mkfrow (f_time r) (f_origin r) (rot si so t (f_state r))) (filter (fun r => row_eqb (f_time r) t) cs)) ut = map (map G) (map F ut)).
    { rewrite map_map. apply map_ext. intros t. rewrite Fil, map_map. apply map_ext_in. intros p Ip. apply filter_In in Ip. destruct Ip as [_ Ip].
      apply row_eqb_spec in Ip. unfold G. now rewrite Ip. }
    rewrite E1, E2, <- !concat_map. set (all := concat (map F ut)). rewrite take_argsort by now rewrite !map_length.
    assert (C : combine (map fst all) (map G all) = map (fun p => (fst p, G p)) all) by (clear; induction all; cbn; auto; now f_equal).
    rewrite C, (sort_map_snd G), map_map. cbn [snd].
    assert (R : sort ileb all = trows). { apply regroup. intros; apply row_eqb_spec. auto. }
    rewrite R. unfold trows, G. f_equal. generalize 0%nat. clear. induction cs as [|x xs IH]; intros s; cbn; auto. f_equal. auto.
  Qed.
  Lemma rotation_errors fin fout (cs : list (@frow St)) :
    (cs = [] -> apply_time_varying_rotation rot fin fout cs = Err AssertionError) /\
    ((exists a b, In a cs /\ In b cs /\ f_origin a <> f_origin b) -> apply_time_varying_rotation rot fin fout cs = Err AssertionError).
  Proof.
    split. intros ->. reflexivity. intros (a & b & Ia & Ib & N). unfold apply_time_varying_rotation.
    destruct (Nat.eqb_spec (length (uniq String.eqb (map f_origin cs))) 1) as [E|]; [|reflexivity]. exfalso. apply N.
    assert (forall x, In x cs -> In (f_origin x) (uniq String.eqb (map f_origin cs))) as A by (intros; apply uniq_In; [intros; apply String.eqb_eq|now apply in_map]).
    pose proof (A a Ia) as A1. pose proof (A b Ib) as A2. destruct (uniq String.eqb (map f_origin cs)) as [|k [|k' l]]; try discriminate E.
    destruct A1 as [<-|[]], A2 as [<-|[]]. reflexivity.
  Qed.
End RotationProofs.

(* --------------------------------------------------------------- groups ---- *)
Lemma NoDup_app_disj {A} (l m : list A) : NoDup l -> NoDup m -> (forall x, In x l -> In x m -> False) -> NoDup (l ++ m).
Proof.
  induction l as [|a l IH]; cbn; intros Nl Nm D; auto. inversion Nl; subst. constructor.
  - rewrite in_app_iff. intros [?|?]; [auto|]. apply (D a); auto.
  - apply IH; auto. intros x ? ?. apply (D x); auto.
Qed.
Lemma split_generic {A K} (same : K -> K -> bool) (key : A -> K) (l : list A) (ks : list K) :
  (forall x y, same x y = true <-> x = y) -> NoDup ks -> (forall k, In k ks <-> In k (map key l)) ->
  split_by key l (map (fun k => (k, filter (fun x => same (key x) k) l)) ks).
Proof.
  intros He Hn Hi. unfold split_by. rewrite !map_map. cbn [fst snd]. rewrite map_id. split; auto. split; [|split].
  - intros k. rewrite Hi, in_map_iff. split; intros (x & ? & ?); eauto.
  - intros k g Hg. apply in_map_iff in Hg. destruct Hg as (k' & E & _). injection E as <- <-.
    exists (fun x => same (key x) k'). split; auto.
  - apply filter_perm_key; auto. intros x Ix. apply Hi. now apply in_map.
Qed.

Section GroupProofs.
  Context {A : Type}.
  Lemma group_by_key_split (key : A -> string) l : split_by key l (group_by_key key l).
  Proof.
    apply split_generic. intros; apply String.eqb_eq. apply uniq_NoDup; intros; apply String.eqb_eq.
    intros k. apply uniq_In. intros; apply String.eqb_eq.
  Qed.
  Lemma iterate_codes_split (key : A -> string) l : split_by key l (iterate_codes str_leb key l) /\
    StronglySorted (fun a b => str_leb a b = true) (map fst (iterate_codes str_leb key l)).
  Proof.
    split.
    - apply split_generic. intros; apply String.eqb_eq.
      + eapply Permutation_NoDup. apply sort_perm. apply uniq_NoDup; intros; apply String.eqb_eq.
      + intros k. rewrite sort_In. apply uniq_In. intros; apply String.eqb_eq.
    - unfold iterate_codes. rewrite map_map. cbn. rewrite map_id. apply sort_sorted. apply str_leb_total. apply str_leb_trans.
  Qed.
  Lemma healpixel_split (pix : A -> Z) l : split_by pix l (group_by_healpixel pix l) /\ StronglySorted Z.le (map fst (group_by_healpixel pix l)).
  Proof.
    split.
    - apply split_generic. intros; apply Z.eqb_eq.
      + eapply Permutation_NoDup. apply sort_perm. apply uniq_NoDup; intros; apply Z.eqb_eq.
      + intros k. rewrite sort_In. apply uniq_In. intros; apply Z.eqb_eq.
    - unfold group_by_healpixel. rewrite map_map. cbn. rewrite map_id.
      assert (S : StronglySorted (le Z.leb) (sort Z.leb (uniq Z.eqb (map pix l)))).
      { apply sort_sorted. intros; unfold le; lia. intros x y z; unfold le; lia. }
      induction S as [|x xs S IH F]; constructor; auto. eapply Forall_impl; [|exact F]. intros y Hy. unfold le in Hy. lia.
  Qed.
  Lemma filter_sort_by (key : A -> option string) k l :
    filter (fun x => okey_same (key x) k) (sort_by str_leb key l) = filter (fun x => okey_same (key x) k) l.
  Proof.
    apply sort_filter. intros x y Hx Hy. apply okey_same_eq in Hx, Hy. rewrite Hx, Hy. destruct k as [s|]; cbn; auto.
    destruct (str_leb_total s s); auto.
  Qed.
  Lemma uniq_sameNone (key : A -> option string) l : let ids := uniq okey_same (map key l) in
    NoDup (filter (fun k => negb (is_null k)) ids ++ (if existsb is_null ids then [None] else [])) /\
    (forall k, In k (filter (fun k => negb (is_null k)) ids ++ (if existsb is_null ids then [None] else [])) <-> In k ids).
  Proof.
    cbv zeta. set (ids := uniq okey_same (map key l)).
    assert (N : NoDup ids) by (apply uniq_NoDup; intros; apply okey_same_eq). split.
    - apply NoDup_app_disj.
      + now apply NoDup_filter.
      + destruct (existsb is_null ids); repeat constructor; easy.
      + intros x Hx Hy. apply filter_In in Hx. destruct (existsb is_null ids); [|easy]. destruct Hy as [<-|[]]. now destruct Hx.
    - intros k. rewrite in_app_iff, filter_In. destruct (existsb is_null ids) eqn:E.
      + apply existsb_exists in E. destruct E as (x & Ix & Nx). destruct x; [discriminate|]. destruct k as [s|]; cbn; intuition; try discriminate.
      + destruct k as [s|]; cbn; intuition. exfalso. assert (existsb is_null ids = true); [|congruence]. apply existsb_exists. exists None. auto.
  Qed.
  Lemma group_by_object_split (key : A -> option string) l :
    exists ks, length ks = length (group_by_object str_leb key l) /\ split_by key l (combine ks (group_by_object str_leb key l)) /\
      (forall i, nth_error ks i = Some None -> Datatypes.S i = length ks).
  Proof.
    destruct (uniq_sameNone key l) as [N I]. set (ids := uniq okey_same (map key l)) in *.
    set (nn := filter (fun k => negb (is_null k)) ids) in *.
    set (ks := nn ++ (if existsb is_null ids then [None] else [])) in *.
    exists ks.
    assert (E : group_by_object str_leb key l = map (fun k => filter (fun x => okey_same (key x) k) l) ks).
    { unfold group_by_object. fold ids nn. unfold ks. rewrite map_app. f_equal.
      - apply map_ext_in. intros k Ik. apply filter_In in Ik. destruct Ik as [_ Nk]. rewrite <- filter_sort_by.
        apply filter_ext. intros x. destruct (key x), k; auto; discriminate.
      - destruct (existsb is_null ids); auto. cbn. f_equal. rewrite <- filter_sort_by. apply filter_ext. intros x. now destruct (key x). }
    rewrite E. split. now rewrite map_length. split.
    - assert (C : combine ks (map (fun k => filter (fun x => okey_same (key x) k) l) ks) = map (fun k => (k, filter (fun x => okey_same (key x) k) l)) ks) by (clear; induction ks; cbn; auto; now f_equal).
      rewrite C. apply split_generic; auto. intros; apply okey_same_eq. intros k. rewrite I. apply uniq_In. intros; apply okey_same_eq.
    - intros i Hi. unfold ks in *. destruct (Nat.lt_ge_cases i (length nn)) as [Hl|Hl].
      + rewrite nth_error_app1 in Hi by auto. apply nth_error_In in Hi. apply filter_In in Hi. now destruct Hi.
      + rewrite nth_error_app2 in Hi by auto. rewrite app_length. destruct (existsb is_null ids); cbn in *.
        * destruct (i - length nn)%nat eqn:D; [lia|]. cbn in Hi. now destruct n.
        * destruct (i - length nn)%nat; discriminate.
  Qed.
  Lemma group_by_exposure_split (key : A -> option string) l : (forall x, In x l -> key x <> None) ->
    exists ks, length ks = length (group_by_exposure str_leb key l) /\ split_by key l (combine ks (group_by_exposure str_leb key l)).
  Proof.
    intros Hk. set (ks := uniq okey_same (map key l)). exists ks.
    assert (E : group_by_exposure str_leb key l = map (fun k => filter (fun x => okey_same (key x) k) l) ks).
    { unfold group_by_exposure. fold ks. apply map_ext_in. intros k Ik. rewrite <- filter_sort_by. apply filter_ext_in. intros x Ix.
      apply sort_In in Ix. apply Hk in Ix. destruct (key x), k; auto; congruence. }
    rewrite E. split. now rewrite map_length.
    assert (C : combine ks (map (fun k => filter (fun x => okey_same (key x) k) l) ks) = map (fun k => (k, filter (fun x => okey_same (key x) k) l)) ks) by (clear; induction ks; cbn; auto; now f_equal).
    rewrite C. apply split_generic. intros; apply okey_same_eq. apply uniq_NoDup; intros; apply okey_same_eq.
    intros k. apply uniq_In. intros; apply okey_same_eq.
  Qed.
  (* rows without an exposure are in no group *)
  Lemma group_by_exposure_null (key : A -> option string) l g x : In g (group_by_exposure str_leb key l) -> In x g -> key x <> None.
  Proof.
    unfold group_by_exposure. intros Hg Hx. apply in_map_iff in Hg. destruct Hg as (k & <- & _). apply filter_In in Hx.
    destruct Hx as [_ Hx]. destruct (key x); [congruence|discriminate].
  Qed.
End GroupProofs.

(* -------------------------------------------------------------- linkage ---- *)
Lemma positions_In {K} (eqb : K -> K -> bool) k l i : (forall x y, eqb x y = true <-> x = y) ->
  In i (positions eqb k l) <-> nth_error l i = Some k.
Proof.
  intros He. unfold positions. rewrite in_map_iff. split.
  - intros ([j x] & <- & H). apply filter_In in H. destruct H as [H E]. apply combine_seq_In in H. apply He in E. cbn in *. subst.
    destruct H as [_ H]. now rewrite Nat.sub_0_r in H.
  - intros H. exists (i, k). split; auto. apply filter_In. split. apply combine_seq_In. rewrite Nat.sub_0_r. split; auto. lia. now apply He.
Qed.
Lemma link_groups_paired {K} (eqb : K -> K -> bool) left right i j : (forall x y, eqb x y = true <-> x = y) ->
  paired (link_groups eqb left right) i j <-> exists k, nth_error left i = Some k /\ nth_error right j = Some k.
Proof.
  intros He. unfold paired, link_groups. split.
  - intros (k & ls & rs & H & Hi & Hj). apply in_map_iff in H. destruct H as (k' & E & _). injection E as <- <- <-.
    apply positions_In in Hi, Hj; auto. eauto.
  - intros (k & Hi & Hj). exists k, (positions eqb k left), (positions eqb k right). split.
    + apply in_map_iff. exists k. split; auto. apply uniq_In; auto. apply in_or_app. left. eapply nth_error_In; eauto.
    + split; apply positions_In; auto.
Qed.
Lemma okeyp_eqb_eq a b : okeyp_eqb a b = true <-> a = b.
Proof.
  destruct a as [r c], b as [r' c']. unfold okeyp_eqb. cbn. rewrite andb_true_iff, row_eqb_spec, String.eqb_eq. split.
  intros [-> ->]; auto. intros [= -> ->]; auto.
Qed.

Lemma combine_map_l {A B C} (f : A -> B) (l : list A) (m : list C) : combine (map f l) m = map (fun p => (f (fst p), snd p)) (combine l m).
Proof. revert m. induction l as [|a l IH]; intros [|b m]; cbn; auto. now rewrite IH. Qed.
Lemma nth_error_combine {A B} (l : list A) (m : list B) i p : nth_error (combine l m) i = Some p <-> nth_error l i = Some (fst p) /\ nth_error m i = Some (snd p).
Proof.
  revert m i. induction l as [|a l IH]; intros m i.
  - cbn. destruct i; cbn; split; try discriminate; intros [H _]; discriminate.
  - destruct m as [|b m].
    + cbn. destruct i; cbn; split; try discriminate; intros [_ H]; discriminate.
    + destruct i; cbn; [|apply IH]. destruct p as [x y]. cbn. split. intros [= -> ->]; auto. intros [[= ->] [= ->]]; auto.
Qed.

Lemma link_to_observers_ok E p eph ec obs oc obs' : p <> OtherPrecision ->
  (if String.eqb (scale eph) (scale obs) then Ok obs else rescale E obs (scale eph)) = Ok obs' ->
  Forall normal (rows eph) -> Forall normal (rows obs') ->
  exists gs w, link_to_observers E p eph ec obs oc = Ok (gs, w) /\
    NoDup (map (fun g => fst (fst g)) gs) /\
    (forall i j, paired gs i j <-> exists r r' c,
       nth_error (rows eph) i = Some r /\ nth_error ec i = Some c /\ nth_error (rows obs') j = Some r' /\ nth_error oc j = Some c /\
       truncated (unit_ns p) r = truncated (unit_ns p) r') /\
    (w = false ->
     (forall i r c, nth_error (rows eph) i = Some r -> nth_error ec i = Some c -> exists j, paired gs i j) ->
     forall j j' r r' c, nth_error (rows obs') j = Some r -> nth_error oc j = Some c -> nth_error (rows obs') j' = Some r' -> nth_error oc j' = Some c ->
       truncated (unit_ns p) r = truncated (unit_ns p) r' -> r = r').
Proof.
  intros Hp Hs Ne No. unfold link_to_observers. rewrite Hs. cbn [bind]. rewrite !rounded_table by auto. cbn [bind rows].
  fold (truncated (unit_ns p)). set (tr := fun q : row * string => (truncated (unit_ns p) (fst q), snd q)).
  rewrite !combine_map_l. fold tr.
  change (fun p0 : row * string => (mkrow (days (fst p0)) (nanos (fst p0) - nanos (fst p0) mod unit_ns p), snd p0)) with tr.
  set (lk := combine (rows eph) ec). set (rk := combine (rows obs') oc).
  set (gs := link_groups okeyp_eqb (map tr lk) (map tr rk)).
  assert (P : forall i j, paired gs i j <-> exists r r' c,
       nth_error (rows eph) i = Some r /\ nth_error ec i = Some c /\ nth_error (rows obs') j = Some r' /\ nth_error oc j = Some c /\
       truncated (unit_ns p) r = truncated (unit_ns p) r').
  { intros i j. unfold gs. rewrite link_groups_paired by exact okeyp_eqb_eq. split.
    - intros (k & Hi & Hj). rewrite nth_error_map in Hi, Hj.
      destruct (nth_error lk i) as [[r c]|] eqn:Ei; [|discriminate]. destruct (nth_error rk j) as [[r' c']|] eqn:Ej; [|discriminate].
      cbn in Hi, Hj. injection Hi as <-. injection Hj as E1 E2. cbn in E2. subst c'.
      apply nth_error_combine in Ei, Ej. cbn [fst snd] in Ei, Ej. exists r, r', c. destruct Ei, Ej.
      split; [|split; [|split; [|split]]]; auto. unfold truncated. now rewrite E1, E2.
    - intros (r & r' & c & H1 & H2 & H3 & H4 & H5). exists (truncated (unit_ns p) r, c). rewrite !nth_error_map.
      assert (X1 : nth_error lk i = Some (r, c)) by (apply nth_error_combine; auto).
      assert (X2 : nth_error rk j = Some (r', c)) by (apply nth_error_combine; auto).
      rewrite X1, X2. unfold tr. cbn [option_map fst snd]. rewrite H5. auto. }
  eexists gs, _. split; [reflexivity|]. split; [|split; [exact P|]].
  - unfold gs, link_groups. rewrite map_map. cbn. rewrite map_id. apply uniq_NoDup. exact okeyp_eqb_eq.
  - intros W Cov j j' r r' c Hj Hc Hj' Hc' Et. apply negb_false_iff, Nat.eqb_eq in W.
    unfold gs, link_groups in W. rewrite map_length in W.
    set (U := uniq okeyp_eqb rk) in *. set (V := uniq okeyp_eqb (map tr lk ++ map tr rk)) in *.
    assert (NV : NoDup V) by (apply uniq_NoDup; exact okeyp_eqb_eq).
    assert (VI : incl V (map tr U)).
    { intros k Hk. apply uniq_In in Hk; [|exact okeyp_eqb_eq]. apply in_app_iff in Hk.
      assert (Hk' : In k (map tr rk)).
      { destruct Hk as [Hk|Hk]; auto. apply in_map_iff in Hk. destruct Hk as ([re ce] & <- & Hk). apply In_nth_error in Hk. destruct Hk as (i & Hi).
        apply nth_error_combine in Hi. cbn in Hi. destruct Hi as [H1 H2]. destruct (Cov i re ce H1 H2) as (jj & Hp'). apply P in Hp'.
        destruct Hp' as (a & b & c0 & A1 & A2 & A3 & A4 & A5). rewrite H1 in A1. rewrite H2 in A2. injection A1 as <-. injection A2 as <-.
        unfold tr. cbn [fst snd]. rewrite A5. apply in_map_iff. exists (b, ce). split; auto.
        apply (nth_error_In rk jj). now apply nth_error_combine. }
      apply in_map_iff in Hk'. destruct Hk' as (x & <- & Hx). apply in_map. apply uniq_In; auto. exact okeyp_eqb_eq. }
    assert (NU : NoDup (map tr U)). { change (length U = length V) in W. apply (NoDup_incl_NoDup NV); auto. rewrite map_length. change (length U <= length V)%nat. rewrite W. auto. }
    assert (In (r, c) U). { apply uniq_In. exact okeyp_eqb_eq. apply (nth_error_In rk j). now apply nth_error_combine. }
    assert (In (r', c) U). { apply uniq_In. exact okeyp_eqb_eq. apply (nth_error_In rk j'). now apply nth_error_combine. }
    assert (X : (r, c) = (r', c)). { eapply NoDup_map_eq; eauto. unfold tr. cbn [fst snd]. now rewrite Et. }
    congruence.
Qed.
