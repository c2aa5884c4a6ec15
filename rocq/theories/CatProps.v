(* C235-C237: the source catalogue. *)
From Coq Require Import QArith ZArith String List Bool Lia Lqa Permutation.
From Verif Require Import Base ListLemmas ResModel TimeModel TimeSpec TableModel TableProofs FitModel FitSpec FitProofs MpcModel CatModel CatSpec CatProofs.
Import ListNotations.
Open Scope string_scope.
Open Scope list_scope.
Open Scope nat_scope.

(* C235: each row of the coordinates is that of its source, with the uncertainties in degrees *)
Theorem C235_coordinates : forall l, List.length (coordinates l) = List.length l /\
  forall i s, nth_error l i = Some s -> exists p, nth_error (coordinates l) i = Some p /\
    p_lon p = Some (s_ra s) /\ p_lat p = Some (s_dec s) /\ p_rho p = None /\ p_time p = s_time s /\ p_origin p = s_code s /\ p_frame p = "equatorial" /\
    (forall a, s_ra_sigma s = Some a -> exists v, p_cov p 1 1 = Some v /\ (v * 12960000 == a * a)%Q) /\ (s_ra_sigma s = None -> p_cov p 1 1 = None) /\
    (forall b, s_dec_sigma s = Some b -> exists v, p_cov p 2 2 = Some v /\ (v * 12960000 == b * b)%Q) /\ (s_dec_sigma s = None -> p_cov p 2 2 = None) /\
    (forall a b c, s_ra_sigma s = Some a -> s_dec_sigma s = Some b -> s_corr s = Some c -> exists v, p_cov p 1 2 = Some v /\ p_cov p 2 1 = Some v /\ (v * 12960000 == c * a * b)%Q) /\
    (s_ra_sigma s = None \/ s_dec_sigma s = None \/ s_corr s = None -> p_cov p 1 2 = None /\ p_cov p 2 1 = None) /\
    (forall j k, ~ (1 <= j <= 2 /\ 1 <= k <= 2) -> p_cov p j k = None).
Proof.
  intro l. split; [apply map_length|]. intros i s H. unfold coordinates. eexists. split; [apply map_nth_error; exact H|]. cbn [p_lon p_lat p_rho p_time p_origin p_frame p_cov].
  repeat (split; [reflexivity|]). unfold catalog_covariance, times, degrees.
  split. { intros a ->. eexists. split; [reflexivity|]. cbv beta. change (inject_Z 3600) with 3600%Q. field. }
  split. { now intros ->. }
  split. { intros a ->. eexists. split; [reflexivity|]. cbv beta. change (inject_Z 3600) with 3600%Q. field. }
  split. { now intros ->. }
  split. { intros a b c -> -> ->. eexists. split; [reflexivity|]. split; [reflexivity|]. cbv beta. change (inject_Z 3600) with 3600%Q. field. }
  split. { intro X. destruct (s_ra_sigma s), (s_dec_sigma s), (s_corr s); cbn; auto. destruct X as [X|[X|X]]; discriminate. }
  intros j k N. destruct j as [|[|[|j]]], k as [|[|[|k]]]; try reflexivity; exfalso; apply N; lia.
Qed.
Lemma square_nonneg (x : Q) : (0 <= x * x)%Q.
Proof. destruct x as [n d]. unfold Qle, Qmult. cbn -[Z.mul]. nia. Qed.
(* C235: for an accepted source the block of right ascension and declination is a covariance *)
Theorem C235_semidefinite : forall s a b c, accepted s -> s_ra_sigma s = Some a -> s_dec_sigma s = Some b -> s_corr s = Some c ->
  forall p, In p (coordinates [s]) -> exists u v w, p_cov p 1 1 = Some u /\ p_cov p 1 2 = Some v /\ p_cov p 2 2 = Some w /\
    (0 <= u)%Q /\ (0 <= w)%Q /\ (v * v <= u * w)%Q /\ forall x y, (0 <= u * x * x + 2 * v * x * y + w * y * y)%Q.
Proof.
  intros s a b c A Ha Hb Hc p [<-|[]]. cbn [p_cov]. unfold catalog_covariance, times, degrees. rewrite Ha, Hb, Hc. cbn [option_map]. destruct (A c Hc) as [L U].
  do 3 eexists. split; [reflexivity|]. split; [reflexivity|]. split; [reflexivity|]. set (g := (a / inject_Z 3600)%Q). set (h := (b / inject_Z 3600)%Q). 
  assert (C : (0 <= 1 - c * c)%Q) by nra.
  split; [apply square_nonneg|]. split; [apply square_nonneg|]. clearbody g h. split; [|intros x y; assert (E : (g * g * x * x + 2 * (c * g * h) * x * y + h * h * y * y == (g * x + c * h * y) * (g * x + c * h * y) + (1 - c * c) * ((h * y) * (h * y)))%Q) by ring; rewrite E].
  - assert (E : (g * g * (h * h) - c * g * h * (c * g * h) == (1 - c * c) * ((g * h) * (g * h)))%Q) by ring. assert (P : (0 <= (1 - c * c) * ((g * h) * (g * h)))%Q) by (apply Qmult_le_0_compat; [exact C|apply square_nonneg]). lra.
  - assert (P : (0 <= (1 - c * c) * ((h * y) * (h * y)))%Q) by (apply Qmult_le_0_compat; [exact C|apply square_nonneg]). assert (P' : (0 <= (g * x + c * h * y) * (g * x + c * h * y))%Q) by apply square_nonneg. lra.
Qed.
Definition test_source (i e code : string) : source :=
  mksrc i (Some e) (mkrow 60000 0) 10 20 (Some 36%Q) (Some 18%Q) (Some (1 # 2)) code (Some "g") (Some (mkrow 60000 86390000000000)) (Some 30%Q) None None.
Example C235_case : accepted (test_source "a" "e" "X05") /\
  map (fun p => (option_map Qred (p_cov p 1 1), option_map Qred (p_cov p 1 2), option_map Qred (p_cov p 2 2), p_cov p 0 0)) (coordinates [test_source "a" "e" "X05"]) =
    [(Some (1 # 10000), Some (1 # 40000), Some (1 # 40000), None)]%Q.
Proof. split; [intros c [= <-]; lra|]. vm_compute. reflexivity. Qed.

(* C236: the exposures of a catalogue: each once, as the first source of it says, in the order of the sources.
   Missing: that all sources of an exposure say the same, and that every catalogue has a table of exposures. *)
Theorem C236_exposures_partial : forall l xs, exposures l = Ok xs -> exists ys, Forall2 describes l ys /\ subseq xs ys /\ NoDup (map x_id xs) /\
  (forall s, In s l -> exists x, In x xs /\ s_exposure s = Some (x_id x)) /\
  (forall x, In x xs -> exists l1 s l2, l = l1 ++ s :: l2 /\ describes s x /\ forall s', In s' l1 -> s_exposure s' <> s_exposure s).
Proof.
  intros l xs H. unfold exposures in H. destruct (mapM exposure_row l) as [ys|] eqn:E; [|discriminate]. cbn [bind] in H. injection H as <-. apply rows_forall2 in E. exists ys.
  split; [exact E|]. split; [unfold drop_duplicates, uniq; apply uniq_aux_sub|]. split; [apply (drop_unique x_id _ same_id true ys)|]. split.
  - intros s I. apply In_nth_error in I. destruct I as [n En]. assert (X : exists y, nth_error ys n = Some y /\ describes s y).
    { clear - E En. revert n En. induction E as [|a b l ys D F IH]; intros [|n] En; cbn in En; try discriminate; [injection En as ->; exists b; auto|now apply IH]. }
    destruct X as (y & Ey & D). destruct (drop_covers x_id _ same_id true ys y (nth_error_In _ _ Ey)) as (x & Ix & Kx). exists x. split; [exact Ix|]. rewrite Kx. apply D.
  - intros x I. apply (drop_keys x_id _ same_id true) in I. destruct I as (y1 & y2 & -> & N). apply Forall2_app_inv_r in E. destruct E as (l1 & l2 & F1 & F2 & ->).
    inversion F2 as [|s ? l2' ? D F2']; subst. exists l1, s, l2'. split; [reflexivity|]. split; [exact D|]. intros s' I' Q. apply N. clear F2 F2'. induction F1 as [|a b l1 y1 D' F1 IH]; [destruct I'|]. destruct I' as [<-|I'].
    + left. destruct D as [D _]. destruct D' as [D' _]. rewrite D, D' in Q. now injection Q.
    + right. apply IH; [|exact I']. intro C. apply N. now right.
Qed.
(* C236: there is a table of exposures exactly if every source has all details of its exposure *)
Theorem C236_errors : forall l, (exists xs, exposures l = Ok xs) <-> (forall s, In s l -> exists x, describes s x).
Proof.
  intro l. unfold exposures. split.
  - intros [xs H] s I. destruct (mapM exposure_row l) as [ys|] eqn:E; [|discriminate]. apply rows_forall2 in E. clear H. induction E as [|a b l ys D F IH]; [destruct I|]. destruct I as [<-|I]; [eauto|auto].
  - intro H. assert (X : exists ys, Forall2 describes l ys).
    { induction l as [|s l IH]; [exists []; constructor|]. destruct (H s (or_introl eq_refl)) as [x D]. destruct IH as [ys F]; [intros; apply H; now right|]. exists (x :: ys). now constructor. }
    destruct X as [ys F]. apply rows_forall2 in F. rewrite F. cbn. eauto.
Qed.
(* two sources of exposures of different observatories that have the same id: one exposure, without a word *)
Theorem C236_conflict_refuted : exists s s' x, exposures [s; s'] = Ok [x] /\ s_code s <> s_code s' /\ s_code s' <> x_code x /\ s_exposure s' = Some (x_id x).
Proof. exists (test_source "a" "e" "X05"), (test_source "b" "e" "W84"). eexists. split; [vm_compute; reflexivity|]. split; [discriminate|]. split; [discriminate|reflexivity]. Qed.
(* one source without an exposure id, or in an exposure of more than an hour, and the catalogue has no exposures *)
Theorem C236_unlinked_refuted : exists s s' s'', s_exposure s' = None /\ s_duration s'' = Some 3601%Q /\ (exists x, exposures [s] = Ok [x]) /\ exposures [s; s'] = Err ValueError /\ exposures [s; s''] = Err ValueError.
Proof.
  exists (test_source "a" "e" "X05"), (mksrc "b" None (mkrow 60000 0) 10 20 None None None "X05" None None None None None),
    (mksrc "c" (Some "f") (mkrow 60000 0) 10 20 None None None "X05" (Some "g") (Some (mkrow 60000 0)) (Some 3601%Q) None None).
  split; [reflexivity|]. split; [reflexivity|]. split; [eexists; vm_compute; reflexivity|]. split; vm_compute; reflexivity.
Qed.
Example C236_case : exists xs, exposures [test_source "a" "e" "X05"; test_source "b" "f" "W84"; test_source "c" "e" "X05"] = Ok xs /\ map (fun x => (x_id x, x_code x)) xs = [("e", "X05"); ("f", "W84")].
Proof. eexists. split; vm_compute; reflexivity. Qed.

(* C237: the observer of a source at the middle of its exposure is that of its exposure, at start and half the duration *)
Theorem C237_midpoints : forall (S : Type) (state : string -> list row -> result (list S)) (st : string -> row -> S) l xs,
  exposures l = Ok xs -> l <> [] ->
  (forall c ts, In c (map s_code l) -> state c ts = Ok (map (st c) ts)) ->
  (forall s s', In s l -> In s' l -> s_exposure s = s_exposure s' -> s_code s = s_code s' /\ s_start s = s_start s' /\ s_duration s = s_duration s') ->
  (forall x, In x xs -> normal (x_start x) /\ interior (x_start x)) ->
  exists os xos, catalog_observers state true l = Ok os /\ observers_of_exposures state xs = Ok xos /\ List.length os = List.length l /\ List.length xos = List.length xs /\
    (forall j x, nth_error xs j = Some x -> exists t, middle_of x t /\ nth_error xos j = Some (x_code x, st (x_code x) t)) /\
    forall i s, nth_error l i = Some s -> exists j x, nth_error xs j = Some x /\ s_exposure s = Some (x_id x) /\ nth_error os i = nth_error xos j /\ nth_error os i <> None.
Proof.
  intros S state st l xs H Nl St C Nm. destruct (C236_exposures_partial l xs H) as (ys & F & Sub & ND & Cov & First).
  assert (Agree : forall s, In s l -> exists x, In x xs /\ s_exposure s = Some (x_id x) /\ s_code s = x_code x /\ source_midpoint s = Ok (midpoint x)).
  { intros s I. destruct (Cov s I) as (x & Ix & Ex). destruct (First x Ix) as (l1 & s0 & l2 & El & D & _). exists x. split; [exact Ix|]. split; [exact Ex|].
    assert (I0 : In s0 l) by (rewrite El; apply in_or_app; right; now left). destruct (C s s0 I I0) as (C1 & C2 & C3); [rewrite Ex; symmetry; apply D|].
    pose proof (midpoint_of s0 x D (proj1 (Nm x Ix))) as M. split; [rewrite C1; apply D|]. unfold source_midpoint in *. now rewrite C2, C3. }
  assert (Mid : exists ts, mapM source_midpoint l = Ok ts /\ Forall2 (fun s t => exists x, In x xs /\ s_exposure s = Some (x_id x) /\ s_code s = x_code x /\ t = midpoint x) l ts).
  { clear - Agree. induction l as [|s l IH]; [exists []; split; [reflexivity|constructor]|]. destruct (Agree s (or_introl eq_refl)) as (x & Ix & Ex & Cx & M). destruct IH as (ts & E & G); [intros; apply Agree; now right|].
    exists (midpoint x :: ts). split; [cbn; rewrite M; cbn; now rewrite E|]. constructor; [|exact G]. eauto. }
  destruct Mid as (ts & Em & G).
  assert (Hc : forall x, In x xs -> In (x_code x) (map s_code l)). { intros x Ix. destruct (First x Ix) as (l1 & s0 & l2 & -> & D & _). apply in_map_iff. exists s0. split; [apply D|apply in_or_app; right; now left]. }
  assert (Nx : xs <> []). { intros ->. destruct l as [|s l]; [congruence|]. destruct (Cov s (or_introl eq_refl)) as (x & [] & _). }
  exists (map (fun p => (fst p, st (fst p) (snd p))) (combine (map s_code l) ts)), (map (fun x => (x_code x, st (x_code x) (midpoint x))) xs).
  assert (Len : List.length (map s_code l) = List.length ts) by (rewrite map_length; clear - G; induction G; cbn; auto).
  split. { unfold catalog_observers. rewrite Em. cbn [bind]. rewrite <- map_map. apply from_codes_rows; [exact Len|exact St]. }
  split. { apply exposure_observers_rows; [exact Nx|]. intros c k I. apply St. apply in_map_iff in I. destruct I as (x & <- & I). now apply Hc. }
  split; [rewrite map_length, combine_length, <- Len, Nat.min_id; apply map_length|]. split; [apply map_length|]. split.
  - intros j x Ej. exists (midpoint x). pose proof (nth_error_In _ _ Ej) as Ix. destruct (Nm x Ix) as [N1 N2]. destruct (First x Ix) as (_ & s0 & _ & _ & D & _). split; [apply midpoint_middle; [exact N1|exact N2|apply D]|]. apply (map_nth_error (fun x => (x_code x, st (x_code x) (midpoint x))) j xs Ej).
  - intros i s Ei. assert (X : exists x, In x xs /\ s_exposure s = Some (x_id x) /\ nth_error (map (fun p => (fst p, st (fst p) (snd p))) (combine (map s_code l) ts)) i = Some (x_code x, st (x_code x) (midpoint x))).
    { clear - G Ei. revert i Ei. induction G as [|a t l ts (x & Ix & Ex & Cx & ->) G IH]; intros [|i] Ei; cbn in Ei; try discriminate; [injection Ei as ->; exists x; cbn; rewrite Cx; auto|apply (IH i Ei)]. }
    destruct X as (x & Ix & Ex & Eo). destruct (In_nth_error _ _ Ix) as [j Ej]. exists j, x. split; [exact Ej|]. split; [exact Ex|]. rewrite Eo. split; [|discriminate].
    symmetry. apply (map_nth_error (fun x => (x_code x, st (x_code x) (midpoint x))) j xs Ej).
Qed.
(* C237: otherwise the observer of a source is at the time of the source *)
Theorem C237_times : forall (S : Type) (state : string -> list row -> result (list S)) (st : string -> row -> S) l,
  (forall c ts, In c (map s_code l) -> state c ts = Ok (map (st c) ts)) ->
  catalog_observers state false l = Ok (map (fun s => (s_code s, st (s_code s) (s_time s))) l).
Proof.
  intros S state st l H. unfold catalog_observers. rewrite <- map_map. rewrite (from_codes_rows state st (map s_code l) (map s_time l)); [|now rewrite !map_length|exact H]. f_equal.
  clear H. induction l as [|s l IH]; cbn; [reflexivity|]. now rewrite IH.
Qed.
Example C237_case : exists xs os, exposures [test_source "a" "e" "X05"; test_source "b" "f" "W84"; test_source "c" "e" "X05"] = Ok xs /\
  observers_of_exposures (fun c ts => Ok ts) xs = Ok [("X05", mkrow 60001 5000000000); ("W84", mkrow 60001 5000000000)] /\
  catalog_observers (fun c ts => Ok ts) true [test_source "a" "e" "X05"; test_source "b" "f" "W84"; test_source "c" "e" "X05"] = Ok os /\
  os = [("X05", mkrow 60001 5000000000); ("W84", mkrow 60001 5000000000); ("X05", mkrow 60001 5000000000)] /\
  forall x, In x xs -> normal (x_start x) /\ interior (x_start x).
Proof.
  do 2 eexists. split; [vm_compute; reflexivity|]. split; [vm_compute; reflexivity|]. split; [vm_compute; reflexivity|]. split; [reflexivity|].
  intros x [<-|[<-|[]]]; unfold normal, interior; cbn; lia.
Qed.

Print Assumptions C235_coordinates.
Print Assumptions C235_semidefinite.
Print Assumptions C235_case.
Print Assumptions C236_exposures_partial.
Print Assumptions C236_errors.
Print Assumptions C236_conflict_refuted.
Print Assumptions C236_unlinked_refuted.
Print Assumptions C236_case.
Print Assumptions C237_midpoints.
Print Assumptions C237_times.
Print Assumptions C237_case.
