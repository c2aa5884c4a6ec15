(* Theorems for C28, C29, C31, C81 and C92-C94. *)
From Coq Require Import String Permutation Sorted.
From Verif Require Import Base TimeModel TimeSpec StrOrder TableModel TableSpec TableProofs.
Open Scope Z_scope.
Open Scope list_scope.

(* ------------------------------------------------------------------ C28 ---- *)
Theorem C28_rotation_rowwise : forall (St : Type) (rot : string -> string -> row -> St -> St) fin fout cs si so,
  spice_name fin = Ok si -> spice_name fout = Ok so -> cs <> [] ->
  (forall a b, In a cs -> In b cs -> f_origin a = f_origin b) ->
  apply_time_varying_rotation rot fin fout cs =
  Ok (map (fun r => mkfrow (f_time r) (f_origin r) (rot si so (f_time r) (f_state r))) cs).
Proof. intros. now apply rotation_rows. Qed.
(* an empty table and a table of several origins are rejected *)
Theorem C28_rotation_errors : forall (St : Type) (rot : string -> string -> row -> St -> St) fin fout cs,
  (cs = [] -> apply_time_varying_rotation rot fin fout cs = Err AssertionError) /\
  ((exists a b, In a cs /\ In b cs /\ f_origin a <> f_origin b) -> apply_time_varying_rotation rot fin fout cs = Err AssertionError).
Proof. intros. apply rotation_errors. Qed.
Definition toy_rot (si so : string) (t : row) (s : Z) : Z := 10 * s + days t.
Example C28_case :
  apply_time_varying_rotation toy_rot "ecliptic" "itrf93"
    [mkfrow (mkrow 3 0) "SUN" 1; mkfrow (mkrow 2 0) "SUN" 5; mkfrow (mkrow 3 0) "SUN" 7; mkfrow (mkrow 1 0) "SUN" 2; mkfrow (mkrow 2 0) "SUN" 8]
  = Ok [mkfrow (mkrow 3 0) "SUN" 13; mkfrow (mkrow 2 0) "SUN" 52; mkfrow (mkrow 3 0) "SUN" 73; mkfrow (mkrow 1 0) "SUN" 21; mkfrow (mkrow 2 0) "SUN" 82]%string.
Proof. reflexivity. Qed.
Example C28_error_case : apply_time_varying_rotation toy_rot "ecliptic" "itrf93" [mkfrow (mkrow 3 0) "SUN" 1; mkfrow (mkrow 2 0) "EARTH" 5]%string = Err AssertionError.
Proof. reflexivity. Qed.

(* ------------------------------------------------------------------ C29 ---- *)
Theorem C29_from_codes_rowwise : forall (T S : Type) (state : string -> list T -> result (list S)) (st : string -> T -> S) cs ts,
  length cs = length ts -> (forall c l, In c cs -> state c l = Ok (map (st c) l)) ->
  from_codes state (map Some cs) ts = Ok (map (fun p => (fst p, st (fst p) (snd p))) (combine cs ts)).
Proof. intros. now apply from_codes_rows. Qed.
Theorem C29_from_codes_errors : forall (T S : Type) (state : string -> list T -> result (list S)) codes ts,
  (length codes <> length ts -> from_codes state codes ts = Err ValueError) /\
  (length codes = length ts -> In None codes ->
   (forall c l, In (Some c) codes -> exists r, state c l = Ok r /\ length r = length l) ->
   from_codes state codes ts = Err ValueError).
Proof. intros. split. apply from_codes_lengths. apply from_codes_null. Qed.
Definition toy_state (c : string) (l : list Z) : result (list Z) :=
  if String.eqb c "X05" then Ok (map (fun t => 100 + t) l) else if String.eqb c "W84" then Ok (map (fun t => 200 + t) l) else Err ValueError.
Example C29_case : from_codes toy_state [Some "W84"; Some "X05"; Some "X05"; Some "W84"]%string [4; 3; 2; 1]
  = Ok [("W84", 204); ("X05", 103); ("X05", 102); ("W84", 201)]%string.
Proof. reflexivity. Qed.
Example C29_error_case : from_codes toy_state [Some "W84"; None]%string [4; 3] = Err ValueError /\ from_codes toy_state [Some "W84"]%string [4; 3] = Err ValueError.
Proof. split; reflexivity. Qed.

(* ------------------------------------------------------------------ C94 ---- *)
Theorem C94_exposure_observers_rowwise : forall (T S : Type) (state : string -> list T -> result (list S)) (st : string -> T -> S)
    (X : Type) (code : X -> string) (mid : X -> T) xs, xs <> [] ->
  (forall c l, In c (map code xs) -> state c l = Ok (map (st c) l)) ->
  exposure_observers state code mid xs = Ok (map (fun x => (code x, st (code x) (mid x))) xs).
Proof. intros. now apply exposure_observers_rows. Qed.
Theorem C94_exposure_observers_empty : forall (T S : Type) (state : string -> list T -> result (list S)) (X : Type) (code : X -> string) (mid : X -> T),
  exposure_observers state code mid [] = Err ArrowInvalid.
Proof. reflexivity. Qed.
Example C94_case : exposure_observers toy_state fst snd [("W84", 4); ("X05", 3); ("X05", 2); ("W84", 1)]%string
  = Ok [("W84", 204); ("X05", 103); ("X05", 102); ("W84", 201)]%string.
Proof. reflexivity. Qed.

(* ------------------------------------------------------------------ C31 ---- *)
Theorem C31_group_by_key : forall (A : Type) (key : A -> string) l, split_by key l (group_by_key key l).
Proof. intros. apply group_by_key_split. Qed.
Theorem C31_iterate_codes : forall (A : Type) (key : A -> string) l, split_by key l (iterate_codes str_leb key l) /\
  StronglySorted (fun a b => str_leb a b = true) (map fst (iterate_codes str_leb key l)).
Proof. intros. apply iterate_codes_split. Qed.
Theorem C31_group_by_healpixel : forall (A : Type) (pix : A -> Z) l, split_by pix l (group_by_healpixel pix l) /\
  StronglySorted Z.le (map fst (group_by_healpixel pix l)).
Proof. intros. apply healpixel_split. Qed.
(* the null group comes last *)
Theorem C31_group_by_object : forall (A : Type) (key : A -> option string) l,
  exists ks, length ks = length (group_by_object str_leb key l) /\ split_by key l (combine ks (group_by_object str_leb key l)) /\
    (forall i, nth_error ks i = Some None -> Datatypes.S i = length ks).
Proof. intros. apply group_by_object_split. Qed.
Example C31_case : group_by_key fst [("b", 1); ("a", 2); ("b", 3)]%string = [("b", [("b", 1); ("b", 3)]); ("a", [("a", 2)])]%string /\
  iterate_codes str_leb fst [("b", 1); ("a", 2); ("b", 3)]%string = [("a", [("a", 2)]); ("b", [("b", 1); ("b", 3)])]%string /\
  group_by_healpixel fst [(7, 1); (5, 2); (7, 3)] = [(5, [(5, 2)]); (7, [(7, 1); (7, 3)])] /\
  group_by_object str_leb fst [(None, 1); (Some "b", 2); (Some "a", 3); (None, 4); (Some "b", 5)]%string
  = [[(Some "b", 2); (Some "b", 5)]; [(Some "a", 3)]; [(None, 1); (None, 4)]]%string.
Proof. repeat split. Qed.

(* ------------------------------------------------------------------ C92 ---- *)
Theorem C92_group_by_exposure_partial : forall (A : Type) (key : A -> option string) l, (forall x, In x l -> key x <> None) ->
  exists ks, length ks = length (group_by_exposure str_leb key l) /\ split_by key l (combine ks (group_by_exposure str_leb key l)).
Proof. intros. now apply group_by_exposure_split. Qed.
Theorem C92_null_exposures_refuted : forall (A : Type) (key : A -> option string) l x, In x l -> key x = None ->
  forall g, In g (group_by_exposure str_leb key l) -> ~ In x g.
Proof. intros A key l x _ Hx g Hg Ix. now apply (group_by_exposure_null key l g x Hg Ix). Qed.
Example C92_case : group_by_exposure str_leb fst [(Some "b", 2); (None, 1); (Some "a", 3); (Some "b", 5)]%string
  = [[(Some "b", 2); (Some "b", 5)]; []; [(Some "a", 3)]]%string.
Proof. reflexivity. Qed.

(* ------------------------------------------------------------------ C81 ---- *)
(* rows are paired exactly when the code and the truncated epoch (in the ephemeris' scale) agree *)
Theorem C81_link_to_observers : forall E p eph ec obs oc obs', p <> OtherPrecision ->
  (if String.eqb (scale eph) (scale obs) then Ok obs else rescale E obs (scale eph)) = Ok obs' ->
  Forall normal (rows eph) -> Forall normal (rows obs') ->
  exists gs w, link_to_observers E p eph ec obs oc = Ok (gs, w) /\
    NoDup (map (fun g => fst (fst g)) gs) /\
    (forall i j, paired gs i j <-> exists r r' c,
       nth_error (rows eph) i = Some r /\ nth_error ec i = Some c /\ nth_error (rows obs') j = Some r' /\ nth_error oc j = Some c /\
       truncated (unit_ns p) r = truncated (unit_ns p) r').
Proof. intros E p eph ec obs oc obs' H1 H2 H3 H4. destruct (link_to_observers_ok E p eph ec obs oc obs' H1 H2 H3 H4) as (gs & w & ? & ? & ? & _). eauto. Qed.
(* detections.py:link_to_exposures, a single-key linkage on the exposure id *)
Theorem C81_link_to_exposures : forall (ids ids' : list string) i j,
  paired (link_groups String.eqb ids ids') i j <-> exists k, nth_error ids i = Some k /\ nth_error ids' j = Some k.
Proof. intros. apply link_groups_paired. exact String.eqb_eq. Qed.
Definition toy_env : time_env := mkenv (fun _ => 37) (fun _ _ => 0) (fun _ _ r => r).
Ltac provide :=
  match goal with |- exists gs, ?r = Ok (gs, ?b) /\ _ => let v := eval vm_compute in r in match v with Ok (?g, _) => exists g end; split; [vm_compute; reflexivity|]
                | |- exists gs, ?r = Ok (gs, ?b) => let v := eval vm_compute in r in match v with Ok (?g, _) => exists g end; vm_compute; reflexivity end.
Ltac provide2 :=
  match goal with |- exists gs w, ?r = Ok (gs, w) /\ _ => let v := eval vm_compute in r in match v with Ok (?g, ?w) => exists g, w end; split; [vm_compute; reflexivity|] end.
Example C81_case : exists gs, link_to_observers toy_env US (mkts "utc" [mkrow 1 1500; mkrow 1 7000; mkrow 1 1500]) ["X05"; "X05"; "W84"]%string
      (mkts "utc" [mkrow 1 7999; mkrow 1 1000]) ["X05"; "X05"]%string = Ok (gs, true) /\ paired gs 0 1 /\ paired gs 1 0 /\ ~ paired gs 2 1.
Proof.
  provide. split; [|split].
  - do 3 eexists. split. now left. split; cbn; auto.
  - do 3 eexists. split. right. now left. split; cbn; auto.
  - intros (k & ls & rs & H & Hi & Hj). cbn in H. repeat (destruct H as [H|H]; [injection H as <- <- <-; cbn in *; intuition; discriminate|]). easy.
Qed.

(* ------------------------------------------------------------------ C93 ---- *)
(* no warning and every ephemeris row linked: rounding merged no two observers *)
Theorem C93_warning_partial : forall E p eph ec obs oc obs', p <> OtherPrecision ->
  (if String.eqb (scale eph) (scale obs) then Ok obs else rescale E obs (scale eph)) = Ok obs' ->
  Forall normal (rows eph) -> Forall normal (rows obs') ->
  forall gs, link_to_observers E p eph ec obs oc = Ok (gs, false) ->
  (forall i r c, nth_error (rows eph) i = Some r -> nth_error ec i = Some c -> exists j, paired gs i j) ->
  forall j j' r r' c, nth_error (rows obs') j = Some r -> nth_error oc j = Some c -> nth_error (rows obs') j' = Some r' -> nth_error oc j' = Some c ->
    truncated (unit_ns p) r = truncated (unit_ns p) r' -> r = r'.
Proof.
  intros E p eph ec obs oc obs' H1 H2 H3 H4 gs Hg. destruct (link_to_observers_ok E p eph ec obs oc obs' H1 H2 H3 H4) as (gs' & w & E1 & _ & _ & H).
  rewrite Hg in E1. injection E1 as <- <-. exact (H eq_refl).
Qed.
Example C93_case : exists gs, link_to_observers toy_env US (mkts "utc" [mkrow 1 1500; mkrow 1 7000]) ["X05"; "X05"]%string
      (mkts "utc" [mkrow 1 7999; mkrow 1 1000]) ["X05"; "X05"]%string = Ok (gs, false).
Proof. provide. Qed.
(* two observers are merged, an ephemeris row is linked to both, another to none: no warning *)
Theorem C93_missed_warning_refuted : exists eph ec obs oc gs,
  link_to_observers toy_env US eph ec obs oc = Ok (gs, false) /\ paired gs 0 0 /\ paired gs 0 1 /\
  nth_error (rows obs) 0 <> nth_error (rows obs) 1 /\ (forall j, ~ paired gs 1 j).
Proof.
  exists (mkts "utc" [mkrow 1 1000; mkrow 9 0]), ["X05"; "X05"]%string, (mkts "utc" [mkrow 1 1000; mkrow 1 1001]), ["X05"; "X05"]%string.
  provide. split; [|split; [|split]].
  - do 3 eexists. split. now left. split; cbn; auto.
  - do 3 eexists. split. now left. split; cbn; auto.
  - discriminate.
  - intros j (k & ls & rs & H & Hi & Hj). cbn in H. repeat (destruct H as [H|H]; [injection H as <- <- <-; cbn in *; intuition; discriminate|]). easy.
Qed.
(* epochs one nanosecond apart need not be linked, whatever the coarser precision *)
Theorem C93_close_epochs_refuted : forall p, p <> OtherPrecision -> p <> NS -> exists eph obs gs w,
  link_to_observers toy_env p (mkts "utc" [eph]) ["X05"%string] (mkts "utc" [obs]) ["X05"%string] = Ok (gs, w) /\
  days eph = days obs /\ nanos obs - nanos eph = 1 /\ ~ paired gs 0 0.
Proof.
  intros p H1 H2. exists (mkrow 1 999999999), (mkrow 1 1000000000). destruct p; try congruence; provide2; (split; [reflexivity|]); (split; [reflexivity|]);
  intros (k & ls & rs & H & Hi & Hj); cbn in H; repeat (destruct H as [H|H]; [injection H as <- <- <-; cbn in *; intuition; discriminate|]); easy.
Qed.

Print Assumptions C28_rotation_rowwise.
Print Assumptions C28_rotation_errors.
Print Assumptions C29_from_codes_rowwise.
Print Assumptions C29_from_codes_errors.
Print Assumptions C31_group_by_key.
Print Assumptions C31_iterate_codes.
Print Assumptions C31_group_by_healpixel.
Print Assumptions C31_group_by_object.
Print Assumptions C81_link_to_observers.
Print Assumptions C81_link_to_exposures.
Print Assumptions C92_group_by_exposure_partial.
Print Assumptions C92_null_exposures_refuted.
Print Assumptions C93_warning_partial.
Print Assumptions C93_missed_warning_refuted.
Print Assumptions C93_close_epochs_refuted.
Print Assumptions C94_exposure_observers_rowwise.
Print Assumptions C94_exposure_observers_empty.
