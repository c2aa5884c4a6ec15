(* Theorems for C227-C231: JPL's Scout. *)
From Coq Require Import QArith ZArith String List Bool Lia.
From Verif Require Import Base ListLemmas ResModel TimeModel SbdbModel SbdbSpec SbdbProofs ScoutModel ScoutSpec ScoutProofs.
Import ListNotations.
Open Scope string_scope.
Open Scope list_scope.
Open Scope nat_scope.

(* ---- C227 ---- *)
Theorem C227_retries : forall max_attempts delay server o n w, request_scout_json max_attempts delay server = (o, n, w) ->
  (1 <= Z.of_nat n <= Z.max 1 max_attempts)%Z /\
  (forall i, i + 1 < n -> momentary (server i)) /\
  (Z.of_nat n = Z.max 1 max_attempts \/ ~ momentary (server (n - 1))) /\
  w = map (fun k => delay * inject_Z (2 ^ Z.of_nat k))%Q (seq 0 (n - 1)) /\
  (forall j, o = Value j <-> exists s, server (n - 1) = SResponse s (Some j) /\ ~ failing s).
Proof.
  intros max_attempts delay server o n w H. destruct (request_char _ _ _ _ _ _ H) as (L & M & E & D & W).
  split; [exact L|]. split; [exact M|]. split; [exact D|]. split; [exact W|]. intro j. rewrite E.
  destruct (server (n - 1)) as [|s b]; cbn [ask]; [split; [discriminate|intros (s & [=] & _)]|].
  destruct ((400 <=? s)%Z && (s <? 600)%Z) eqn:F.
  - apply failing_bool in F. split; [discriminate|]. intros (s' & [= <- _] & N). contradiction.
  - split.
    + destruct b as [j'|]; [intros [= <-]|discriminate]. exists s. split; [reflexivity|]. rewrite <- failing_bool. congruence.
    + intros (s' & [= <- ->] & N). reflexivity.
Qed.
Print Assumptions C227_retries.
Theorem C227_errors : forall text fold server max_attempts delay object,
  exists n, (1 <= Z.of_nat n <= Z.max 1 max_attempts)%Z /\ (forall i, i + 1 < n -> momentary (server object i)) /\
    (Z.of_nat n = Z.max 1 max_attempts \/ ~ momentary (server object (n - 1))) /\
    answer text fold object (server object (n - 1)) (object_json text fold server max_attempts delay object).
Proof. exact object_answer. Qed.
Print Assumptions C227_errors.
(* no object is skipped: the query fails as the first object that fails *)
Theorem C227_first_error : forall parse text fold server max_attempts delay ids e,
  query_scout parse text fold server max_attempts delay ids = SErr e ->
  exists i object, nth_error ids i = Some object /\ query_scout parse text fold server max_attempts delay [object] = SErr e /\
    forall j other, j < i -> nth_error ids j = Some other -> exists out, query_scout parse text fold server max_attempts delay [other] = SOk out.
Proof.
  intros parse text fold server max_attempts delay ids e H. unfold query_scout in H.
  destruct (smapM (scout_object parse text fold server max_attempts delay) ids) as [l|e'] eqn:E; [discriminate|]. injection H as <-.
  destruct (smapM_err _ _ _ E) as (i & x & N & F & B). exists i, x. split; [exact N|]. unfold query_scout. cbn [smapM]. split; [now rewrite F|].
  intros j y L Ny. destruct (B j y L Ny) as [b Fb]. exists (b ++ []). cbn [smapM]. now rewrite Fb.
Qed.
Print Assumptions C227_first_error.

Definition one_reply (r : sreply) : string -> nat -> sreply := fun _ _ => r.
Definition lower (c : Ascii.ascii) : Ascii.ascii := let n := Ascii.nat_of_ascii c in if Nat.leb 65 n && Nat.leb n 90 then Ascii.ascii_of_nat (n + 32) else c.
Fixpoint lowered (s : string) : string := match s with EmptyString => EmptyString | String c r => String (lower c) (lowered r) end.
Definition some_text (j : json) : string := match j with JNum _ => "1.3" | _ => "value" end.
Example C227_case : request_scout_json 3 (1 # 2) (fun i => match i with 0 => SResponse 503 None | 1 => SNone | _ => SResponse 200 (Some (JObj [])) end)
    = (Value (JObj []), 3, [(1 # 2) * inject_Z 1; (1 # 2) * inject_Z 2]%Q) /\
  request_scout_json 0 (1 # 2) (fun i => SResponse 429 None) = (Failure (Some 429%Z), 1, []) /\
  object_json some_text lowered (one_reply (SResponse 200 (Some (JObj [("error", JStr "Specified object NOT FOUND, try again")])))) 3 1 "x" = SErr (SNotFound "x" None) /\
  object_json some_text lowered (one_reply (SResponse 200 (Some (JObj [("error", JStr "Rate Limit reached")])))) 3 1 "x" = SErr (SUnavailable "x" None) /\
  object_json some_text lowered (one_reply (SResponse 403 None)) 3 1 "x" = SErr (SQuery "x" (Some 403%Z)).
Proof. vm_compute. auto 10. Qed.

(* ---- C228 ---- *)
Theorem C228_malformed_partial : forall parse text fold server max_attempts delay object p sg,
  delivers text max_attempts (server object) p sg ->
  let result := query_scout parse text fold server max_attempts delay [object] in
  ((forall o, get "orbits" p <> JObj o) -> result = SErr (SMalformed object)) /\
  (forall o, get "orbits" p = JObj o ->
     ((forall l, get "data" o <> JList l) -> result = SErr (SMalformed object)) /\
     (get "data" o = JList [] -> result = SErr (SNotFound object None)) /\
     (forall rows r, get "data" o = JList rows -> In r rows -> cells_of r = None -> result = SErr (SMalformed object)) /\
     (forall rows cells, get "data" o = JList rows -> In (JList cells) rows -> List.length cells < 15 -> result = SErr (SMalformed object)) /\
     (forall rows, get "data" o = JList rows -> rows <> [] -> (forall r, In r rows -> exists cells, r = JList cells /\ 15 < List.length cells) -> result = SErr (SMalformed object)) /\
     (forall rows cells, get "data" o = JList rows -> In (JList cells) rows -> (forall x, nth 0 cells JNull <> JNum x) -> nth 0 cells JNull <> JNull -> result = SErr (SMalformed object)) /\
     (forall rows cells c, get "data" o = JList rows -> In (JList cells) rows -> 1 <= c < 14 -> (forall s, nth c cells JNull <> JStr s) -> nth c cells JNull <> JNull -> result = SErr (SMalformed object))).
Proof.
  intros parse text fold server max_attempts delay object p sg D result. unfold result, query_scout. cbn [smapM].
  assert (R : forall e, scout_object parse text fold server max_attempts delay object = SErr e -> sbind (sbind (scout_object parse text fold server max_attempts delay object) (fun y => sbind (SOk []) (fun r => SOk (y :: r)))) (fun l => SOk (concat l)) = SErr e).
  { intros e ->. reflexivity. }
  destruct (delivered text fold server max_attempts delay object p sg D) as [J S].
  split. { intro N. apply R. unfold scout_object. rewrite J. cbn [sbind]. rewrite S. cbn [sbind]. destruct (get "orbits" p); try reflexivity. now contradiction (N o). }
  intros o Eo.
  split. { intro N. apply R. unfold scout_object. rewrite J. cbn [sbind]. rewrite S. cbn [sbind]. rewrite Eo. destruct (get "data" o); try reflexivity. now contradiction (N l). }
  split. { intro Ed. apply R. unfold scout_object. rewrite J. cbn [sbind]. rewrite S. cbn [sbind]. now rewrite Eo, Ed. }
  assert (K : forall rows, get "data" o = JList rows -> rows <> [] -> (forall rs, all_some cells_of rows = Some rs -> table_of (columns rs) = None) -> scout_object parse text fold server max_attempts delay object = SErr (SMalformed object)).
  { intros rows Ed N T. unfold scout_object. rewrite J. cbn [sbind]. rewrite S. cbn [sbind]. rewrite Eo, Ed. destruct rows as [|r0 rows']; [congruence|]. destruct (all_some cells_of (r0 :: rows')) as [rs|]; [|reflexivity]. now rewrite (T rs eq_refl). }
  assert (I : forall rows rs r cells, all_some cells_of rows = Some rs -> In r rows -> cells_of r = Some cells -> exists i, nth_error rs i = Some cells).
  { intros rows rs r cells A Ir Ec. apply In_nth_error in Ir. destruct Ir as [i Ni]. destruct (all_some_nth _ _ _ A i r Ni) as (y & Y & Z). exists i. congruence. }
  split. { intros rows r Ed Ir C. apply R, (K rows Ed); [intros ->; destruct Ir|]. intros rs A. rewrite (all_some_none _ _ _ Ir C) in A. discriminate. }
  split. { intros rows cells Ed Ir L. apply R, (K rows Ed); [intros ->; destruct Ir|]. intros rs A. destruct (table_of (columns rs)) as [t|] eqn:T; [exfalso|reflexivity].
    destruct (table_inv _ _ T) as (S15 & _). destruct (I rows rs _ cells A Ir eq_refl) as [i Ni]. apply nth_error_In in Ni. apply shortest_le in Ni. lia. }
  split. { intros rows Ed Nr L. apply R, (K rows Ed Nr). intros rs A. destruct (table_of (columns rs)) as [t|] eqn:T; [exfalso|reflexivity].
    destruct (table_inv _ _ T) as (S15 & _). assert (Nrs : rs <> []). { intros ->. apply all_some_length in A. destruct rows; [congruence|discriminate]. }
    destruct (shortest_in rs Nrs) as (x & Ix & Ex). apply In_nth_error in Ix. destruct Ix as [i Ni].
    destruct (nth_error rows i) as [r|] eqn:Nr'. 2:{ apply nth_error_None in Nr'. assert (i < List.length rs) by (apply nth_error_Some; congruence). rewrite (all_some_length _ _ _ A) in H. lia. }
    destruct (all_some_nth _ _ _ A i r Nr') as (y & Y & Z). destruct (L r (nth_error_In _ _ Nr')) as (cells & -> & Lc). cbn in Y. injection Y as <-. assert (x = cells) by congruence. subst. lia. }
  split.
  - intros rows cells Ed Ir N1 N2. apply R, (K rows Ed); [intros ->; destruct Ir|]. intros rs A. destruct (table_of (columns rs)) as [t|] eqn:T; [exfalso|reflexivity].
    destruct (table_inv _ _ T) as (_ & _ & _ & C). destruct (I rows rs _ cells A Ir eq_refl) as [i Ni]. destruct (C 0 i cells ltac:(lia) Ni) as (y & Y & _). cbn [schema nth fst] in Y.
    destruct (nth 0 cells JNull) eqn:E; try discriminate Y; [congruence|now contradiction (N1 x)].
  - intros rows cells c Ed Ir Lc N1 N2. apply R, (K rows Ed); [intros ->; destruct Ir|]. intros rs A. destruct (table_of (columns rs)) as [t|] eqn:T; [exfalso|reflexivity].
    destruct (table_inv _ _ T) as (_ & _ & _ & C). destruct (I rows rs _ cells A Ir eq_refl) as [i Ni]. destruct (C c i cells ltac:(lia) Ni) as (y & Y & _).
    assert (Sc : fst (nth c schema (false, false)) = false). { destruct c; [lia|]. do 13 (destruct c as [|c]; [reflexivity|]). lia. }
    rewrite Sc in Y. destruct (nth c cells JNull) eqn:E; try discriminate Y; [congruence|now contradiction (N1 s)].
Qed.
Print Assumptions C228_malformed_partial.
Definition signed (l : dict) : sreply := SResponse 200 (Some (JObj (("signature", JObj [("version", JStr "1.3"); ("source", JStr "Scout")]) :: l))).
Definition numbers : string -> option num := fun s =>
  if String.eqb s "2457581.5" then Some (Some (24575815 # 10)%Q) else if String.eqb s "2457636.5" then Some (Some (24576365 # 10)%Q) else
  if String.eqb s "0.5" then Some (Some (1 # 2)%Q) else if String.eqb s "1" then Some (Some 1%Q) else None.
Definition sample_cells (idx : Z) (extra : list json) : json :=
  JList ([JNum (Some (inject_Z idx)); JStr "2457581.5"; JStr "0.5"; JStr "1"; JStr "2457636.5"; JStr "1"; JStr "1"; JStr "0.5"; JStr "1"; JNull; JNull; JStr "1"; JNull; JStr "1"; JNum (Some 0%Q)] ++ extra).
Definition with_rows (rows : list json) : sreply := signed [("orbits", JObj [("data", JList rows)])].
Example C228_case : delivers some_text 3 (one_reply (with_rows [JList [JNull]]) "x") [("signature", JObj [("version", JStr "1.3"); ("source", JStr "Scout")]); ("orbits", JObj [("data", JList [JList [JNull]])])] [("version", JStr "1.3"); ("source", JStr "Scout")] /\
  query_scout numbers some_text lowered (one_reply (with_rows [JList [JNull]])) 3 1 ["x"] = SErr (SMalformed "x").
Proof.
  split; [|vm_compute; reflexivity]. split; [|repeat split]. exists 0, 200%Z. split; [vm_compute; reflexivity|]. split; [intros; lia|]. split; [reflexivity|]. unfold failing. lia.
Qed.
(* a body that is no JSON is asked for again and reported as unavailable *)
Theorem C228_body_refuted : exists text fold server object, (forall i, server object i = SResponse 200 None) /\
  object_json text fold server 3 1 object = SErr (SUnavailable object None) /\ snd (fst (request_scout_json 3 1 (server object))) = 3.
Proof. exists some_text, lowered, (one_reply (SResponse 200 None)), "x". split; [reflexivity|]. split; vm_compute; reflexivity. Qed.
Print Assumptions C228_body_refuted.
(* a row with too many cells is cut *)
Theorem C228_long_row_refuted : exists parse text fold server out, (forall i, server "x" i = with_rows [sample_cells 0 []; sample_cells 1 [JStr "a sixteenth cell"]]) /\
  query_scout parse text fold server 3 1 ["x"] = SOk out /\ map sv_orbit out = ["0"; "1"].
Proof.
  exists numbers, some_text, lowered, (one_reply (with_rows [sample_cells 0 []; sample_cells 1 [JStr "a sixteenth cell"]])). eexists.
  split; [reflexivity|]. split; [vm_compute; reflexivity|]. reflexivity.
Qed.
Print Assumptions C228_long_row_refuted.
(* a text that is no number, and a version given as a number, raise other exceptions *)
Theorem C228_escape_refuted : 
  (exists parse text fold server cells, (forall i, server "x" i = with_rows [JList cells]) /\ List.length cells = 15 /\ nth 2 cells JNull = JStr "n.a." /\ parse "n.a." = None /\
     query_scout parse text fold server 3 1 ["x"] = SErr (SOther ArrowInvalid)) /\
  (exists text fold server (read80 : string -> option (list string)) p, (forall i, server "x" i = SResponse 200 (Some (JObj p))) /\ get "signature" p = JObj [("version", JNum (Some (13 # 10)%Q))] /\
     query_scout_observations text fold server 3 1 string read80 (fun s => s) (fun s => s) (fun _ => None) ["x"] = SErr (SOther TypeError)).
Proof.
  split.
  - set (cells := [JNum (Some 0%Q); JStr "2457581.5"; JStr "n.a."; JStr "1"; JStr "2457636.5"; JStr "1"; JStr "1"; JStr "0.5"; JStr "1"; JNull; JNull; JStr "1"; JNull; JStr "1"; JNum (Some 0%Q)]).
    exists numbers, some_text, lowered, (one_reply (with_rows [JList cells])), cells. split; [reflexivity|]. split; [reflexivity|]. split; [reflexivity|]. split; vm_compute; reflexivity.
  - set (p := [("signature", JObj [("version", JNum (Some (13 # 10)%Q))]); ("fileMPC", JStr "x")]).
    exists some_text, lowered, (one_reply (SResponse 200 (Some (JObj p)))), (fun s => Some [s]), p. split; [reflexivity|]. split; vm_compute; reflexivity.
Qed.
Print Assumptions C228_escape_refuted.

(* ---- C229 ---- *)
Theorem C229_samples_partial : forall parse text fold server max_attempts delay ids out,
  query_scout parse text fold server max_attempts delay ids = SOk out ->
  exists groups, out = concat groups /\
  Forall2 (fun object group => exists p sg orbits rows, delivers text max_attempts (server object) p sg /\ get "orbits" p = JObj orbits /\ get "data" orbits = JList rows /\ rows <> [] /\
    Forall2 (fun r v => exists cells, cells_of r = Some cells /\ sample parse object cells v) rows group) ids groups.
Proof.
  intros parse text fold server max_attempts delay ids out H. unfold query_scout in H.
  destruct (smapM (scout_object parse text fold server max_attempts delay) ids) as [l|e] eqn:E; [|discriminate]. injection H as <-. exists l. split; [reflexivity|].
  apply smapM_inv in E. clear - E. induction E as [|x y l1 l2 F E IH]; constructor; [now apply object_inv in F|exact IH].
Qed.
Print Assumptions C229_samples_partial.
(* Scout's epochs are TDB; every row is labelled TAI *)
Theorem C229_scale_refuted : forall parse text fold server max_attempts delay ids out v,
  query_scout parse text fold server max_attempts delay ids = SOk out -> In v out -> sv_scale v = "tai" /\ sv_scale v <> "tdb".
Proof.
  intros parse text fold server max_attempts delay ids out v H I. enough (E : sv_scale v = "tai") by (split; [exact E|]; rewrite E; discriminate).
  unfold query_scout in H. destruct (smapM (scout_object parse text fold server max_attempts delay) ids) as [l|e] eqn:E; [|discriminate]. injection H as <-.
  apply smapM_inv in E. apply in_concat in I. destruct I as (g & Ig & Iv). clear - E Ig Iv. induction E as [|x y l1 l2 F E IH]; [destruct Ig|]. destruct Ig as [<-|Ig]; [clear IH E|auto].
  unfold scout_object in F. destruct (object_json text fold server max_attempts delay x) as [p|]; [|discriminate]. cbn [sbind] in F. destruct (signature text x p); [|discriminate]. cbn [sbind] in F.
  destruct (match get "orbits" p with JObj o => get "data" o | _ => JNull end) as [| | | |[|r rows]|]; try discriminate. destruct (all_some cells_of (r :: rows)) as [rs|]; [|discriminate].
  destruct (table_of (columns rs)) as [t|]; [|discriminate]. destruct (has_null t); [discriminate|]. destruct (to_variants parse x t) as [l|] eqn:V; [|discriminate]. injection F as <-.
  apply In_nth_error in Iv. destruct Iv as [i Ni]. pose proof (mapM_length _ _ _ V) as L. assert (Li : i < List.length l) by (apply nth_error_Some; congruence). rewrite L in Li.
  destruct (mapM_nth _ _ _ i i V) as (v' & Ev & Nv); [rewrite nth_error_nth' with (d := 0) by exact Li; rewrite seq_length in Li; now rewrite seq_nth|].
  assert (v' = v) by congruence. subst. unfold variant_of in Ev. apply bind_inv in Ev. destruct Ev as (vs & _ & Ev). apply bind_inv in Ev. destruct Ev as (tm & _ & Ev). now injection Ev as <-.
Qed.
Print Assumptions C229_scale_refuted.
Example C229_case : query_scout numbers some_text lowered (one_reply (with_rows [sample_cells 0 []; sample_cells 1 []])) 3 1 ["x"] =
  SOk [mksvar "x" "0" "0" (mkrow 57581 0) "tai" [Some 1%Q; Some (1 # 2)%Q; Some (1 # 2)%Q; Some 1%Q; Some 1%Q; Some (24576365 * 10 - 24000005 * 10 # 100)%Q] "SUN" "ecliptic";
       mksvar "x" "1" "1" (mkrow 57581 0) "tai" [Some 1%Q; Some (1 # 2)%Q; Some (1 # 2)%Q; Some 1%Q; Some 1%Q; Some (24576365 * 10 - 24000005 * 10 # 100)%Q] "SUN" "ecliptic"].
Proof. vm_compute. reflexivity. Qed.

(* ---- C230 ---- *)
(* the number of a sample *)
Definition numbered (r : json) (z : Z) : Prop := exists cells q, cells_of r = Some cells /\ nth_error cells 0 = Some (JNum (Some q)) /\ (q == inject_Z z)%Q.
Lemma group_ids parse object rows group : Forall2 (fun r v => exists cells, cells_of r = Some cells /\ sample parse object cells v) rows group ->
  (forall i j r r' z, nth_error rows i = Some r -> nth_error rows j = Some r' -> numbered r z -> numbered r' z -> i = j) ->
  NoDup (map (fun v => (sv_object v, sv_orbit v)) group) /\ forall v, In v group -> sv_object v = object.
Proof.
  intros F D. assert (Ob : forall v, In v group -> sv_object v = object).
  { clear D. induction F as [|r v rows group (cells & _ & S) F IH]; [intros v []|]. intros v' [<-|I]; [apply S|auto]. }
  split; [|exact Ob]. apply NoDup_nth_error. intros a b La Eq. rewrite map_length in La. rewrite !nth_error_map in Eq.
  destruct (nth_error group a) as [va|] eqn:Na; [|apply nth_error_None in Na; lia]. cbn in Eq. destruct (nth_error group b) as [vb|] eqn:Nb; [|discriminate]. injection Eq as _ Eq.
  assert (X : forall i v, nth_error group i = Some v -> exists r z, nth_error rows i = Some r /\ numbered r z /\ sv_orbit v = zdec z).
  { clear - F. induction F as [|r v rows group (cells & C & S) F IH]; [intros [|i] v; discriminate|]. intros [|i] v' N; [|exact (IH i v' N)]. injection N as <-.
    destruct S as (_ & _ & (z & q & N0 & Q & E & _) & _). exists r, z. split; [reflexivity|]. split; [exists cells, q; auto|exact E]. }
  destruct (X a va Na) as (ra & za & Ra & Za & Ea). destruct (X b vb Nb) as (rb & zb & Rb & Zb & Eb). assert (za = zb) by (apply zdec_inj; congruence). subst. exact (D a b ra rb zb Ra Rb Za Zb).
Qed.
Theorem C230_ids_partial : forall parse text fold server max_attempts delay ids out,
  query_scout parse text fold server max_attempts delay ids = SOk out -> NoDup ids ->
  (forall object p sg orbits rows i j r r' z, In object ids -> delivers text max_attempts (server object) p sg -> get "orbits" p = JObj orbits -> get "data" orbits = JList rows ->
     nth_error rows i = Some r -> nth_error rows j = Some r' -> numbered r z -> numbered r' z -> i = j) ->
  NoDup (map (fun v => (sv_object v, sv_orbit v)) out) /\ forall v, In v out -> sv_variant v = sv_orbit v /\ In (sv_object v) ids.
Proof.
  intros parse text fold server max_attempts delay ids out H ND U. destruct (C229_samples_partial _ _ _ _ _ _ _ _ H) as (groups & -> & F). clear H. split.
  - induction F as [|object g ids groups (p & sg & orbits & rows & D & Eo & Ed & _ & G) F IH]; [constructor|]. cbn [concat]. rewrite map_app. inversion ND; subst.
    destruct (group_ids _ _ _ _ G) as [N1 O1]; [intros i j r r' z; apply (U object p sg orbits rows i j r r' z); auto; now left|].
    assert (N2 : NoDup (map (fun v => (sv_object v, sv_orbit v)) (concat groups))) by (apply IH; [assumption|intros; eapply U; eauto; now right]).
    assert (O2 : forall v, In v (concat groups) -> In (sv_object v) ids).
    { clear - F. induction F as [|o g ids groups (p & sg & orbits & rows & _ & _ & _ & _ & G) F IH]; [intros v []|]. intros v I. cbn [concat] in I. apply in_app_or in I. destruct I as [I|I]; [left|right; auto].
      clear - G I. induction G as [|r v' rows group (cells & _ & S) G IH]; [destruct I|]. destruct I as [<-|I]; [symmetry; apply S|auto]. }
    clear - N1 N2 O1 O2 H1. revert N1. induction g as [|v g IH]; intro N1; [exact N2|]. cbn [map app] in *. inversion N1; subst. constructor; [|apply IH; [intros; apply O1; now right|assumption]].
    intro I. apply in_app_or in I. destruct I as [I|I]; [contradiction|]. apply in_map_iff in I. destruct I as (w & E & Iw). injection E as E _. apply H1. rewrite <- (O1 v (or_introl eq_refl)), <- E. now apply O2.
  - clear ND U. induction F as [|object g ids groups (p & sg & orbits & rows & D & Eo & Ed & _ & G) F IH]; [intros v []|]. intros v I. cbn [concat] in I. apply in_app_or in I. destruct I as [I|I].
    + clear - G I. induction G as [|r v' rows group (cells & _ & S) G IH]; [destruct I|]. destruct I as [<-|I]; [|auto]. destruct S as (_ & So & (z & q & _ & _ & E1 & E2) & _). split; [congruence|left; congruence].
    + destruct (IH v I). split; [assumption|now right].
Qed.
Print Assumptions C230_ids_partial.
(* the samples of two objects share their orbit ids and variant ids *)
Theorem C230_ids_refuted : exists parse text fold server v w, query_scout parse text fold server 3 1 ["x"; "y"] = SOk [v; w] /\
  sv_object v <> sv_object w /\ sv_orbit v = sv_orbit w /\ sv_variant v = sv_variant w.
Proof.
  exists numbers, some_text, lowered, (one_reply (with_rows [sample_cells 0 []])). eexists. eexists. split; [vm_compute; reflexivity|]. split; [discriminate|]. split; reflexivity.
Qed.
Print Assumptions C230_ids_refuted.
Example C230_case : exists rows, with_rows [sample_cells 0 []; sample_cells 1 []] = with_rows rows /\
  forall i j r r' z, nth_error rows i = Some r -> nth_error rows j = Some r' -> numbered r z -> numbered r' z -> i = j.
Proof.
  eexists. split; [reflexivity|]. assert (N : forall k z e, numbered (sample_cells k e) z -> k = z).
  { intros k z e (cells & q & C & Q0 & Q). cbn in C. injection C as <-. cbn in Q0. injection Q0 as <-. unfold Qeq in Q. cbn in Q. lia. }
  intros [|[|[|i]]] [|[|[|j]]] r r' z H1 H2 N1 N2; try reflexivity; try discriminate H1; try discriminate H2; injection H1 as <-; injection H2 as <-; apply N in N1; apply N in N2; lia.
Qed.

(* ---- C231 ---- *)
Theorem C231_snapshots : forall text fold server max_attempts delay (Ob : Type) read80 designation sha int_of ids (out : list (sobs Ob)),
  query_scout_observations text fold server max_attempts delay Ob read80 designation sha int_of ids = SOk out ->
  exists groups, out = concat groups /\
  Forall2 (fun object group => exists p sg raw obs, delivers text max_attempts (server object) p sg /\ get "fileMPC" p = JStr raw /\ read80 raw = Some obs /\ obs <> [] /\
    map so_obs group = obs /\ map so_index group = map Z.of_nat (seq 0 (List.length obs)) /\
    forall r, In r group -> designation (so_obs r) = object /\ so_object r = object /\ so_count r = Z.of_nat (List.length obs) /\ so_sha r = sha raw /\
      (forall s, get "lastRun" p = JStr s -> so_date r = Some s) /\ (get "lastRun" p = JNull -> so_date r = None) /\
      (forall s, get "version" sg = JStr s -> so_version r = Some s) /\ (forall s, get "source" sg = JStr s -> so_source r = Some s) /\ (get "source" sg = JNull -> so_source r = None) /\
      (forall z, get "nObs" p = JNum (Some (inject_Z z)) -> so_declared r = Some z)) ids groups.
Proof.
  intros text fold server max_attempts delay Ob read80 designation sha int_of ids out H. unfold query_scout_observations in H.
  destruct (smapM (scout_snapshot text fold server max_attempts delay Ob read80 designation sha int_of) ids) as [l|e] eqn:E; [|discriminate]. injection H as <-. exists l. split; [reflexivity|].
  apply smapM_inv in E. induction E as [|x y l1 l2 F E IH]; constructor; [clear E IH|exact IH].
  destruct (snapshot_inv _ _ _ _ _ _ _ _ _ _ _ _ F) as (p & sg & raw & obs & date & nobs & version & source & D & Er & R & N & Ds & E1 & E2 & E3 & E4 & ->).
  exists p, sg, raw, obs. split; [exact D|]. split; [exact Er|]. split; [exact R|]. split; [exact N|].
  assert (Cs : forall (o : list Ob) k, map snd (combine (seq k (List.length o)) o) = o /\ map fst (combine (seq k (List.length o)) o) = seq k (List.length o)).
  { induction o as [|a o IHo]; intro k; [split; reflexivity|]. cbn [List.length seq combine map fst snd]. destruct (IHo (Datatypes.S k)) as [-> ->]. auto. }
  destruct (Cs obs 0) as [C1 C2].
  split. { rewrite map_map. cbn [so_obs]. exact C1. }
  split. { rewrite map_map. cbn [so_index]. rewrite <- C2 at 2. now rewrite map_map. }
  intros r I. apply in_map_iff in I. destruct I as (q & <- & I). cbn [so_obs so_object so_count so_sha so_date so_version so_source so_declared].
  split. { apply Ds. rewrite <- C1. now apply in_map. }
  split; [reflexivity|]. split; [reflexivity|]. split; [reflexivity|].
  split. { intros s Es. rewrite Es in E1. now injection E1. } split. { intros Es. rewrite Es in E1. now injection E1. }
  split. { intros s Es. rewrite Es in E3. now injection E3. } split. { intros s Es. rewrite Es in E4. now injection E4. } split. { intros Es. rewrite Es in E4. now injection E4. }
  intros z Ez. rewrite Ez in E2. cbn [declared int64_of inject_Z Qnum Qden] in E2. rewrite Z.quot_1_r in E2. destruct ((- 2 ^ 63 <=? z)%Z && (z <? 2 ^ 63)%Z); [now injection E2|discriminate].
Qed.
Print Assumptions C231_snapshots.
(* unusable files are reported as such *)
Theorem C231_unusable : forall text fold server max_attempts delay (Ob : Type) read80 designation sha int_of object p sg,
  delivers text max_attempts (server object) p sg ->
  ((forall raw, get "fileMPC" p <> JStr raw) \/ (exists raw, get "fileMPC" p = JStr raw /\ (read80 raw = None \/ read80 raw = Some [] \/ exists obs o, read80 raw = Some obs /\ In o obs /\ designation o <> object))) ->
  query_scout_observations text fold server max_attempts delay Ob read80 designation sha int_of [object] = SErr (SMalformed object).
Proof.
  intros text fold server max_attempts delay Ob read80 designation sha int_of object p sg D X. unfold query_scout_observations. cbn [smapM].
  enough (E : scout_snapshot text fold server max_attempts delay Ob read80 designation sha int_of object = SErr (SMalformed object)) by (now rewrite E).
  destruct (delivered text fold server max_attempts delay object p sg D) as [J S]. unfold scout_snapshot. rewrite J. cbn [sbind]. rewrite S. cbn [sbind].
  destruct X as [X|(raw & Er & X)]; [destruct (get "fileMPC" p); try reflexivity; now contradiction (X s)|]. rewrite Er. destruct (blank raw); [reflexivity|].
  destruct X as [->|[->|(obs & o & R & I & N)]]; [reflexivity|reflexivity|]. rewrite R. destruct obs as [|a obs]; [reflexivity|]. remember (a :: obs) as l. 
  assert (B : existsb (fun o => negb (String.eqb (designation o) object)) l = true). { apply existsb_exists. exists o. split; [exact I|]. now destruct (String.eqb_spec (designation o) object). }
  now rewrite B.
Qed.
Print Assumptions C231_unusable.
Example C231_case : query_scout_observations some_text lowered (fun o _ => signed [("fileMPC", JStr o); ("nObs", JNum (Some (inject_Z 5))); ("lastRun", JStr "2024")]) 3 1 string
    (fun s => Some [s; s]) (fun s => s) (fun s => s) (fun _ => None) ["x"; "y"]
  = SOk [mksobs "x" (Some "2024") (Some 5%Z) "x" 2 (Some "1.3") (Some "Scout") 0 "x"; mksobs "x" (Some "2024") (Some 5%Z) "x" 2 (Some "1.3") (Some "Scout") 1 "x";
         mksobs "y" (Some "2024") (Some 5%Z) "y" 2 (Some "1.3") (Some "Scout") 0 "y"; mksobs "y" (Some "2024") (Some 5%Z) "y" 2 (Some "1.3") (Some "Scout") 1 "y"].
Proof. vm_compute. reflexivity. Qed.
