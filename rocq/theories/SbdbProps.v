(* Theorems for C220-C226: JPL's Small-Body Database. *)
From Coq Require Import QArith ZArith String List Bool Lia Permutation.
From Verif Require Import Base ListLemmas ResModel CovModel TimeModel SbdbModel SbdbSpec SbdbProofs.
Import ListNotations.
Open Scope string_scope.
Open Scope list_scope.
Open Scope nat_scope.

(* ---- C220 ---- *)
Theorem C220_covariance : forall parse text ids payloads os k payload o orbit cov M,
  orbits_from_payloads parse text ids payloads = Ok os -> nth_error payloads k = Some payload -> nth_error os k = Some o ->
  get "orbit" payload = JObj orbit -> get "covariance" orbit = JObj cov ->
  reads_matrix parse (get "data" cov) M -> symmetric6 (entry M) ->
  (forall ls, get "labels" cov = JList ls -> map (str_of_json text) (firstn 6 ls) = sbdb_names) /\
  forall a b c d, same_element a c -> same_element b d -> sb_cov o a b = entry M c d.
Proof.
  intros parse text ids payloads os k payload o orbit cov M H P O Eo Ec RM S.
  destruct (orbits_inv _ _ _ _ _ H) as (_ & _ & I). destruct (I k payload o P O) as (p & q & Rp & _ & ->). cbn [sb_cov].
  destruct (payload_inv _ _ _ _ Rp) as (obj & orbit' & els & epoch & cv & m & v & tp & _ & E1 & E2 & E3 & _ & _ & _ & _ & _ & _ & E4).
  assert (orbit' = orbit). { rewrite Eo in E1. unfold or_empty in E1. destruct (truthy (JObj orbit)) eqn:T; [now injection E1|]. destruct orbit; [now injection E1|discriminate T]. }
  subst orbit'. rewrite E4.
  assert (D : get "data" cov <> JNull). { destruct RM as [rows [-> _]]. discriminate. }
  assert (X : exists m', read_covariance parse text cov = Ok m' /\ cv = Some m').
  { unfold choose in E2. apply bind_inv in E2. destruct E2 as [ep [_ E2]]. rewrite Ec in E2.
    destruct (get "data" cov) eqn:G; [congruence|..]; apply bind_inv in E2; destruct E2 as [m' [R2 E2]]; exists m'; (split; [exact R2|]);
    (destruct (get "elements" cov); [now injection E2|..]; (destruct (get "epoch" cov); [now injection E2|..]; apply bind_inv in E2; destruct E2 as [e' [_ E2]]; now injection E2)). }
  destruct X as [m' [R2 ->]]. subst m.
  assert (Y : matrix_of parse (get "data" cov) = Ok m' /\ forall ls, get "labels" cov = JList ls -> map (str_of_json text) (firstn 6 ls) = sbdb_names).
  { unfold read_covariance in R2. destruct (get "labels" cov) eqn:G; try (split; [exact R2|discriminate]).
    destruct (str_list_eqb _ _) eqn:E; [|discriminate]. split; [exact R2|]. intros ls [= <-].
    revert E. generalize (map (str_of_json text) (firstn 6 l)). unfold expected_labels. fold sbdb_names. generalize sbdb_names.
    intros a b. revert a. induction b as [|y b IHb]; intros [|x a]; cbn; try discriminate; [reflexivity|].
    intro E. apply andb_true_iff in E. destruct E as [E1' E2']. apply String.eqb_eq in E1'. now rewrite E1', (IHb a E2'). }
  destruct Y as [Ym Yl]. rewrite (matrix_read parse _ M m' RM Ym) in *. split; [exact Yl|].
  intros a b c d A B. rewrite (same_place a c A), (same_place b d B). apply convert_place; [exact S|exact (proj1 A)|exact (proj1 B)].
Qed.
Print Assumptions C220_covariance.
(* a covariance table that is accepted has at least six rows, all of one length of at least six *)
Theorem C220_size : forall parse text ids payloads os k payload orbit cov M,
  orbits_from_payloads parse text ids payloads = Ok os -> nth_error payloads k = Some payload ->
  get "orbit" payload = JObj orbit -> get "covariance" orbit = JObj cov -> reads_matrix parse (get "data" cov) M ->
  6 <= List.length M /\ exists n, 6 <= n /\ forall r, In r M -> List.length r = n.
Proof.
  intros parse text ids payloads os k payload orbit cov M H P Eo Ec RM.
  destruct (orbits_inv _ _ _ _ _ H) as (_ & L1 & I).
  destruct (nth_error os k) as [o|] eqn:O; [|apply nth_error_None in O; assert (k < List.length payloads) by (apply nth_error_Some; congruence); lia].
  destruct (I k payload o P O) as (p & q & Rp & _ & _).
  destruct (payload_inv _ _ _ _ Rp) as (obj & orbit' & els & epoch & cv & m & v & tp & _ & E1 & E2 & _).
  assert (orbit' = orbit). { rewrite Eo in E1. unfold or_empty in E1. destruct (truthy (JObj orbit)) eqn:T; [now injection E1|]. destruct orbit; [now injection E1|discriminate T]. }
  subst orbit'. unfold choose in E2. apply bind_inv in E2. destruct E2 as [ep [_ E2]]. rewrite Ec in E2.
  assert (D : get "data" cov <> JNull). { destruct RM as [rows [-> _]]. discriminate. }
  assert (X : exists m', read_covariance parse text cov = Ok m').
  { destruct (get "data" cov); [congruence|..]; apply bind_inv in E2; destruct E2 as [m' [R2 _]]; now exists m'. }
  destruct X as [m' X]. assert (Y : matrix_of parse (get "data" cov) = Ok m').
  { unfold read_covariance in X. destruct (get "labels" cov); try exact X. destruct (str_list_eqb _ _); [exact X|discriminate]. }
  pose proof (matrix_read parse _ M m' RM Y) as ->. destruct RM as [rows [Er F]]. rewrite Er in Y. unfold matrix_of in Y. rewrite (rows_read _ _ _ F) in Y. cbn [bind] in Y.
  destruct M as [|r M]; [discriminate|]. destruct (_ && _) eqn:B; [|discriminate]. apply andb_true_iff in B. destruct B as [B B3].
  apply andb_true_iff in B. destruct B as [B1 B2]. apply Nat.leb_le in B2, B3. split; [exact B2|]. exists (List.length r). split; [exact B3|].
  intros x Hx. rewrite forallb_forall in B1. apply Nat.eqb_eq. exact (B1 x Hx).
Qed.
Print Assumptions C220_size.
(* the uncertainty along every direction is carried over *)
Theorem C220_quadratic : forall (s : nat -> nat -> Q) v w, symmetric6 s ->
  (forall a c, same_element a c -> v a = w c) ->
  (quadratic (convert_covariance s 0%Q) v == quadratic s w)%Q.
Proof.
  intros s v w S V. unfold quadratic, six. cbn [seq map qsum fold_right].
  rewrite (V 0 1), (V 1 0), (V 2 5), (V 3 3), (V 4 4), (V 5 2) by (split; [lia|reflexivity]). cbn [convert_covariance].
  rewrite (S 1 0), (S 5 0), (S 3 0), (S 4 0), (S 2 0), (S 5 1), (S 3 1), (S 4 1), (S 2 1), (S 5 2), (S 3 2), (S 4 2), (S 4 3), (S 5 3), (S 5 4) by lia. ring.
Qed.
Print Assumptions C220_quadratic.
Theorem C220_labels : forall parse text ids payloads k payload orbit cov ls,
  nth_error payloads k = Some payload -> get "orbit" payload = JObj orbit -> get "covariance" orbit = JObj cov -> get "data" cov <> JNull ->
  get "labels" cov = JList ls -> map (str_of_json text) (firstn 6 ls) <> sbdb_names ->
  exists e, orbits_from_payloads parse text ids payloads = Err e.
Proof.
  intros parse text ids payloads k payload orbit cov ls P Eo Ec D L N.
  destruct (orbits_from_payloads parse text ids payloads) as [os|e] eqn:H; [exfalso|now exists e].
  destruct (orbits_inv _ _ _ _ _ H) as (_ & L1 & I).
  destruct (nth_error os k) as [o|] eqn:O; [|apply nth_error_None in O; assert (k < List.length payloads) by (apply nth_error_Some; congruence); lia].
  destruct (I k payload o P O) as (p & q & Rp & _ & _).
  destruct (payload_inv _ _ _ _ Rp) as (obj & orbit' & els & epoch & cv & m & v & tp & _ & E1 & E2 & _).
  assert (orbit' = orbit). { rewrite Eo in E1. unfold or_empty in E1. destruct (truthy (JObj orbit)) eqn:T; [now injection E1|]. destruct orbit; [now injection E1|discriminate T]. }
  subst orbit'. unfold choose in E2. apply bind_inv in E2. destruct E2 as [ep [_ E2]]. rewrite Ec in E2.
  assert (X : exists m', read_covariance parse text cov = Ok m').
  { destruct (get "data" cov); [congruence|..]; apply bind_inv in E2; destruct E2 as [m' [R2 _]]; now exists m'. }
  destruct X as [m' X]. unfold read_covariance in X. rewrite L in X.
  destruct (str_list_eqb _ _) eqn:E; [|discriminate]. apply N. revert E. generalize (map (str_of_json text) (firstn 6 ls)). unfold expected_labels. fold sbdb_names. generalize sbdb_names.
  intros a b. revert a. induction b as [|y b IHb]; intros [|x a]; cbn; try discriminate; [reflexivity|].
  intro E. apply andb_true_iff in E. destruct E as [E1' E2']. apply String.eqb_eq in E1'. now rewrite E1', (IHb a E2').
Qed.
Print Assumptions C220_labels.

(* a payload of the service *)
Definition no_number (s : string) : option num := if String.eqb s "0.5" then Some (Some (1 # 2)%Q) else None.
Definition no_text (j : json) : string := "?".
Definition el (name : string) (v : Z) (s : json) : json := JObj [("name", JStr name); ("value", JNum (Some (inject_Z v))); ("sigma", s)].
Definition six_elements (e_sigma : json) : list json :=
  [JObj [("name", JStr "e"); ("value", JStr "0.5"); ("sigma", e_sigma)]; el "q" 2 (JNum (Some 3%Q)); el "i" 10 (JNum (Some 4%Q)); el "om" 20 (JNum (Some 5%Q));
   el "w" 30 (JNum (Some 6%Q)); el "tp" 2459000 (JNum (Some 7%Q))].
Definition demo_row (i : nat) : json := JList (map (fun j => JNum (Some (inject_Z (Z.of_nat (10 * Nat.min i j + Nat.max i j))))) (seq 0 6)).
Definition demo_cov : dict := [("labels", JList (map JStr ["e"; "q"; "tp"; "node"; "peri"; "i"; "A2"])); ("data", JList (map demo_row (seq 0 6)))].
Definition demo (cov : dict) : dict :=
  [("object", JObj [("fullname", JStr "Ceres")]);
   ("orbit", JObj [("epoch", JNum (Some (2459000 # 1)%Q)); ("elements", JList (six_elements (JNum (Some 2%Q)))); ("covariance", JObj cov)])].
Definition fields (r : result (list sorb)) : option (list (string * string * row * list num * list num)) :=
  match r with
  | Ok os => Some (map (fun o => (sb_id o, sb_object o, sb_time o, sb_coords o, map (fun ab => sb_cov o (fst ab) (snd ab)) [(0, 0); (0, 1); (1, 0); (2, 5); (5, 5)])) os)
  | Err _ => None
  end.
Example C220_case : fields (orbits_from_payloads no_number no_text ["1"] [demo demo_cov]) =
  Some [("00000", "Ceres", mkrow 58999 43200000000000,
         [Some 2%Q; Some (1 # 2)%Q; Some 10%Q; Some 20%Q; Some 30%Q; Some (mjd (mkrow 58999 43200000000000))],
         [Some 11%Q; Some 1%Q; Some 1%Q; Some 25%Q; Some 22%Q])].
Proof. vm_compute. reflexivity. Qed.
Example C220_case_symmetric : reads_matrix no_number (get "data" demo_cov) (map (fun i => map (fun j => Some (inject_Z (Z.of_nat (10 * Nat.min i j + Nat.max i j)))) (seq 0 6)) (seq 0 6)).
Proof. exists (map demo_row (seq 0 6)). split; [reflexivity|]. repeat constructor; (eexists; split; [reflexivity|]); repeat constructor. Qed.

(* ---- C221 ---- *)
Theorem C221_any_order : forall parse text workers order fetch allow from_input ids (g : nat -> dict), (0 < workers)%Z ->
  Permutation order (seq 0 (List.length ids)) ->
  (forall i, i < List.length ids -> fetch i (nth i ids "") = Ok (g i)) ->
  get_payloads workers order fetch ids = Ok (map g (seq 0 (List.length ids))) /\
  query_sbdb_new parse text workers order fetch allow from_input ids = query_sbdb_new parse text 1 (seq 0 (List.length ids)) fetch allow from_input ids.
Proof.
  intros parse text workers order fetch allow from_input ids g W P F. split; [now apply payloads_ok|].
  unfold query_sbdb_new. rewrite (payloads_ok workers order fetch ids g W P F), (payloads_ok 1 (seq 0 (List.length ids)) fetch ids g); auto. lia.
Qed.
Print Assumptions C221_any_order.
Theorem C221_failure : forall parse text workers order fetch allow from_input ids, (0 < workers)%Z ->
  Permutation order (seq 0 (List.length ids)) -> (exists i e, i < List.length ids /\ fetch i (nth i ids "") = Err e) ->
  exists i e, i < List.length ids /\ fetch i (nth i ids "") = Err e /\ query_sbdb_new parse text workers order fetch allow from_input ids = Err e.
Proof.
  intros parse text workers order fetch allow from_input ids W P (i & e & L & E).
  assert (X : forall l, In i l -> exists l1 j e' l2, l = l1 ++ j :: l2 /\ fetch j (nth j ids "") = Err e' /\ forall x, In x l1 -> exists a, fetch x (nth x ids "") = Ok a).
  { induction l as [|y l IH]; [intros []|]. intro I. destruct (fetch y (nth y ids "")) as [a|e'] eqn:F.
    - destruct I as [->|I]; [congruence|]. destruct (IH I) as (l1 & j & e' & l2 & -> & Fj & A). exists (y :: l1), j, e', l2. split; [reflexivity|]. split; [exact Fj|].
      intros x [<-|Ix]; [now exists a|now apply A].
    - exists [], y, e', l. repeat split; auto. intros x []. }
  destruct (X order) as (l1 & j & e' & l2 & -> & Fj & A). { apply (Permutation_in _ (Permutation_sym P)), in_seq. lia. }
  exists j, e'. split. { assert (I : In j (l1 ++ j :: l2)) by (apply in_or_app; right; now left). apply (Permutation_in _ P), in_seq in I. lia. }
  split; [exact Fj|]. unfold query_sbdb_new. now rewrite (payloads_err workers l1 j l2 fetch ids e' W P Fj A).
Qed.
Print Assumptions C221_failure.
Example C221_case : fields (query_sbdb_new no_number no_text 3 [2; 0; 1] (fun i _ => Ok (("object", JObj [("fullname", JStr (pad5 i))]) :: demo demo_cov)) false true ["a"; "b"; "c"])
  = fields (query_sbdb_new no_number no_text 1 [0; 1; 2] (fun i _ => Ok (("object", JObj [("fullname", JStr (pad5 i))]) :: demo demo_cov)) false true ["a"; "b"; "c"])
  /\ match fields (query_sbdb_new no_number no_text 3 [2; 0; 1] (fun i _ => Ok (("object", JObj [("fullname", JStr (pad5 i))]) :: demo demo_cov)) false true ["a"; "b"; "c"]) with
     | Some l => map (fun r => let '(i, n, _, _, _) := r in (i, n)) l = [("a", "00000"); ("b", "00001"); ("c", "00002")] | None => False end.
Proof. vm_compute. auto. Qed.

(* ---- C222 ---- *)
Theorem C222_retries : forall id timeout attempts server r n w, sbdb_get_json id timeout attempts server = (r, n, w) ->
  (Z.of_nat n <= Z.max 0 attempts)%Z /\ Forall (fun t => 0 < t /\ t <= 8)%Q w /\
  ((exists c, In c (list_ascii_of_string id) /\ is_space c = false) -> (0 < timeout)%Q -> (0 < attempts)%Z ->
   (forall k j, (Z.of_nat k < attempts)%Z -> (forall i, i < k -> transient (server i)) -> server k = RJson j -> r = Ok j /\ n = k + 1 /\ w = map wait (seq 0 k)) /\
   (forall k e, (Z.of_nat k < attempts)%Z -> (forall i, i < k -> transient (server i)) -> permanent (server k) e -> r = Err e /\ n = k + 1 /\ w = map wait (seq 0 k)) /\
   ((forall i, (Z.of_nat i < attempts)%Z -> transient (server i)) -> r = Err RuntimeError /\ Z.of_nat n = attempts /\ w = map wait (seq 0 n))).
Proof.
  intros id timeout attempts server r n w H.
  assert (B : forall left attempt r n w, attempts_loop left attempt server = (r, n, w) -> n <= left /\ Forall (fun t => 0 < t /\ t <= 8)%Q w).
  { induction left as [|left IH]; intros attempt r0 n0 w0 E; cbn [attempts_loop] in E; [injection E as <- <- <-; split; [lia|constructor]|].
    destruct (attempts_loop left (Datatypes.S attempt) server) as [[r' n'] w'] eqn:Q. destruct (IH _ _ _ _ Q) as [I1 I2].
    assert (Z0 : forall e (x : result dict), (Err e, 1, []) = (x, n0, w0) -> n0 <= Datatypes.S left /\ Forall (fun t => 0 < t /\ t <= 8)%Q w0) by (intros e x X; injection X as _ <- <-; split; [lia|constructor]).
    assert (Z1 : (r', Datatypes.S n', wait attempt :: w') = (r0, n0, w0) -> n0 <= Datatypes.S left /\ Forall (fun t => 0 < t /\ t <= 8)%Q w0).
    { intro X. injection X as _ <- <-. split; [lia|]. constructor; [apply wait_bounds|exact I2]. }
    destruct (server attempt) as [| |[s|] e|e|j]; eauto.
    - destruct (_ || _); eauto.
    - injection E as _ <- <-. split; [lia|constructor]. }
  unfold sbdb_get_json in H.
  destruct (forallb is_space (list_ascii_of_string id)) eqn:S; [injection H as <- <- <-; split; [lia|]; split; [constructor|]; intros (c & I & C); rewrite forallb_forall in S; rewrite (S c I) in C; discriminate|].
  destruct (Qle_bool timeout 0) eqn:T; [injection H as <- <- <-; split; [lia|]; split; [constructor|]; intros _ T' _; apply Qle_bool_iff in T; exfalso; now apply Qlt_not_le in T'|].
  destruct (Z.leb_spec attempts 0) as [A|A]; [injection H as <- <- <-; split; [lia|]; split; [constructor|]; intros _ _ A'; lia|].
  destruct (B _ _ _ _ _ H) as [B1 B2]. split; [lia|]. split; [exact B2|]. intros _ _ _.
  assert (Pre : forall k, (Z.of_nat k <= attempts)%Z -> (forall i, i < k -> transient (server i)) ->
            (let '(r, n, w) := attempts_loop (Z.to_nat attempts - k) k server in (r, k + n, map wait (seq 0 k) ++ w)) = (r, n, w)).
  { intros k Hk Tr. rewrite <- H. symmetry. apply (loop_prefix server k (Z.to_nat attempts) 0); [lia|exact Tr]. }
  split; [|split].
  - intros k j Hk Tr E. specialize (Pre k ltac:(lia) Tr). replace (Z.to_nat attempts - k) with (Datatypes.S (Z.to_nat attempts - k - 1)) in Pre by lia.
    cbn [attempts_loop] in Pre. rewrite E in Pre. injection Pre as <- <- <-. rewrite app_nil_r. auto.
  - intros k e Hk Tr E. specialize (Pre k ltac:(lia) Tr). replace (Z.to_nat attempts - k) with (Datatypes.S (Z.to_nat attempts - k - 1)) in Pre by lia.
    rewrite (loop_permanent _ _ _ e E) in Pre. injection Pre as <- <- <-. rewrite app_nil_r. auto.
  - intros Tr. specialize (Pre (Z.to_nat attempts) ltac:(lia) ltac:(intros i Hi; apply Tr; lia)). rewrite Nat.sub_diag in Pre. cbn [attempts_loop] in Pre.
    injection Pre as <- <- <-. rewrite app_nil_r, Nat.add_0_r. split; [reflexivity|]. split; [lia|reflexivity].
Qed.
Print Assumptions C222_retries.
Example C222_case : sbdb_get_json " 433 " 60 5 (fun k => match k with 0 => RTimeout | 1 => RHttp (Some 503%Z) ValueError | 2 => RHttp (Some 429%Z) ValueError | _ => RJson [("object", JNull)] end)
  = (Ok [("object", JNull)], 4, [(1 # 2) * 1; (1 # 2) * 2; (1 # 2) * 4]%Q)
  /\ sbdb_get_json "433" 60 5 (fun _ => RHttp (Some 404%Z) ValueError) = (Err ValueError, 1, [])
  /\ fst (sbdb_get_json "433" 60 6 (fun _ => RTimeout)) = (Err RuntimeError, 6).
Proof. vm_compute. auto. Qed.
