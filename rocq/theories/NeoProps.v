(* C238-C241: orbits of the NEOCC. *)
From Coq Require Import Ascii String QArith ZArith List Bool Lia.
From Verif Require Import Base TimeModel MpcModel ObsModel AdesModel AdesSpec AdesProofs ObsProofs CovModel CovSpec NeoModel NeoSpec NeoProofs NeoProofs2.
Import ListNotations.
Open Scope string_scope.
Open Scope list_scope.
Open Scope nat_scope.

(* C238: whatever the order and number of its records and remarks, a file is read as what it says *)
Theorem C238_file : forall fl f text k, written f text -> says fl (f_body f) k ->
  exists d, parse_oef fl text = Ok d /\ d_id d = Some (f_id f) /\ dget str_eqb (s_ "refsys") (d_header d) = Some (f_refsys f) /\
    d_elements d = Some (k_elements k) /\ d_epoch d = k_epoch k /\ d_mag d = k_mag k /\
    optional_matrix (k_cov k) (d_cov d) /\ optional_matrix (k_cor k) (d_cor d).
Proof. exact parse_ok. Qed.
Print Assumptions C238_file.

(* C238: a remark "! NAME value ..." gives the value of that name, a number where it is one, unless a later remark has the name *)
Theorem C238_remarks : forall fl f text d b1 t b2 k v more, written f text -> parse_oef fl text = Ok d ->
  f_body f = b1 ++ Remark t :: b2 -> laid (k :: v :: more) t ->
  Forall (fun e => match e with
    | Remark t' => exists ws, laid ws t' /\ forall k' r, ws = k' :: r -> lower k' <> lower k
    | Fields kw _ => ~ begins (s_ "!") kw end) b2 ->
  dget str_eqb (lower k) (d_derived d) = Some (match fl v with Some q => inl q | None => inr v end).
Proof. exact derived_ok. Qed.
Print Assumptions C238_remarks.

(* ---- a file ---- *)
Definition reader (s : str) : option Q := let '(b, r) := signed s in option_map (neg_if b) (unsigned r).
Definition word_line (ws : list string) : str := flat_map (fun w => " "%char :: s_ w) ws.
Definition twenty_one : list string := ["1";"2";"3";"4";"5";"6";"7";"8";"9";"10";"11";"12";"13";"14";"15";"16";"17";"18";"19";"20";"21"].
Definition example_body (epoch cov : bool) : list entry :=
  [Remark (s_ " Keplerian elements"); Fields (s_ "KEP") (map s_ ["2.5"; "0.66"; "3.4"; "271"; "134"; "-40.5E-1"])] ++
  (if epoch then [Fields (s_ "MJD") (map s_ ["60800.25"; "TDT"])] else []) ++
  [Fields (s_ "MAG") (map s_ ["23.876"; "0.150"]); Fields (s_ "LSP") (map s_ ["0"; "0"; "6"]); Remark (s_ " PERIOD 1.5E3")] ++
  (if cov then [Fields (s_ "COV") (map s_ twenty_one)] else []).
Definition line_of (e : entry) : str := match e with Remark t => "!"%char :: t | Fields k vs => flat_map (fun w => " "%char :: w) (k :: vs) end.
Definition example_text (epoch cov : bool) : str :=
  join NL ([s_ "format  = 'OEF2.0'       ! file format"] ++ s_ "refsys  = ECLM J2000     ! default reference system" :: [s_ "rectype = 'ML'"] ++
    s_ "END_OF_HEADER" :: s_ "2024YR4" :: map line_of (example_body epoch cov)) ++ [NL].
Lemma laid_line : forall ws, Forall (fun w => nospace w /\ w <> []) ws -> laid ws (flat_map (fun w => " "%char :: w) ws).
Proof.
  induction ws as [|w ws IH]; intros H; [apply laid_end; constructor|]. inversion H as [|? ? [A B] C]; subst.
  cbn [flat_map]. change ((" "%char :: w) ++ ?r) with ([" "%char] ++ w ++ r). constructor; auto; [repeat constructor|discriminate].
Qed.
Fixpoint no_nl (s : str) : bool := match s with [] => true | c :: r => negb (Ascii.eqb c NL) && no_nl r end.
Lemma no_nl_ok : forall s, no_nl s = true -> ~ In NL s.
Proof.
  induction s as [|c s IH]; intros H I; [destruct I|]. cbn in H. apply andb_true_iff in H. destruct H as [A B]. destruct I as [->|I]; [discriminate|]. exact (IH B I).
Qed.
Lemma example_written : forall epoch cov, written (mkfile (s_ "2024YR4") (s_ "ECLM J2000") (example_body epoch cov)) (example_text epoch cov).
Proof.
  intros epoch cov. unfold example_text.
  change (join NL ?x ++ [NL]) with ([] ++ join NL x ++ [NL]). apply written_text.
  - constructor; [|constructor]. split; [apply no_nl_ok; reflexivity|]. left. exists (s_ "  = 'OEF2.0'       ! file format"). reflexivity.
  - exists (s_ "  "), (s_ " "), (s_ "     "), (s_ "! default reference system"), []. split; [reflexivity|].
    do 3 (split; [repeat constructor|]). split; [right; exists (s_ " default reference system"); reflexivity|]. split; [left; reflexivity|]. apply no_nl_ok. reflexivity.
  - constructor; [|constructor]. split; [apply no_nl_ok; reflexivity|]. right. left. exists (s_ " = 'ML'"). reflexivity.
  - split; [|split; [discriminate|split; cbn; intuition discriminate]].
    change (s_ "ECLM J2000") with ("E"%char :: s_ "CLM J200" ++ ["0"%char]). apply trimmed_edges; apply white_not; reflexivity.
  - split; [|split; [discriminate|split; [apply no_nl_ok; reflexivity|]]].
    + change (s_ "2024YR4") with ("2"%char :: s_ "024YR" ++ ["4"%char]). apply trimmed_edges; apply white_not; reflexivity.
    + intros p I [b E]. cbn in I. repeat (destruct I as [<-|I]; [discriminate|]). destruct I.
  - cbn [f_body]. assert (G : Forall (fun e => entry_line e (line_of e)) (example_body epoch cov)).
    { assert (R : forall t, no_nl t = true -> entry_line (Remark t) (line_of (Remark t))) by (intros t H; constructor; apply no_nl_ok; auto).
      assert (F : forall k vs, Forall (fun w => nospace w /\ w <> []) (k :: vs) -> (forall k0, In k0 keywords5 -> begins k0 k -> k = k0) -> no_nl (line_of (Fields k vs)) = true ->
        entry_line (Fields k vs) (line_of (Fields k vs))).
      { intros k vs A B C. constructor; [apply laid_line; auto| |apply no_nl_ok; auto|auto]. cbn. eexists. reflexivity. }
      assert (B : forall s k0, In s (map s_ ["KEP"; "MJD"; "MAG"; "LSP"; "COV"]) -> In k0 keywords5 -> begins k0 s -> s = k0).
      { intros s k0 I J [b E]. cbn in I, J. repeat (destruct I as [<-|I]; [repeat (destruct J as [<-|J]; [try discriminate; try (cbn in E; injection E as E; destruct b; [reflexivity|discriminate])|]); destruct J|]). destruct I. }
      apply Forall_app. split; [constructor; [apply R; reflexivity|constructor; [apply F; [repeat (constructor; [split; [repeat constructor|discriminate]|]); constructor|intros; apply B; cbn; auto|reflexivity]|constructor]]|].
      apply Forall_app. split; [destruct epoch; constructor; [apply F; [repeat (constructor; [split; [repeat constructor|discriminate]|]); constructor|intros; apply B; cbn; auto|reflexivity]|constructor]|].
      apply Forall_app. split.
      - constructor; [apply F; [repeat (constructor; [split; [repeat constructor|discriminate]|]); constructor|intros; apply B; cbn; auto|reflexivity]|].
        constructor; [apply F; [repeat (constructor; [split; [repeat constructor|discriminate]|]); constructor|intros; apply B; cbn; auto 10|reflexivity]|].
        constructor; [apply R; reflexivity|constructor].
      - destruct cov; constructor; [apply F; [repeat (constructor; [split; [repeat constructor|discriminate]|]); constructor|intros; apply B; cbn; auto 10|reflexivity]|constructor]. }
    induction G; constructor; auto.
  - intros ls' l E. assert (X : last (map line_of (example_body epoch cov)) [] = l) by (rewrite E; rewrite last_last; reflexivity).
    destruct epoch, cov; cbn in X; subst l; unfold ends_visible.
    all: (eexists (removelast _), (last _ "x"%char); split; [apply app_removelast_last; discriminate|cbn; apply white_not; reflexivity]).
  - constructor.
  - repeat constructor.
Qed.
Definition example_content (epoch cov : bool) : content :=
  let num t := match reader t with Some q => q | None => 0%Q end in
  mkcontent (map num (map s_ ["2.5"; "0.66"; "3.4"; "271"; "134"; "-40.5E-1"]))
    (if epoch then Some (num (s_ "60800.25"), s_ "TDT") else None) (Some (num (s_ "23.876"), num (s_ "0.150")))
    (if cov then map num (map s_ twenty_one) else []) [].
Lemma example_says : forall epoch cov, says reader (example_body epoch cov) (example_content epoch cov).
Proof.
  intros epoch cov. unfold says.
  split; [exists (map s_ ["2.5"; "0.66"; "3.4"; "271"; "134"; "-40.5E-1"]), []; split; [destruct epoch, cov; reflexivity|split; [repeat constructor|reflexivity]]|].
  split; [destruct epoch, cov; cbn [k_epoch example_content]; try reflexivity; eexists _, _; split; reflexivity|].
  split; [cbn [k_mag example_content]; eexists _, _, _; split; [destruct epoch, cov; reflexivity|split; reflexivity]|].
  split; [destruct epoch, cov; repeat constructor|]. split; [destruct cov; unfold triangle_length; cbn; auto|].
  split; [destruct epoch, cov; constructor|left; reflexivity].
Qed.
Example C238_case : written (mkfile (s_ "2024YR4") (s_ "ECLM J2000") (example_body true true)) (example_text true true) /\
  says reader (example_body true true) (example_content true true) /\
  exists d m, parse_oef reader (example_text true true) = Ok d /\ d_id d = Some (s_ "2024YR4") /\ option_map (map Qred) (d_elements d) = Some [5 # 2; 33 # 50; 17 # 5; 271 # 1; 134 # 1; -81 # 20]%Q /\
    d_cov d = Some m /\ Qred (m 5 1) = 11%Q /\ Qred (m 1 1) = 7%Q /\ option_map (fun x => match x with inl q => Qred q | inr _ => 0%Q end) (dget str_eqb (s_ "period") (d_derived d)) = Some 1500%Q.
Proof. split; [apply example_written|]. split; [apply example_says|]. eexists _, _. split; [reflexivity|]. repeat split; reflexivity. Qed.

(* C239: one row for every id, in the order of the ids, from its own file, in tt, ecliptic and heliocentric *)
Theorem C239_rows : forall fl get ids ep e, (ep = s_ "middle" /\ e = s_ "0" \/ ep = s_ "present-day" /\ e = s_ "1") ->
  Forall (fun i => exists text f k q, get (address i e) = Some text /\ usable fl text f k q) ids ->
  exists rows, query_neocc fl get ids (s_ "ke") ep = NOk rows /\
  Forall2 (fun i o => exists text f k q, get (address i e) = Some text /\ usable fl text f k q /\
    n_orbit_id o = f_id f /\ n_object_id o = f_id f /\ n_elements o = k_elements k /\ n_time o = from_mjd q /\
    n_scale o = s_ "tt" /\ n_frame o = s_ "ecliptic" /\ n_origin o = s_ "SUN" /\ matrix_of (k_cov k) (n_cov o) /\
    n_H o = option_map fst (k_mag k) /\ n_G o = option_map snd (k_mag k)) ids rows.
Proof.
  intros fl get ids ep e H F. rewrite (query_ke fl get ids ep e) by (destruct H as [[-> ->]|[-> ->]]; reflexivity).
  exact (all_ok fl get e ids F).
Qed.
Print Assumptions C239_rows.
(* C239: an orbit in another time scale or reference system is refused, never relabelled *)
Theorem C239_refused : forall fl get ids ep e i text f k q ts, (ep = s_ "middle" /\ e = s_ "0" \/ ep = s_ "present-day" /\ e = s_ "1") ->
  In i ids -> get (address i e) = Some text -> written f text -> says fl (f_body f) k -> k_epoch k = Some (q, ts) ->
  ts <> s_ "TDT" \/ f_refsys f <> s_ "ECLM J2000" -> forall rows, query_neocc fl get ids (s_ "ke") ep <> NOk rows.
Proof.
  intros fl get ids ep e i text f k q ts H I G W S E B rows. rewrite (query_ke fl get ids ep e) by (destruct H as [[-> ->]|[-> ->]]; reflexivity).
  apply (all_fails fl get e ids i I). intros p Hp. rewrite (one_refused fl get i e text f k G W S) in Hp; [discriminate|]. exists q, ts. auto.
Qed.
Print Assumptions C239_refused.
(* C239: other kinds of elements and epochs are errors *)
Theorem C239_errors : forall fl get ids ep, query_neocc fl get ids (s_ "eq") ep = NFail NNotImplemented /\
  (ep <> s_ "middle" -> ep <> s_ "present-day" -> query_neocc fl get ids (s_ "ke") ep = NFail (NErr ValueError)).
Proof.
  intros fl get ids ep. split; [reflexivity|]. intros A B. unfold query_neocc, epoch_code.
  destruct (str_eqb ep (s_ "middle")) eqn:E; [apply str_eqb_eq in E; contradiction|]. destruct (str_eqb ep (s_ "present-day")) eqn:E2; [apply str_eqb_eq in E2; contradiction|]. reflexivity.
Qed.
Print Assumptions C239_errors.
Definition server (epoch cov : bool) (name : str) : option str := if str_eqb name (s_ "2024YR4.ke1") then Some (example_text epoch cov) else None.
Example C239_case : forall i, In i [s_ "2024 YR4"; s_ "2024YR4"] -> exists text f k q, server true true (address i (s_ "1")) = Some text /\ usable reader text f k q.
Proof.
  intros i I. exists (example_text true true), (mkfile (s_ "2024YR4") (s_ "ECLM J2000") (example_body true true)), (example_content true true).
  eexists. split; [repeat (destruct I as [<-|I]; [reflexivity|]); destruct I|]. split; [apply example_written|]. split; [apply example_says|].
  split; [reflexivity|]. split; [reflexivity|discriminate].
Qed.

(* C240 refuted: an object whose file has no epoch is left out without an error *)
Theorem C240_every_id_refuted : exists fl get ids f text k, get (address (hd [] ids) (s_ "1")) = Some text /\ written f text /\ says fl (f_body f) k /\
  k_epoch k = None /\ ids <> [] /\ query_neocc fl get ids (s_ "ke") (s_ "present-day") = NOk [].
Proof.
  exists reader, (server false true), [s_ "2024 YR4"], (mkfile (s_ "2024YR4") (s_ "ECLM J2000") (example_body false true)), (example_text false true), (example_content false true).
  split; [reflexivity|]. split; [apply example_written|]. split; [apply example_says|]. split; [reflexivity|]. split; [discriminate|]. vm_compute. reflexivity.
Qed.
Print Assumptions C240_every_id_refuted.
(* C240 refuted: so is every object, for a kind of elements that does not exist *)
Theorem C240_kind_refuted : exists fl get text, get (s_ "2024YR4.kep1") = Some text /\ (exists d, parse_oef fl text = Ok d /\ d_elements d <> None /\ d_epoch d <> None) /\
  query_neocc fl get [s_ "2024 YR4"] (s_ "kep") (s_ "present-day") = NOk [].
Proof.
  exists reader, (fun n => if str_eqb n (s_ "2024YR4.kep1") then Some (example_text true true) else None), (example_text true true).
  split; [reflexivity|]. split; [|vm_compute; reflexivity].
  destruct (parse_ok reader _ _ _ (example_written true true) (example_says true true)) as (d & P & _ & _ & D3 & D4 & _). exists d. rewrite D3, D4. repeat split; auto; discriminate.
Qed.
Print Assumptions C240_kind_refuted.
(* C240, what holds: where every file has an epoch, there are as many rows as ids, or an error *)
Theorem C240_every_id_partial : forall fl get ids ep e rows, (ep = s_ "middle" /\ e = s_ "0" \/ ep = s_ "present-day" /\ e = s_ "1") ->
  (forall i text, In i ids -> get (address i e) = Some text -> exists f k, written f text /\ says fl (f_body f) k /\ k_epoch k <> None) ->
  query_neocc fl get ids (s_ "ke") ep = NOk rows -> List.length rows = List.length ids /\ forall i, In i ids -> get (address i e) <> None.
Proof.
  intros fl get ids ep e rows H F Q. rewrite (query_ke fl get ids ep e) in Q by (destruct H as [[-> ->]|[-> ->]]; reflexivity).
  destruct (all_inv fl get _ _ _ _ Q) as (ps & P & ->). clear Q H.
  assert (G : forall i p, In i ids -> query_one fl get (s_ "ke") e i = NOk p -> get (address i e) <> None).
  { intros i p I X N. unfold query_one in X. rewrite address_ke, N in X. discriminate. }
  induction P as [|i p is ps X P IH]; [split; [reflexivity|intros i []]|].
  destruct IH as [A B]; [intros; eapply F; eauto; right; auto|intros; eapply G; eauto; right; auto|].
  assert (N : get (address i e) <> None) by (apply (G i p); auto; left; auto). destruct (get (address i e)) as [text|] eqn:T; [|congruence].
  destruct (F i text ltac:(left; auto) T) as (f & k & W & S & E). split.
  - cbn [concat]. rewrite app_length. rewrite (one_epoch fl get i e text f k p T W S E X). cbn [List.length]. lia.
  - intros j [<-|J]; [congruence|auto].
Qed.
Print Assumptions C240_every_id_partial.
Example C240_case : exists rows, query_neocc reader (server true true) [s_ "2024 YR4"; s_ "2024YR4"] (s_ "ke") (s_ "present-day") = NOk rows /\ List.length rows = 2.
Proof. eexists. split; [vm_compute; reflexivity|reflexivity]. Qed.

(* C241 refuted: an orbit published without a covariance cannot be queried *)
Theorem C241_no_covariance_refuted : exists fl get f text k q, get (s_ "2024YR4.ke1") = Some text /\ written f text /\ says fl (f_body f) k /\
  f_refsys f = s_ "ECLM J2000" /\ k_epoch k = Some (q, s_ "TDT") /\ k_cov k = [] /\
  query_neocc fl get [s_ "2024YR4"] (s_ "ke") (s_ "present-day") = NFail (NErr KeyError).
Proof.
  exists reader, (server true false), (mkfile (s_ "2024YR4") (s_ "ECLM J2000") (example_body true false)), (example_text true false), (example_content true false). eexists.
  split; [reflexivity|]. split; [apply example_written|]. split; [apply example_says|]. repeat (split; [reflexivity|]). vm_compute. reflexivity.
Qed.
Print Assumptions C241_no_covariance_refuted.
(* C241: one such orbit and no row is returned, whatever the other files say *)
Theorem C241_no_rows_partial : forall fl get ids ep e i text f k q, (ep = s_ "middle" /\ e = s_ "0" \/ ep = s_ "present-day" /\ e = s_ "1") ->
  In i ids -> get (address i e) = Some text -> written f text -> says fl (f_body f) k -> f_refsys f = s_ "ECLM J2000" -> k_epoch k = Some (q, s_ "TDT") ->
  k_cov k = [] -> forall rows, query_neocc fl get ids (s_ "ke") ep <> NOk rows.
Proof.
  intros fl get ids ep e i text f k q H I G W S R E C rows. rewrite (query_ke fl get ids ep e) by (destruct H as [[-> ->]|[-> ->]]; reflexivity).
  apply (all_fails fl get e ids i I). intros p Hp. rewrite (one_bare fl get i e text f k q G W S R E C) in Hp. discriminate.
Qed.
Print Assumptions C241_no_rows_partial.
