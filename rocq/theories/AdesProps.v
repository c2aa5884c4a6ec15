(* Properties of ADES files. *)
From Coq Require Import Ascii String QArith ZArith Permutation Sorted.
From Verif Require Import Base TimeModel MpcModel ObsModel AdesModel AdesSpec AdesCtx.
Open Scope string_scope.
Open Scope Z_scope.
Open Scope list_scope.

(* C119: what was written is read back: the same rows, sorted, with numbers to half a unit of the last printed decimal. *)
Theorem C119_observations_read_back : forall show read again, stamps show read again -> forall obs ctxs text,
  Forall safe_row obs -> Forall numbers_ok obs -> uniform_numbers obs -> NoDup (map fst ctxs) -> (forall s c, In (s, c) ctxs -> one_line c) ->
  write show default_precision obs ctxs = Ok text ->
  exists sorted l, Permutation sorted obs /\ StronglySorted before sorted /\ read_observations read text = Ok l /\ Forall2 (reread again) sorted l.
Proof. exact round_trip. Qed.
Print Assumptions C119_observations_read_back.

(* C59 for tables with safe text, numbers given for all rows of a station or none, and standard deviations that survive rounding. *)
Theorem C59_observations_partial : forall show read again, stamps show read again -> forall obs ctxs text,
  Forall safe_row obs -> Forall numbers_ok obs -> uniform_numbers obs -> NoDup (map fst ctxs) -> (forall s c, In (s, c) ctxs -> one_line c) ->
  write show default_precision obs ctxs = Ok text ->
  exists sorted l, Permutation sorted obs /\ StronglySorted before sorted /\ read_observations read text = Ok l /\ Forall2 (reread again) sorted l.
Proof. exact round_trip. Qed.
Print Assumptions C59_observations_partial.

(* C60 / C120: every observed station's context is read back under its code, without coinvestigators and collaborators; a context without them is read back equal. *)
Theorem C60_contexts_partial : forall show read again, stamps show read again -> forall obs ctxs text,
  Forall safe_row obs -> Forall numbers_ok obs -> uniform_numbers obs -> NoDup (map fst ctxs) ->
  (forall s c, In (s, c) ctxs -> c_code c = s /\ plain_context c /\ check c = Ok c) -> write show default_precision obs ctxs = Ok text ->
  exists ss l, StronglySorted slt ss /\ (forall s, In s ss <-> observed obs s) /\ read_contexts text = Ok l /\
    Forall2 (fun s e => exists c, In (s, c) ctxs /\ e = (Some s, kept c) /\ (whole c -> kept c = c)) ss l.
Proof. exact contexts_trip. Qed.
Print Assumptions C60_contexts_partial.
Theorem C120_whole_contexts : forall show read again, stamps show read again -> forall obs ctxs text,
  Forall safe_row obs -> Forall numbers_ok obs -> uniform_numbers obs -> NoDup (map fst ctxs) ->
  (forall s c, In (s, c) ctxs -> c_code c = s /\ plain_context c /\ check c = Ok c) -> (forall s c, In (s, c) ctxs -> whole c) ->
  write show default_precision obs ctxs = Ok text ->
  exists ss l, StronglySorted slt ss /\ (forall s, In s ss <-> observed obs s) /\ read_contexts text = Ok l /\ Forall2 (fun s e => exists c, In (s, c) ctxs /\ e = (Some s, c)) ss l.
Proof. exact whole_trip. Qed.
Print Assumptions C120_whole_contexts.

(* C118: writing succeeds exactly when every station has a context and some row with an identifier; otherwise ValueError. *)
Theorem C118_identifiers_partial : forall show prec obs ctxs, NoDup (map fst ctxs) ->
  ((exists text, write show prec obs ctxs = Ok text) <->
   forall s, observed obs s -> (exists c, In (s, c) ctxs) /\ exists a, In a obs /\ a_stn a = s /\ identified a) /\
  forall e, write show prec obs ctxs = Err e -> e = ValueError.
Proof. exact write_iff. Qed.
Print Assumptions C118_identifiers_partial.

(* ---- cases ---- *)
Definition clock (t : row) : list ascii := s_ "2020-01-01T00:00:00.000".
Definition unclock (s : list ascii) : result row := Ok (mkrow 58849 0).
Example clock_stamps : stamps clock unclock (fun _ => mkrow 58849 0).
Proof.
  intros t. split; [|reflexivity]. apply stampb_ok. vm_compute. reflexivity.
Qed.
Definition ob (prov : option str) (days : Z) (mag : option fval) (rms : option fval) (rem : option str) : ades :=
  mkades None prov None None (mkrow days 0) None (FNum (1 # 3)) (FNum (- 5 # 7)) rms rms None mag None (Some (s_ "V")) (s_ "X05") (s_ "CCD") (s_ "Gaia2") None None None None rem.
Definition ctx (soft : option software) (co : option (list str)) (fund : option str) (comm : option (list str)) : context :=
  mkcontext (s_ "X05") (Some (s_ "Rubin")) (s_ "A. Person") None [s_ "A. Person"; s_ "B. Person"] [s_ "C. Person"] (s_ "Reflector") (s_ "8.4") (s_ "CCD") None None None None (Some (s_ "0.2"))
    soft co None fund comm.
Definition plain_ctx : context := ctx (Some (mksoftware (Some (s_ "tool")) None None None)) None (Some (s_ "a grant")) (Some [s_ "first line"; s_ "second line"]).
Definition mag18 := Some (FNum (18001 # 1000)).
Definition sd := Some (FNum (1 # 10)).
Definition two := [ob (Some (s_ "2020 BB")) 58850 mag18 sd (Some (s_ "a remark")); ob (Some (s_ "2020 AA")) 58849 (Some (FNum (20 # 1))) sd None].
Definition tablew (obs : list ades) (c : context) : result (list ades) := bind (write clock default_precision obs [(s_ "X05", c)]) (read_observations unclock).
Definition ctxw (c : context) : result (list (option str * context)) := bind (write clock default_precision two [(s_ "X05", c)]) read_contexts.
Definition seen (r : result (list ades)) : result (list (option str * option fval * option str)) := bind r (fun l => Ok (map (fun a => (a_prov a, a_mag a, a_remarks a)) l)).

Example C119_case : (exists text, write clock default_precision two [(s_ "X05", plain_ctx)] = Ok text) /\
  seen (tablew two plain_ctx) = Ok [(Some (s_ "2020 AA"), Some (FNum (200000 # 10000)), None); (Some (s_ "2020 BB"), Some (FNum (180010 # 10000)), Some (s_ "a remark"))].
Proof. split; [eexists; vm_compute; reflexivity|vm_compute; reflexivity]. Qed.
Example C60_case : whole plain_ctx /\ check plain_ctx = Ok plain_ctx /\ ctxw plain_ctx = Ok [(Some (s_ "X05"), plain_ctx)].
Proof. split; [repeat split; discriminate|split; vm_compute; reflexivity]. Qed.

Example C60_hypotheses : Forall safe_row two /\ Forall numbers_ok two /\ uniform_numbers two /\ plain_context plain_ctx /\ one_line plain_ctx.
Proof.
  split; [apply rowb_ok; vm_compute; reflexivity|]. split; [apply numsb_ok; vm_compute; reflexivity|].
  split; [intros f F a b Ia Ib _; destruct Ia as [<-|[<-|[]]], Ib as [<-|[<-|[]]]; repeat (destruct F as [<-|F]; [vm_compute; split; intros X; first [discriminate X|reflexivity]|]); destruct F|].
  split; [split; [apply (ctxb_ok plainb); [exact plainb_ok|vm_compute; reflexivity]|discriminate]|]. apply (ctxb_ok lineb); [exact lineb_ok|vm_compute; reflexivity].
Qed.
(* the text *)
Example C59_text : write clock default_precision two [(s_ "X05", plain_ctx)] = Ok (s_
"# version=2022
# observatory
! mpcCode X05
! name Rubin
# submitter
! name A. Person
# observers
! name A. Person
! name B. Person
# measurers
! name C. Person
# telescope
! design Reflector
! aperture 8.4
! detector CCD
! pixelSize 0.2
# software
! astrometry tool
# fundingSource a grant
# comment
! line first line
! line second line
provID|obsTime|ra|dec|rmsRA|rmsDec|mag|band|stn|mode|astCat|remarks
2020 AA|2020-01-01T00:00:00.000Z|0.333333333|-0.714285714|0.10000|0.10000|20.0000|V|X05|CCD|Gaia2|
2020 BB|2020-01-01T00:00:00.000Z|0.333333333|-0.714285714|0.10000|0.10000|18.0010|V|X05|CCD|Gaia2|a remark
").
Proof. vm_compute. reflexivity. Qed.

(* C59 is false.  A magnitude missing in one of two rows of a station comes back as NaN, not missing. *)
Theorem C59_missing_magnitude_refuted : exists obs c, Forall safe_row obs /\ Forall numbers_ok obs /\ plain_context c /\ map a_mag obs = [mag18; None] /\
  exists l, tablew obs c = Ok l /\ map a_mag l = [Some (FNum (180010 # 10000)); Some FNan].
Proof.
  exists [ob (Some (s_ "2020 AA")) 58849 mag18 sd None; ob (Some (s_ "2020 BB")) 58850 None sd None], plain_ctx.
  split; [apply rowb_ok; vm_compute; reflexivity|]. split; [apply numsb_ok; vm_compute; reflexivity|]. split; [apply C60_hypotheses|]. split; [reflexivity|]. eexists. split; vm_compute; reflexivity.
Qed.
Print Assumptions C59_missing_magnitude_refuted.
(* A standard deviation missing in one of two rows, or one below half of the last printed decimal, makes the written file unreadable. *)
Theorem C59_missing_rms_refuted : exists obs c, Forall safe_row obs /\ Forall numbers_ok obs /\ plain_context c /\ map a_rmsra obs = [sd; None] /\ map a_rmsdec obs = [sd; None] /\
  (exists text, write clock default_precision obs [(s_ "X05", c)] = Ok text) /\ tablew obs c = Err RuntimeError.
Proof.
  exists [ob (Some (s_ "2020 AA")) 58849 mag18 sd None; ob (Some (s_ "2020 BB")) 58850 mag18 None None], plain_ctx.
  split; [apply rowb_ok; vm_compute; reflexivity|]. split; [apply numsb_ok; vm_compute; reflexivity|]. split; [apply C60_hypotheses|]. split; [reflexivity|]. split; [reflexivity|].
  split; [eexists; vm_compute; reflexivity|vm_compute; reflexivity].
Qed.
Print Assumptions C59_missing_rms_refuted.
Theorem C59_small_rms_refuted : exists obs c, Forall safe_row obs /\ uniform_numbers obs /\ plain_context c /\ map (fun a => rms_ok (a_rmsra a)) obs = [true] /\
  (exists text, write clock default_precision obs [(s_ "X05", c)] = Ok text) /\ tablew obs c = Err RuntimeError.
Proof.
  exists [ob (Some (s_ "2020 AA")) 58849 mag18 (Some (FNum (1 # 1000000))) None], plain_ctx. split; [apply rowb_ok; vm_compute; reflexivity|].
  split; [intros f F a b Ia Ib _; cbn in Ia, Ib; destruct Ia as [<-|[]], Ib as [<-|[]]; tauto|]. split; [apply C60_hypotheses|]. split; [reflexivity|]. split; [eexists; vm_compute; reflexivity|vm_compute; reflexivity].
Qed.
Print Assumptions C59_small_rms_refuted.
(* A remark with the word provID makes its row disappear; a remark with the separator or a quote is altered. *)
Theorem C59_remarks_refuted :
  seen (tablew [ob (Some (s_ "2020 AA")) 58849 mag18 sd None; ob (Some (s_ "2020 BB")) 58850 mag18 sd (Some (s_ "provID unsure"))] plain_ctx) = Ok [(Some (s_ "2020 AA"), Some (FNum (180010 # 10000)), None)] /\
  seen (tablew [ob (Some (s_ "2020 AA")) 58849 mag18 sd (Some (s_ "left|right"))] plain_ctx) = Ok [(Some (s_ "2020 AA"), Some (FNum (180010 # 10000)), Some (s_ """left"))] /\
  seen (tablew [ob (Some (s_ "2020 AA")) 58849 mag18 sd (Some (s_ "3"" trail"))] plain_ctx) = Ok [(Some (s_ "2020 AA"), Some (FNum (180010 # 10000)), Some (s_ """3"""" trail"""))].
Proof. split; [vm_compute; reflexivity|]. split; vm_compute; reflexivity. Qed.
Print Assumptions C59_remarks_refuted.

(* C60 is false: coinvestigators are lost, an empty software section, an empty funding source and absent comments come back different, and trailing blanks are lost. *)
Theorem C60_refuted : forall c, In c [ctx None (Some [s_ "D. Person"]) None (Some []); ctx (Some (mksoftware None None None None)) None None (Some []); ctx None None (Some []) (Some []);
    ctx None None None None; ctx None None (Some (s_ "a grant ")) (Some [])] ->
  check c = Ok c /\ exists c', ctxw c = Ok [(Some (s_ "X05"), c')] /\ c' <> c.
Proof.
  intros c H. cbn in H. repeat (destruct H as [<-|H]; [split; [vm_compute; reflexivity|eexists; split; [vm_compute; reflexivity|discriminate]]|]). destruct H.
Qed.
Print Assumptions C60_refuted.

(* C118 is false: an observation without any identifier is written when another one of the station has one. *)
Theorem C118_identifiers_refuted : exists obs c text, (exists a, In a obs /\ ~ identified a) /\ write clock default_precision obs [(s_ "X05", c)] = Ok text /\
  exists l, read_observations unclock text = Ok l /\ map a_prov l = [Some (s_ "2020 AA"); None] /\ map a_perm l = [None; None] /\ map a_trk l = [None; None].
Proof.
  exists [ob None 58849 mag18 sd None; ob (Some (s_ "2020 AA")) 58849 mag18 sd None], plain_ctx. eexists.
  split; [eexists; split; [left; reflexivity|intros [H|[H|H]]; apply H; reflexivity]|]. split; [vm_compute; reflexivity|]. eexists. split; [vm_compute; reflexivity|]. vm_compute. auto.
Qed.
Print Assumptions C118_identifiers_refuted.
Example C118_case : write clock default_precision [ob None 58849 mag18 sd None] [(s_ "X05", plain_ctx)] = Err ValueError /\ write clock default_precision two [] = Err ValueError.
Proof. split; vm_compute; reflexivity. Qed.
