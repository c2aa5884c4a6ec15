(* Properties of observing nights. *)
From Coq Require Import ZArith Lia String List Bool.
From Verif Require Import Base ListLemmas NightModel.
Import ListNotations.
Open Scope string_scope.
Open Scope list_scope.
Open Scope Z_scope.

(* the specification: the number of the local noon to noon in which a UTC instant lies *)
Definition local_night (offset : Z -> Z) (utc : Z) : Z := (utc + offset utc - 12 * 3600 * 1000000) / (24 * 3600 * 1000000).

Section N.
Context {Zone : Type}.
Variable zone : string -> option (result Zone).
Variable offset : Zone -> Z -> Z.
Variable machine : Z -> Z.
Notation write := (write_code offset machine).
Notation loop := (night_loop zone offset machine).

Lemma write_length : forall z code codes times out, List.length codes = List.length times -> List.length times = List.length out ->
  List.length (write z code codes times out) = List.length out.
Proof. intros. unfold write_code. rewrite map_length, !combine_length. lia. Qed.
Lemma write_nth : forall z code codes times out i c t o, nth_error codes i = Some c -> nth_error times i = Some t -> nth_error out i = Some o ->
  nth_error (write z code codes times out) i = Some (if String.eqb c code then Some (night_of offset machine z t) else o).
Proof.
  intros z code codes. unfold write_code. induction codes as [|c' codes IH]; intros times out i c t o C T O; [destruct i; discriminate|].
  destruct times as [|t' times]; [destruct i; discriminate|]. destruct out as [|o' out]; [destruct i; discriminate|].
  destruct i as [|i]; cbn [nth_error] in *; [injection C as ->; injection T as ->; injection O as ->; reflexivity|]. cbn [combine map nth_error]. apply IH; assumption.
Qed.
Lemma loop_spec : forall todo codes times out res, List.length codes = List.length times -> List.length times = List.length out ->
  loop todo codes times out = Ok res ->
  List.length res = List.length out /\
  (forall c, In c todo -> exists z, zone c = Some (Ok z)) /\
  forall i c t o, nth_error codes i = Some c -> nth_error times i = Some t -> nth_error out i = Some o ->
    (In c todo -> exists z, zone c = Some (Ok z) /\ nth_error res i = Some (Some (night_of offset machine z t))) /\
    (~ In c todo -> nth_error res i = Some o).
Proof.
  induction todo as [|code rest IH]; intros codes times out res L1 L2 H; cbn [night_loop] in H.
  - injection H as <-. split; [reflexivity|]. split; [intros c []|]. intros i c t o C T O. split; [intros []|intro; exact O].
  - destruct (zone code) as [[z|]|] eqn:Z; try discriminate. pose proof (write_length z code codes times out L1 L2) as WL.
    specialize (IH codes times _ res L1 (eq_trans L2 (eq_sym WL)) H) as (R1 & RZ & R2). split; [lia|]. split; [intros c [<-|I]; [eauto|apply RZ; exact I]|].
    intros i c t o C T O. pose proof (write_nth z code codes times out i c t o C T O) as W. specialize (R2 i c t _ C T W) as [A B].
    destruct (in_dec string_dec c rest) as [I|I].
    + split; [intros _; exact (A I)|intro N; exfalso; apply N; right; exact I].
    + destruct (String.eqb_spec c code) as [->|N].
      * split; [intros _; exists z; split; [exact Z|exact (B I)]|intro N; exfalso; apply N; left; reflexivity].
      * split; [intros [E|E]; [congruence|contradiction]|intros _; exact (B I)].
Qed.
Lemma loop_unknown : forall todo codes times out, (exists c, In c todo /\ zone c = None) -> (forall c e, In c todo -> zone c <> Some (Err e)) -> loop todo codes times out = Err ValueError.
Proof.
  induction todo as [|code rest IH]; intros codes times out (c & I & N) K; [destruct I|]. cbn [night_loop]. destruct (zone code) as [[z|e]|] eqn:Z; [|exfalso; exact (K code e (or_introl eq_refl) Z)|reflexivity].
  apply IH; [|intros c' e I'; apply K; right; exact I']. destruct I as [->|I]; [congruence|]. exists c. auto.
Qed.
End N.

(* ---- C208: the night of every row is the local night of its own observatory and time ---- *)
Theorem C208_night_partial : forall {Zone} (zone : string -> option (result Zone)) offset machine codes times res,
  (* the clock of the machine shows UTC *)
  (forall t, machine t = t) -> List.length codes = List.length times ->
  observing_night zone offset machine codes "utc" times = Ok res ->
  List.length res = List.length times /\
  forall i c t, nth_error codes i = Some c -> nth_error times i = Some t ->
    exists z, zone c = Some (Ok z) /\
      (* no earlier than the first noon of MJD 0 at the observatory *)
      (12 * 3600 * 1000000 <= t + offset z t -> nth_error res i = Some (Some (local_night (offset z) t))).
Proof.
  intros Zone zone offset machine codes times res M L H. unfold observing_night in H. apply loop_spec in H as (A & _ & B); [|exact L|rewrite map_length; reflexivity]. rewrite map_length in A. split; [exact A|].
  intros i c t C T. assert (O : nth_error (map (fun _ : Z => @None Z) times) i = Some None) by (rewrite nth_error_map, T; reflexivity).
  specialize (B i c t None C T O) as [B _]. destruct B as (z & Z & R). { apply uniq_In; [apply String.eqb_eq|]. eapply nth_error_In; exact C. }
  exists z. split; [exact Z|]. intro G. rewrite R. unfold night_of, local_night. rewrite M. change day_us with (24 * 3600 * 1000000). change half_day_us with (12 * 3600 * 1000000). rewrite Z.quot_div_nonneg by lia. reflexivity.
Qed.
Print Assumptions C208_night_partial.
(* for any machine and scale: a row depends on nothing but its own code and time *)
Theorem C208_rows : forall {Zone} (zone : string -> option (result Zone)) offset machine codes scale times res codes' scale' times' res' i j c t,
  List.length codes = List.length times -> List.length codes' = List.length times' ->
  observing_night zone offset machine codes scale times = Ok res -> observing_night zone offset machine codes' scale' times' = Ok res' ->
  nth_error codes i = Some c -> nth_error times i = Some t -> nth_error codes' j = Some c -> nth_error times' j = Some t ->
  nth_error res i = nth_error res' j /\ exists n, nth_error res i = Some (Some n).
Proof.
  intros Zone zone offset machine codes scale times res codes' scale' times' res' i j c t L L' H H' C T C' T'. unfold observing_night in *.
  apply loop_spec in H as (_ & _ & B); [|exact L|rewrite map_length; reflexivity]. apply loop_spec in H' as (_ & _ & B'); [|exact L'|rewrite map_length; reflexivity].
  assert (O : nth_error (map (fun _ : Z => @None Z) times) i = Some None) by (rewrite nth_error_map, T; reflexivity).
  assert (O' : nth_error (map (fun _ : Z => @None Z) times') j = Some None) by (rewrite nth_error_map, T'; reflexivity).
  destruct (B i c t None C T O) as [X _]. destruct (B' j c t None C' T' O') as [X' _].
  destruct X as (z & Z & R); [apply uniq_In; [apply String.eqb_eq|]; eapply nth_error_In; exact C|]. destruct X' as (z' & Z' & R'); [apply uniq_In; [apply String.eqb_eq|]; eapply nth_error_In; exact C'|].
  rewrite R, R'. assert (z = z') by congruence. subst z'. eauto.
Qed.
Print Assumptions C208_rows.
Theorem C208_unknown : forall {Zone} (zone : string -> option (result Zone)) offset machine codes scale times,
  (exists c, In c codes /\ zone c = None) -> (forall c e, In c codes -> zone c <> Some (Err e)) ->
  observing_night zone offset machine codes scale times = Err ValueError.
Proof.
  intros Zone zone offset machine codes scale times (c & I & N) K. unfold observing_night. apply loop_unknown.
  - exists c. split; [|exact N]. apply uniq_In; [apply String.eqb_eq|exact I].
  - intros c' e I'. apply K. apply (uniq_In String.eqb String.eqb_eq codes c') in I'. exact I'.
Qed.
Print Assumptions C208_unknown.

Definition hour : Z := 3600 * 1000000.
Definition one_zone (c : string) : option (result unit) := if String.eqb c "695" then Some (Ok tt) else None.
(* an observatory at UTC-7 that goes to UTC-6 at 09:00 UTC of MJD 60000 *)
Definition summer (_ : unit) (utc : Z) : Z := if utc <? 60000 * (24 * hour) + 9 * hour then - 7 * hour else - 6 * hour.
(* a quarter past local noon of the first day of summer time; on a machine at UTC+10 the clock showed this UTC reading ten hours before *)
Theorem C208_machine_refuted : exists t,
  observing_night one_zone summer (fun w => w) ["695"] "utc" [t] = Ok [Some (local_night (summer tt) t)] /\
  observing_night one_zone summer (fun w => w - 10 * hour) ["695"] "utc" [t] = Ok [Some (local_night (summer tt) t - 1)].
Proof. exists (60000 * (24 * hour) + 18 * hour + 15 * 60 * 1000000). split; vm_compute; reflexivity. Qed.
Print Assumptions C208_machine_refuted.
(* the same instant in two scales, TDB 69.184 s ahead: a row in TDB just before local noon is put in the next night *)
Theorem C208_scale_refuted : exists utc,
  observing_night one_zone (fun _ _ => 0) (fun w => w) ["695"] "utc" [utc] = Ok [Some (local_night (fun _ => 0) utc)] /\
  observing_night one_zone (fun _ _ => 0) (fun w => w) ["695"] "tdb" [utc + 69184000] = Ok [Some (local_night (fun _ => 0) utc + 1)].
Proof. exists (60000 * (24 * hour) + 12 * hour - 30 * 1000000). split; vm_compute; reflexivity. Qed.
Print Assumptions C208_scale_refuted.
(* before MJD 0 every night that is not over is numbered one too high *)
Theorem C208_before_refuted : forall {Zone} (zone : string -> option (result Zone)) offset machine c z t,
  zone c = Some (Ok z) -> (forall u, machine u = u) -> t + offset z t < 12 * hour -> (t + offset z t - 12 * hour) mod (24 * hour) <> 0 ->
  observing_night zone offset machine [c] "utc" [t] = Ok [Some (local_night (offset z) t + 1)].
Proof.
  intros Zone zone offset machine c z t ZC M N D. unfold observing_night. cbn [uniq uniq_aux memb night_loop map existsb]. rewrite ZC. cbn [write_code combine map]. rewrite String.eqb_refl. unfold night_of, local_night. rewrite M.
  change day_us with (24 * hour). change half_day_us with (12 * hour). change (12 * 3600 * 1000000) with (12 * hour). change (24 * 3600 * 1000000) with (24 * hour).
  set (x := t + offset z t - 12 * hour) in *. assert (X : x < 0) by lia. assert (H : 24 * hour = 86400000000) by reflexivity. rewrite H in *. do 3 f_equal.
  rewrite <- (Z.opp_involutive x) at 1. rewrite Z.quot_opp_l by lia. rewrite Z.quot_div_nonneg by lia. rewrite Z.div_opp_l_nz by lia. lia.
Qed.
Print Assumptions C208_before_refuted.

(* two observatories, 22:00 and 03:00 local time of one night at each *)
Example C208_case : 
  observing_night (fun c => if String.eqb c "a" then Some (Ok (-7)) else if String.eqb c "b" then Some (Ok 10) else None) (fun z _ => z * hour) (fun w => w)
    ["a"; "b"; "a"; "b"] "utc" [60001 * (24 * hour) + 5 * hour; 60000 * (24 * hour) + 12 * hour; 60001 * (24 * hour) + 10 * hour; 60000 * (24 * hour) + 17 * hour]
  = Ok [Some 60000; Some 60000; Some 60000; Some 60000].
Proof. vm_compute. reflexivity. Qed.
Example C208_before_case : (0 + 0 < 12 * hour) /\ (0 + 0 - 12 * hour) mod (24 * hour) <> 0.
Proof. vm_compute. split; [reflexivity|discriminate]. Qed.
