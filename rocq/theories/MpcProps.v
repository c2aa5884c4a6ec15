(* C11-C15, C87: the MPC designation and date codecs.  Designations are described by
   MpcSpec, not by the functions of the model. *)
From Coq Require Import Ascii String QArith.
From Verif Require Import Base MpcModel MpcSpec MpcProofs.
Open Scope Z_scope.
Open Scope list_scope.

(* ---------------------------------------------------------------- C11 ---- *)
Theorem C11_numbered_round_trip : forall n s,
  numeral n s -> 1 <= n <= 15396335 ->
  exists p, pack_numbered s = Ok p /\ List.length p = 5%nat /\ packed_number p n /\
    unpack_numbered p = Ok s.
Proof. exact pack_numbered_ok. Qed.
Print Assumptions C11_numbered_round_trip.

Theorem C11_numbered_injective : forall n1 n2 s1 s2 p,
  numeral n1 s1 -> numeral n2 s2 -> 1 <= n1 <= 15396335 -> 1 <= n2 <= 15396335 ->
  pack_numbered s1 = Ok p -> pack_numbered s2 = Ok p -> n1 = n2.
Proof. exact pack_numbered_inj. Qed.
Print Assumptions C11_numbered_injective.

Theorem C11_too_large : forall n s,
  numeral n s -> 15396335 < n -> pack_numbered s = Err ValueError.
Proof. exact pack_numbered_large. Qed.
Print Assumptions C11_too_large.

(* every number has such a numeral, so the theorems speak about every number *)
Theorem C11_every_number_has_a_numeral : forall n, 0 < n -> exists s, numeral n s.
Proof. intros n H. exists (str_of n). exact (str_of_numeral n H). Qed.
Print Assumptions C11_every_number_has_a_numeral.

Example C11_case : numeral 3140113 (s_ "3140113") /\ pack_numbered (s_ "3140113") = Ok (s_ "~AZaz") /\
  pack_numbered (s_ "15396335") = Ok (s_ "~zzzz") /\ pack_numbered (s_ "619999") = Ok (s_ "z9999").
Proof.
  split; [|split; [|split]]; try (vm_compute; reflexivity).
  split; [|split]; [|vm_compute; reflexivity|discriminate].
  repeat (apply Forall_cons; [unfold sdigit; vm_compute; lia|]). apply Forall_nil.
Qed.

(* ---------------------------------------------------------------- C12 ---- *)
Theorem C12_provisional_round_trip : forall d, provisional d ->
  exists p, pack_provisional d = Ok p /\ List.length p = 7%nat /\ unpack_provisional p = Ok d.
Proof.
  exact (fun d H => match pack_provisional_ok d H with
    ex_intro _ p (conj a (conj b (conj c _))) => ex_intro _ p (conj a (conj b c)) end).
Qed.
Print Assumptions C12_provisional_round_trip.

Theorem C12_provisional_injective : forall d1 d2 p, provisional d1 -> provisional d2 ->
  pack_provisional d1 = Ok p -> pack_provisional d2 = Ok p -> d1 = d2.
Proof. exact provisional_inj. Qed.
Print Assumptions C12_provisional_injective.

Lemma provisional_case : provisional (s_ "1998 SQ108").
Proof.
  exists "1"%char, "9"%char, "9"%char, "8"%char, "S"%char, "Q"%char, (s_ "108").
  split; [reflexivity|]. split. repeat (apply Forall_cons; [unfold sdigit; vm_compute; lia|]). apply Forall_nil.
  split; [vm_compute; split; congruence|]. split; [unfold upper; vm_compute; lia|].
  do 2 (split; [discriminate|]). split; [unfold upper; vm_compute; lia|]. split; [discriminate|].
  right. exists 108. split; [|lia]. split; [|split]; [|vm_compute; reflexivity|discriminate].
  repeat (apply Forall_cons; [unfold sdigit; vm_compute; lia|]). apply Forall_nil.
Qed.
Example C12_case : provisional (s_ "1998 SQ108") /\ pack_provisional (s_ "1998 SQ108") = Ok (s_ "J98SA8Q").
Proof. split; [exact provisional_case|vm_compute; reflexivity]. Qed.

(* ---------------------------------------------------------------- C13 ---- *)
Theorem C13_survey_round_trip : forall d, survey d ->
  exists p, pack_survey d = Ok p /\ List.length p = 7%nat /\ unpack_survey p = Ok d.
Proof.
  exact (fun d H => match pack_survey_ok d H with
    ex_intro _ p (conj a (conj b (conj c _))) => ex_intro _ p (conj a (conj b c)) end).
Qed.
Print Assumptions C13_survey_round_trip.

Lemma survey_case : survey (s_ "3138 T-1").
Proof.
  exists 3138, (s_ "3138"), (s_ "T-1"). split.
  { split; [|split]; [|vm_compute; reflexivity|discriminate].
    repeat (apply Forall_cons; [unfold sdigit; vm_compute; lia|]). apply Forall_nil. }
  split; [reflexivity|]. split; [reflexivity|]. cbn. auto.
Qed.
Example C13_case : survey (s_ "3138 T-1") /\ pack_survey (s_ "3138 T-1") = Ok (s_ "T1S3138").
Proof. split; [exact survey_case|vm_compute; reflexivity]. Qed.

(* ---------------------------------------------------------------- C14 ---- *)
(* other exceptions than ValueError do escape, and strings that are no designation pack *)
Theorem C14_only_value_error_refuted :
  pack_mpc (s_ "1995 X") = Err IndexError /\
  pack_mpc (s_ "1995 XA620") = Err IndexError /\
  pack_mpc (s_ "6295 XA") = Err IndexError /\
  pack_mpc (s_ "2040 T-") = Err IndexError /\
  unpack_mpc [] = Err IndexError /\
  unpack_mpc (s_ "!1234") = Err KeyError /\
  unpack_mpc (s_ "J95X!0A") = Err KeyError.
Proof. repeat split; vm_compute; reflexivity. Qed.
Print Assumptions C14_only_value_error_refuted.

Theorem C14_malformed_rejected_refuted : exists d p,
  ~ numbered d /\ ~ provisional d /\ ~ survey d /\ pack_mpc d = Ok p /\ unpack_mpc p <> Ok d.
Proof. exact malformed_accepted. Qed.
Print Assumptions C14_malformed_rejected_refuted.

(* what does hold: the exceptions that can escape, and only for these inputs.
   pack: IndexError, for a date-like prefix with one letter only, a year from 6200 on or a
   cycle count from 620 on, or for a survey part that is just 'T-'.
   unpack: IndexError for the empty string, KeyError when a character outside 0-9A-Za-z occurs. *)
Theorem C14_pack_errors_partial : forall d e, pack_mpc d = Err e ->
  e = ValueError \/
  (e = IndexError /\
   ((exists y0 y1 y2 y3 h r, d = y0 :: y1 :: y2 :: y3 :: " "%char :: h :: r /\
      Forall sdigit [y0; y1; y2] /\
      (r = [] \/ 62 <= svalue 0 [y0; y1] \/
       exists l cyc n, r = l :: cyc /\ py_int cyc = Ok n /\ 620 <= n)) \/
    skipn 5 d = s_ "T-")).
Proof. exact pack_mpc_err. Qed.
Print Assumptions C14_pack_errors_partial.

Theorem C14_unpack_errors_partial : forall p e, unpack_mpc p = Err e ->
  e = ValueError \/ (e = IndexError /\ p = []) \/
  (e = KeyError /\ exists c, In c p /\ forall v, ~ b62 c v).
Proof. exact unpack_mpc_err. Qed.
Print Assumptions C14_unpack_errors_partial.

Example C14_case : pack_mpc (s_ "hello") = Err ValueError /\ unpack_mpc (s_ "J95X00") = Err ValueError.
Proof. split; vm_compute; reflexivity. Qed.

(* ---------------------------------------------------------------- C15 ---- *)
Theorem C15_dispatch : forall d,
  (numbered d -> pack_mpc d = pack_numbered d /\ bind (pack_mpc d) unpack_mpc = Ok d) /\
  (provisional d -> pack_mpc d = pack_provisional d /\ bind (pack_mpc d) unpack_mpc = Ok d) /\
  (survey d -> pack_mpc d = pack_survey d /\ bind (pack_mpc d) unpack_mpc = Ok d).
Proof.
  exact (fun d => conj (dispatch_numbered d) (conj (dispatch_provisional d) (dispatch_survey d))).
Qed.
Print Assumptions C15_dispatch.

(* hence packed forms of the three families never coincide *)
Theorem C15_dispatch_injective : forall d1 d2 p,
  (numbered d1 \/ provisional d1 \/ survey d1) -> (numbered d2 \/ provisional d2 \/ survey d2) ->
  pack_mpc d1 = Ok p -> pack_mpc d2 = Ok p -> d1 = d2.
Proof. exact dispatch_inj. Qed.
Print Assumptions C15_dispatch_injective.

Example C15_case : provisional (s_ "1998 SQ108") /\ survey (s_ "3138 T-1") /\
  bind (pack_mpc (s_ "1998 SQ108")) unpack_mpc = Ok (s_ "1998 SQ108") /\
  bind (pack_mpc (s_ "3138 T-1")) unpack_mpc = Ok (s_ "3138 T-1").
Proof. repeat split; try exact provisional_case; try exact survey_case; vm_compute; reflexivity. Qed.

(* ---------------------------------------------------------------- C87 ---- *)
Theorem C87_packed_date : forall c0 y1 y2 c3 c4 frac cent mo da,
  b62 c0 cent -> cent < 32 -> sdigit y1 -> sdigit y2 -> b62 c3 mo -> mo < 32 -> b62 c4 da -> da < 32 ->
  Forall sdigit frac ->
  exists t, unpack_date (c0 :: y1 :: y2 :: c3 :: c4 :: frac) =
    Ok ((100 * cent + svalue 0 [y1; y2], mo, da), t) /\
    match t with
    | None => frac = []
    | Some (h, m, s) => 0 <= h < 24 /\ 0 <= m < 60 /\ (0 <= s < 60)%Q /\
        (inject_Z (3600 * h + 60 * m) + s ==
         86400 * (inject_Z (svalue 0 frac) / inject_Z (10 ^ Z.of_nat (List.length frac))))%Q
    end.
Proof. exact unpack_date_ok. Qed.
Print Assumptions C87_packed_date.

Example C87_case : exists s, unpack_date (s_ "K01AM138303") = Ok ((2001, 10, 22), Some (3, 19, s)) /\
  (s == 93792 # 10000)%Q.
Proof. eexists. split; vm_compute; reflexivity. Qed.
