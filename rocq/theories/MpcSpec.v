(* Specification of the MPC designation codec, independent of the model's functions:
   what a designation is, written with its own numeral reading. *)
From Verif Require Import Base.
From Coq Require Import Ascii String.
Open Scope Z_scope.
Open Scope list_scope.

(* a decimal digit character and its value *)
Definition sdigit (c : ascii) : Prop := (48 <= nat_of_ascii c <= 57)%nat.
Definition sval (c : ascii) : Z := Z.of_nat (nat_of_ascii c) - 48.

(* value of a digit string, read left to right *)
Fixpoint svalue (acc : Z) (s : list ascii) : Z :=
  match s with [] => acc | c :: r => svalue (10 * acc + sval c) r end.

(* [s] is the usual decimal numeral of the positive number [n]: digits, no leading zero *)
Definition numeral (n : Z) (s : list ascii) : Prop :=
  Forall sdigit s /\ svalue 0 s = n /\
  match s with [] => False | c :: _ => c <> "0"%char end.

(* base-62 digit of a character: 0-9, A-Z, a-z (partial) *)
Definition b62 (c : ascii) (v : Z) : Prop :=
  let n := Z.of_nat (nat_of_ascii c) in
  (48 <= n <= 57 /\ v = n - 48) \/ (65 <= n <= 90 /\ v = n - 55) \/ (97 <= n <= 122 /\ v = n - 61).

(* the published packed form of a number:
   five digits; or one letter for the ten-thousands and four digits;
   or '~' and four base-62 digits of n - 620000 *)
Definition packed_number (p : list ascii) (n : Z) : Prop :=
  (List.length p = 5%nat /\ Forall sdigit p /\ svalue 0 p = n) \/
  (exists c r v, p = c :: r /\ ~ sdigit c /\ b62 c v /\ List.length r = 4%nat /\
     Forall sdigit r /\ n = v * 10000 + svalue 0 r) \/
  (exists a b c d va vb vc vd, p = ["~"%char; a; b; c; d] /\
     b62 a va /\ b62 b vb /\ b62 c vc /\ b62 d vd /\
     n = 620000 + 238328 * va + 3844 * vb + 62 * vc + vd).

(* upper-case letters *)
Definition upper (c : ascii) : Prop := (65 <= nat_of_ascii c <= 90)%nat.

(* cycle count: empty, or a numeral of 1..619 *)
Definition cycle (s : list ascii) : Prop := s = [] \/ exists n, numeral n s /\ 1 <= n <= 619.

(* 'YYYY HLn' with YYYY in 1000..6199 *)
Definition provisional (d : list ascii) : Prop :=
  exists y0 y1 y2 y3 h l cyc,
    d = [y0; y1; y2; y3; " "%char; h; l] ++ cyc /\
    Forall sdigit [y0; y1; y2; y3] /\ 1000 <= svalue 0 [y0; y1; y2; y3] < 6200 /\
    upper h /\ h <> "I"%char /\ h <> "Z"%char /\ upper l /\ l <> "I"%char /\ cycle cyc.

(* 'nnnn P-L', 'nnnn T-1', 'nnnn T-2', 'nnnn T-3' *)
Definition survey (d : list ascii) : Prop :=
  exists n num tail, numeral n num /\ List.length num = 4%nat /\ d = num ++ " "%char :: tail /\
    In tail (map list_ascii_of_string ["P-L"; "T-1"; "T-2"; "T-3"]%string).

Definition numbered (d : list ascii) : Prop := exists n, numeral n d /\ 1 <= n <= 15396335.
