(* Specification vocabulary for MPC 80-column observations. *)
From Coq Require Import Ascii String QArith.
From Verif Require Import Base MpcSpec.
Open Scope Z_scope.
Open Scope list_scope.

(* the Gregorian calendar *)
Definition leap_year (y : Z) : Prop := (4 | y) /\ (~ (100 | y) \/ (400 | y)).
Inductive month_length (y : Z) : Z -> Z -> Prop :=
| long_month : forall m, In m [1; 3; 5; 7; 8; 10; 12] -> month_length y m 31
| short_month : forall m, In m [4; 6; 9; 11] -> month_length y m 30
| february_leap : leap_year y -> month_length y 2 29
| february : ~ leap_year y -> month_length y 2 28.
Definition valid_date (y m d : Z) : Prop := 1 <= y <= 9999 /\ exists n, month_length y m n /\ 1 <= d <= n.
Inductive next_day : Z * Z * Z -> Z * Z * Z -> Prop :=
| same_month : forall y m d n, month_length y m n -> 1 <= d < n -> next_day (y, m, d) (y, m, d + 1)
| same_year : forall y m n, month_length y m n -> m < 12 -> next_day (y, m, n) (y, m + 1, 1)
| new_year : forall y, next_day (y, 12, 31) (y + 1, 1, 1).
(* [cal] counts days from MJD 0 = 1858 November 17 *)
Definition mjd_count (cal : Z * Z * Z -> Z) : Prop :=
  cal (1858, 11, 17) = 0 /\ forall a b, next_day a b -> cal b = cal a + 1.

(* a decimal numeral of digits with an optional fraction, with value [q] *)
Definition spaces (s : list ascii) : Prop := Forall (fun c => c = " "%char) s.
Definition decimal_text (w ip fp : list ascii) : Prop :=
  Forall sdigit ip /\ ip <> [] /\ Forall sdigit fp /\ ((w = ip /\ fp = []) \/ w = ip ++ "."%char :: fp).
Definition decimal_value (ip fp : list ascii) : Q :=
  (inject_Z (svalue 0 ip) + inject_Z (svalue 0 fp) / inject_Z (10 ^ Z.of_nat (List.length fp)))%Q.
(* three fields separated and surrounded by spaces *)
Definition three_fields (raw a b c : list ascii) : Prop :=
  exists p0 p1 p2 p3, spaces p0 /\ spaces p1 /\ p1 <> [] /\ spaces p2 /\ p2 <> [] /\ spaces p3 /\
    raw = p0 ++ a ++ p1 ++ b ++ p2 ++ c ++ p3.
(* only digits and decimal points *)
Definition ordinary (w : list ascii) : Prop := Forall (fun c => sdigit c \/ c = "."%char) w.
(* the columns of the MPC 80-column format *)
Record layout := mklayout { l_designation : list ascii; l_discovery : ascii; l_note1 : ascii; l_note2 : ascii; l_date : list ascii; l_ra : list ascii;
  l_dec : list ascii; l_blank : list ascii; l_mag : list ascii; l_band : ascii; l_catalog : ascii; l_reference : list ascii; l_code : list ascii }.
Definition fits (l : layout) : Prop :=
  List.length (l_designation l) = 12%nat /\ List.length (l_date l) = 17%nat /\ List.length (l_ra l) = 12%nat /\ List.length (l_dec l) = 12%nat /\
  List.length (l_blank l) = 9%nat /\ List.length (l_mag l) = 5%nat /\ List.length (l_reference l) = 5%nat /\ List.length (l_code l) = 3%nat.
Definition columns (l : layout) : list ascii :=
  l_designation l ++ [l_discovery l] ++ [l_note1 l] ++ [l_note2 l] ++ l_date l ++ l_ra l ++ l_dec l ++ l_blank l ++ l_mag l ++ [l_band l] ++ [l_catalog l] ++
  l_reference l ++ l_code l.
