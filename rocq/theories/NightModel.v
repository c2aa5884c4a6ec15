(* Model of src/adam_core/observers/utils.py (definitions only).  Simplifications: times are whole
   microseconds since MJD 0 read off the clock of their scale, so a datetime holds them exactly; the
   float MJD of a datetime is on the same side of every midnight as the datetime (a microsecond is
   more than its rounding up to MJD 131072); leap seconds have no datetime and are left out.  The zone of an
   observatory, the offset of a zone from UTC and the clock of the machine are parameters. *)
From Coq Require Import ZArith String List Bool.
From Verif Require Import Base.
Import ListNotations.
Open Scope string_scope.
Open Scope list_scope.
Open Scope Z_scope.

(* utils.py:31, 53: a day and half a day in microseconds *)
Definition day_us : Z := 86400000000.
(* utils.py:31 *)
Definition half_day_us : Z := 43200000000.

Section Night.
  Context {Zone : Type}.
  (* utils.py:36-40: None for a code that is not in the table, an error where no zone is found *)
  Variable zone : string -> option (result Zone).
  (* utils.py:47: the offset of a zone from UTC at an instant in UTC *)
  Variable offset : Zone -> Z -> Z.
  (* utils.py:47: the instant in UTC that [astimezone] gives to a datetime without a zone: the one at
     which the clock of the machine shows it *)
  Variable machine : Z -> Z.

  (* utils.py:47, 53: [astype(int)] cuts towards zero *)
  Definition night_of (z : Zone) (t : Z) : Z := Z.quot (t + offset z (machine t) - half_day_us) day_us.
  (* utils.py:42-55: the rows of one code; a row that has not been written is None *)
  Definition write_code (z : Zone) (code : string) (codes : list string) (times : list Z) (out : list (option Z)) : list (option Z) :=
    map (fun r => let '(c, t, o) := r in if String.eqb c code then Some (night_of z t) else o) (combine (combine codes times) out).
  (* utils.py:34-55 *)
  Fixpoint night_loop (todo codes : list string) (times : list Z) (out : list (option Z)) : result (list (option Z)) :=
    match todo with
    | [] => Ok out
    | code :: rest =>
        match zone code with
        | None => Err ValueError
        | Some (Err e) => Err e
        | Some (Ok z) => night_loop rest codes times (write_code z code codes times out)
        end
    end.
  (* utils.py:13-57; the scale of the times is not looked at (time.py:361-371 keeps it, utils.py:48 reads the clock) *)
  Definition observing_night (codes : list string) (scale : string) (times : list Z) : result (list (option Z)) :=
    night_loop (uniq String.eqb codes) codes times (map (fun _ => None) times).
End Night.
