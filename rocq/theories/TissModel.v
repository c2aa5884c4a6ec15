(* Model of src/adam_core/dynamics/tisserand.py (definitions only).  Simplifications: exact real
   arithmetic, a value that is not finite is None. *)
From Coq Require Import Reals String List.
From Verif Require Import Base SphModel.
Import ListNotations.
Open Scope string_scope.
Open Scope list_scope.
Open Scope R_scope.

(* tisserand.py:19-28 *)
Definition major_bodies : list (string * R) :=
  [("mercury", 3870970330236769 / 10 ^ 16); ("venus", 723341974974844 / 10 ^ 15); ("earth", 9997889954736553 / 10 ^ 16);
   ("mars", 1523803685638066 / 10 ^ 15); ("jupiter", 5203719697535582 / 10 ^ 15); ("saturn", 9579110220472034 / 10 ^ 15);
   ("uranus", 1918646168457971 / 10 ^ 14); ("neptune", 3022486701698071 / 10 ^ 14)].
(* tisserand.py:31-65 *)
Definition tisserand (a e i : R) (body : string) : result (option R) :=
  let i_rad := radians i in
  match find (fun p => String.eqb (fst p) body) major_bodies with
  | None => Err ValueError
  | Some (_, ap) =>
      let w := a / ap * (1 - e ^ 2) in
      if Req_EM_T a 0 then Ok None
      else if Rlt_dec w 0 then Ok None
      else Ok (Some (ap / a + 2 * cos i_rad * sqrt w))
  end.
