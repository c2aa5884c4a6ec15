(* What the properties of the vendored photometric data say, independently of how the model computes. *)
From Coq Require Import Reals String.
From Verif Require Import Base PhotModel VendModel.
Open Scope list_scope.
Open Scope R_scope.

(* an admissible answer of numpy.argsort: ordered by wavelength, equal wavelengths in any order *)
Definition sorts (f : samples -> samples) : Prop :=
  forall l, Permutation l (f l) /\ StronglySorted (fun p q : R * R => fst p <= fst q) (f l).
(* finite samples as they are given to the normalisation *)
Definition given (l : samples) : list (option R * option R) := map (fun p => (Some (fst p), Some (snd p))) l.
(* wavelengths increase strictly *)
Definition rising (l : samples) : Prop := StronglySorted (fun p q : R * R => fst p < fst q) l.
(* looking a value up in the table of integrals; [None] when the pair is absent or its value is NaN *)
Definition value_of (rows : list irow) (t f : string) : option R :=
  match find (fun r => (String.eqb (i_template r) t && String.eqb (i_filter r) f)%bool) rows with
  | Some r => i_value r
  | None => None
  end.
(* a wavelength covered by a curve *)
Definition covers (l : samples) (w : R) : Prop := (exists p, In p l /\ fst p <= w) /\ exists p, In p l /\ w <= fst p.
(* the columns of a curve that come from its specification *)
Definition spec_of (r : crow) : spec := (cr_filter r, cr_instrument r, cr_band r, cr_svo r).
