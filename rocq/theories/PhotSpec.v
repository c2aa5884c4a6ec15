(* Vocabulary of the photometry statements: histories of calls in one process, the
   angle between directions, weighted least squares. *)
From Coq Require Import Reals Lra.
From Coq Require Import List String Bool.
From Verif Require Import Base SphModel KepModel PhotModel.
Import ListNotations.
Open Scope string_scope.
Open Scope list_scope.
Open Scope R_scope.

(* the calls a process may make *)
Inductive call :=
| Register (t : string) (wl rf : list R)
| Integrals (t : string) (fs : list string)
| Mix (wc ws : R) (fs : list string)
| DeltaMag (c : composition) (src tgt : string)
| Convert (mags : list (option R)) (src tgt : list (option string)) (c : composition)
| Predict (H : list R) (objs obss : list position) (fs : list (option string)) (G : list R)
    (ref : string) (c : composition).

Definition is_register (o : call) : bool := match o with Register _ _ _ => true | _ => false end.

Section H.
Variable solar : samples.
Variable curves : list curve.
Variable vendored : string -> string -> option R.

Definition step (s : state) (o : call) : state :=
  match o with
  | Register t wl rf => fst (register_custom_template s t wl rf)
  | Integrals t fs => fst (get_integrals solar curves vendored s t fs)
  | Mix wc ws fs => fst (compute_mix_integrals solar curves vendored s wc ws fs)
  | DeltaMag c a b => fst (bandpass_delta_mag solar curves vendored s c a b)
  | Convert m a b c => fst (convert_magnitude solar curves vendored s m a b c)
  | Predict H ob os fs G r c => fst (predict_magnitudes solar curves vendored s H ob os fs G r c)
  end.

(* the state of a process that has made these calls *)
Definition after (s : state) (os : list call) : state := fold_left step os s.
Definition process (os : list call) : state := after start os.
End H.

(* calls that convert or predict with a composition of the given key *)
Definition uses (k : composition) (o : call) : Prop :=
  match o with
  | Convert _ _ _ c | Predict _ _ _ _ _ _ c => composition_key c = Ok k
  | _ => False
  end.

(* the angle at the object between the directions to the Sun and to the observer *)
Definition angle_at (obj obs : vec) : R :=
  let to_sun := scale (-1) obj in
  let to_obs := vplus obs (scale (-1) obj) in
  acos (dot to_sun to_obs / (norm to_sun * norm to_obs)).

(* weighted sum of squared deviations *)
Definition misfit (w h : list R) (x : R) : R :=
  rsum (map (fun p => fst p * ((snd p - x) * (snd p - x))) (combine w h)).

(* the template wavelengths reach as far as the filter curve on both sides *)
Definition covers (wl : list R) (pts : samples) : Prop :=
  forall p, In p pts -> (exists l, In l wl /\ l <= fst p) /\ (exists h, In h wl /\ fst p <= h).
