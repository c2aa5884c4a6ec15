(* What the properties of the impact visualisation data say, independently of how the model computes. *)
From Coq Require Import Reals QArith String.
From Verif Require Import Base TimeModel VizModel.
Open Scope string_scope.
Open Scope Z_scope.
Open Scope list_scope.

Section Shown.
Context {P C : Type}.
Variables (mjd : row -> Q) (rescale : string -> string -> row -> row) (place : C -> Q -> row -> P).

(* identifier and epoch of a row *)
Definition key (v : vrow P) : string * row := (v_id v, v_time v).
(* the variant of the row has an impact on the body *)
Definition hits (b : string) (e : event C) (v : vrow P) : Prop := ev_body e = b /\ ev_variant e = Some (v_id v).
Definition hitsb (b : string) (e : event C) (v : vrow P) : bool :=
  (String.eqb (ev_body e) b && match ev_variant e with Some i => String.eqb i (v_id v) | None => false end)%bool.
Definition victim (b : string) (evs : list (event C)) (v : vrow P) : bool := existsb (fun e => hitsb b e v) evs.
(* ... at or before the epoch of the row *)
Definition due (scale escale b : string) (e : event C) (v : vrow P) : Prop :=
  hits b e v /\ (mjd (rescale escale scale (ev_time e)) <= mjd (v_time v))%Q.
(* the row shown in place of a propagated row, in the group of a body *)
Definition shown (scale escale b : string) (radius : Q) (evs : list (event C)) (v w : vrow P) : Prop :=
  key w = key v
  /\ ((forall e, In e evs -> ~ due scale escale b e v) -> w = v)
  /\ (forall before e after, evs = before ++ e :: after -> due scale escale b e v ->
        (forall e', In e' after -> ~ due scale escale b e' v) -> v_point w = place (ev_coll e) radius (v_time v)).
End Shown.

(* every variant has impacts on one body only *)
Definition one_target {C} (evs : list (event C)) : Prop :=
  forall e e', In e evs -> In e' evs -> ev_variant e <> None -> ev_variant e = ev_variant e' -> ev_body e = ev_body e'.

(* distance of two points *)
Definition distance (a b : point) : R :=
  let '(a1, a2, a3) := a in let '(b1, b2, b3) := b in
  sqrt ((a1 - b1) * (a1 - b1) + (a2 - b2) * (a2 - b2) + (a3 - b3) * (a3 - b3))%R.
Definition rigid (f : point -> point) : Prop := forall a b, distance (f a) (f b) = distance a b.

(* rows ordered by epoch *)
Definition earlier {P} (a b : vrow P) : Prop :=
  days (v_time a) < days (v_time b) \/ (days (v_time a) = days (v_time b) /\ nanos (v_time a) <= nanos (v_time b)).
