(* Specifications for the impact properties. *)
From Coq Require Import String QArith.
From Verif Require Import Base TimeModel ImpModel.
Open Scope Z_scope.

(* number of rows of [l] satisfying [P], counted one by one *)
Inductive counts {A} (P : A -> Prop) : list A -> Z -> Prop :=
| counts_nil : counts P nil 0
| counts_yes : forall x l n, P x -> counts P l n -> counts P (x :: l) (n + 1)
| counts_no : forall x l n, ~ P x -> counts P l n -> counts P (x :: l) n.
(* an event of orbit [o] under condition [c] *)
Definition hit (o c : string) (e : event) : Prop := e_orbit e = o /\ e_cond e = c.
(* the variant [v] suffers an event under condition [c] *)
Definition impacts_under (es : list event) (c : string) (v : vorbit) : Prop :=
  exists e, In e es /\ e_orbit e = vo_orbit v /\ e_variant e = vo_variant v /\ e_cond e = c.
(* what a detection backend may return: events of the given variants under the given conditions *)
Definition sound_backend (b : list vorbit -> list condition -> list event) : Prop :=
  forall vs cs e, In e (b vs cs) -> (exists v, In v vs /\ vo_orbit v = e_orbit e /\ vo_variant v = e_variant e) /\
                                    exists c, In c cs /\ c_id c = e_cond e.
