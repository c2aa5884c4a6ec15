(* Specifications for the OEM and SPK properties. *)
From Coq Require Import String QArith.
From Verif Require Import Base TimeModel OemModel.
Open Scope Q_scope.
(* [ws] are consecutive intervals from [a] to [b] *)
Inductive tiles : Q -> Q -> list (Q * Q) -> Prop :=
| tiles_last : forall a b a' b', a' == a -> b' == b -> a < b -> tiles a b [(a', b')]
| tiles_next : forall a b a' m' m ws, a' == a -> m' == m -> a < m -> tiles m b ws -> tiles a b ((a', m') :: ws).
