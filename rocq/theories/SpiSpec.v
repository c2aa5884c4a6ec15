(* Vocabulary of the claims about SPICE set-up, body states and the Ray cluster; independent of the functions of SpiModel.v. *)
From Coq Require Import String ZArith QArith List.
From Verif Require Import Base TimeModel CacheModel SpiModel.
Import ListNotations.
Open Scope string_scope.
Open Scope list_scope.

(* the six kernel packages of the documentation of setup_SPICE *)
Definition is_default (k : string) : Prop :=
  k = "leapseconds" \/ k = "de440" \/ k = "eop_predict" \/ k = "eop_historical" \/ k = "eop_high_prec" \/ k = "earth_itrf93".

(* the kernels a call of setup_SPICE is about *)
Definition requested (kernels : option (list string)) (k : string) : Prop :=
  match kernels with None => is_default k | Some l => In k l end.

(* steps that neither take a default kernel away nor set SPICE up without the default kernels *)
Definition keeps_defaults (a : act) : Prop :=
  match a with
  | Setup _ ks _ _ => forall k, is_default k -> requested ks k
  | UnregisterK _ k => ~ is_default k
  | _ => True
  end.

(* new processes get numbers no process had before; [used]: the numbers so far *)
Fixpoint new_numbers (used : list Z) (l : list act) : Prop :=
  match l with
  | [] => True
  | Fork _ b :: r | Spawn _ b :: r => ~ In b used /\ new_numbers (b :: used) r
  | _ :: r => new_numbers used r
  end.

(* the name SPICE has for a frame *)
Definition frame_named (frame f : string) : Prop :=
  (frame = "ecliptic" /\ f = "ECLIPJ2000") \/ (frame = "equatorial" /\ f = "J2000") \/ (frame = "itrf93" /\ f = "ITRF93").

(* six numbers in km and km/s, the same in au and au per day *)
Definition same_state (km au : list Q) : Prop :=
  List.length au = List.length km
  /\ (forall i x y, (i < 3)%nat -> nth_error km i = Some x -> nth_error au i = Some y -> x == y * (149597870700 # 1000))%Q
  /\ (forall i x y, (3 <= i)%nat -> nth_error km i = Some x -> nth_error au i = Some y -> x * 86400 == y * (149597870700 # 1000))%Q.

(* the keyword arguments of a call of ray.init *)
Definition init_kw (c : rinit) : list (string * rval) := match c with Auto kw => kw | Fresh _ _ kw => kw end.
