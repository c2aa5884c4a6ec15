(* Specification vocabulary for trajectories and orbit classes. *)
From Coq Require Import String QArith.
From Verif Require Import Base TrajModel.
Open Scope list_scope.

(* the half-open window of a segment contains t *)
Definition covers (r : segment) (t : Q) : Prop := (g_start r <= t)%Q /\ (t < g_end r)%Q.
Definition segment_ok (r : segment) : Prop := (g_start r < g_end r)%Q /\ (g_start r <= g_epoch r)%Q /\ (g_epoch r <= g_end r)%Q.
(* no two rows of one object share an instant *)
Definition disjoint (l : list segment) : Prop :=
  forall i j a b t, i <> j -> nth_error l i = Some a -> nth_error l j = Some b -> g_obj a = g_obj b ->
    covers a t -> covers b t -> False.

(* The Small Bodies Node asteroid classes (documented at the top of calc_orbit_class), for a bound
   orbit with semi-major axis a and eccentricity e *)
Definition in_class (c : string) (a e : Q) : Prop :=
  (let q := a * (1 - e) in let Q := a * (1 + e) in
  (c = "AMO"%string /\ 1 < a /\ 1017#1000 < q /\ q < 13#10) \/
  (c = "APO"%string /\ 1 < a /\ q < 1017#1000) \/
  (c = "ATE"%string /\ a < 1 /\ 983#1000 < Q) \/
  (c = "IEO"%string /\ Q < 983#1000) \/
  (c = "IMB"%string /\ a < 2 /\ 1666#1000 < q) \/
  (c = "MBA"%string /\ 2 < a /\ a < 32#10 /\ 1666#1000 < q) \/
  (c = "MCA"%string /\ a < 32#10 /\ 13#10 < q /\ q < 1666#1000) \/
  (c = "OMB"%string /\ 32#10 < a /\ a < 46#10) \/
  (c = "TJN"%string /\ 46#10 < a /\ a < 55#10 /\ e < 3#10) \/
  (c = "CEN"%string /\ 55#10 < a /\ a < 301#10) \/
  (c = "TNO"%string /\ 301#10 < a))%Q.
