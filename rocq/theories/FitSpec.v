(* Specifications for C36-C40 and C47, independent of the model's helpers. *)
From Coq Require Import String QArith.
From Verif Require Import Base FitModel.
Open Scope list_scope.

(* most observations, then longest arc, then lowest reduced chi2 *)
Definition at_least_as_good (a b : fitted) : Prop :=
  (fo_nobs b < fo_nobs a)%Z \/
  (fo_nobs a = fo_nobs b /\
   (fo_arc b < fo_arc a \/ (fo_arc a == fo_arc b /\ fo_rchi2 a <= fo_rchi2 b)))%Q.
(* the orbit with id [id] claims the observation [obs] *)
Definition claims (ms : list member) (id obs : string) : Prop :=
  exists m, In m ms /\ m_orbit m = id /\ m_obs m = obs.
Definition members_of (ms : list member) (id : string) : list member :=
  filter (fun m => String.eqb (m_orbit m) id) ms.
(* every member belongs to an orbit of the table and orbit ids are unique *)
Definition consistent (os : list fitted) (ms : list member) : Prop :=
  NoDup (map fo_id os) /\ (forall m, In m ms -> In (m_orbit m) (map fo_id os)).
(* [x] is the first / last element of [l] with its key *)
Definition first_with {A K} (key : A -> K) (l : list A) (x : A) : Prop :=
  exists l1 l2, l = l1 ++ x :: l2 /\ ~ In (key x) (map key l1).
Definition last_with {A K} (key : A -> K) (l : list A) (x : A) : Prop :=
  exists l1 l2, l = l1 ++ x :: l2 /\ ~ In (key x) (map key l2).
(* [l] is [full] with some rows left out, order kept *)
Inductive subseq {A} : list A -> list A -> Prop :=
| sub_nil : subseq [] []
| sub_keep x l m : subseq l m -> subseq (x :: l) (x :: m)
| sub_drop x l m : subseq l m -> subseq l (x :: m).
(* [m] is a member with the lowest probability and, among those, the largest squared residual *)
Definition worst_member (ms : list member) (m : member) : Prop :=
  In m ms /\ exists p, m_prob m = Some p /\
    forall m' p', In m' ms -> m_prob m' = Some p' ->
      (p < p' \/ (p == p' /\ m_sq m' <= m_sq m))%Q.

(* C47: what a user expects of every (orbit, observation) pair and of every orbit *)
Section Evaluate.
  Context {O V P R : Type} (oid : O -> string) (predict : O -> Z * Z -> string -> P) (resid : V -> P -> R)
          (chi2 : R -> Q) (dof : R -> Z).
  Definition own_residual (o : O) (b : observation) : R := resid (ob_value b) (predict o (ob_time b) (ob_code b)).
  Definition member_of (ignore : list string) (o : O) (b : observation) (m : fit_member) : Prop :=
    fm_orbit m = oid o /\ fm_obs m = ob_id b /\ fm_resid m = own_residual o b /\
    (fm_outlier m = true <-> In (ob_id b) ignore).
  Definition total (f : R -> Q) (l : list R) : Q := fold_right Qplus (0 # 1) (map f l).
  (* [used]: the observations that are not ignored *)
  Definition orbit_of (parameters : Z) (used : list observation) (o : O) (f : fit_orbit) : Prop :=
    let rs := map (own_residual o) used in
    let d := (fold_right Z.add 0 (map dof rs) - parameters)%Z in
    fto_id f = oid o /\ fto_nobs f = List.length used /\
    fto_chi2 f = total chi2 rs /\
    (d = 0%Z -> fto_rchi2 f = None) /\ (d <> 0%Z -> fto_rchi2 f = Some (total chi2 rs / inject_Z d)%Q) /\
    exists a b, In a used /\ In b used /\ (fto_arc f = ons b - ons a)%Z /\ forall c, In c used -> (ons a <= ons c <= ons b)%Z.
End Evaluate.
