(* Specifications for C41-C46, independent of the model's helpers. *)
From Coq Require Import String QArith Qabs Permutation.
From Verif Require Import Base FitModel OdModel.
Open Scope list_scope.

(* the rows of a column that belong to observations not in [out] *)
Definition used {A} (ids out : list string) (l : list A) : list A :=
  map snd (filter (fun p => if in_dec string_dec (fst p) out then false else true) (combine ids l)).
Definition add_up (l : list Q) : Q := fold_right Qplus (0 # 1) l.
(* [a] is the difference between the largest and the smallest element of [l] *)
Definition is_span (l : list Q) (a : Q) : Prop :=
  exists x y, In x l /\ In y l /\ (a == y - x)%Q /\ forall z, In z l -> (x <= z /\ z <= y)%Q.
(* [order] lists the positions of [l] by ascending value *)
Definition sorts (order : list nat) (l : list Q) : Prop :=
  Permutation (seq 0 (List.length l)) order /\
  forall i j a b u v, nth_error order i = Some a -> nth_error order j = Some b -> (i <= j)%nat ->
    nth_error l a = Some u -> nth_error l b = Some v -> (u <= v)%Q.
(* what a row of the normal equations should be: derivative, weight and residual of one used
   observation, at the orbit being corrected *)
Definition aligned_rows {P W B} ids out (ps : list P) (ws : list W) (bs : list B) : list (P * W * B) :=
  used ids out (combine (combine ps ws) bs).
(* observation [a] of the table was taken at time [x] *)
Definition observed (ids : list string) (times : list Q) (a : string) (x : Q) : Prop :=
  exists i, nth_error ids i = Some a /\ nth_error times i = Some x.
(* three observations of the table at three different times *)
Definition usable (ids : list string) (times : list Q) (t : list string) : Prop :=
  exists a b c x y z, t = [a; b; c] /\ observed ids times a x /\ observed ids times b y /\ observed ids times c z /\
    ~ (x == y)%Q /\ ~ (y == z)%Q /\ ~ (x == z)%Q.
Definition times_at (times : list Q) (c : list nat) (x y z : Q) : Prop :=
  exists i j k, c = [i; j; k] /\ nth_error times i = Some x /\ nth_error times j = Some y /\ nth_error times k = Some z.
(* longer arcs first, then by distance of the middle observation from the middle of the arc *)
Definition preferred (times : list Q) (c d : list nat) : Prop :=
  forall x y z x' y' z', times_at times c x y z -> times_at times d x' y' z' ->
    (z' - x' < z - x)%Q \/ ((z' - x' == z - x)%Q /\ (Qabs.Qabs ((z + x) / 2 - y) <= Qabs.Qabs ((z' + x') / 2 - y'))%Q).
