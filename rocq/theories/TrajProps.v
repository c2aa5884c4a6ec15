(* Theorems for C33, C34, C35 and C95. *)
From Coq Require Import String QArith Lqa.
From Verif Require Import Base TrajModel TrajSpec TrajProofs.
Open Scope list_scope.

(* ------------------------------------------------------------------ C33 ---- *)
(* validate_coverage accepts exactly the trajectories with proper windows containing their epochs
   and no two rows of one object sharing an instant; otherwise it raises ValueError *)
Theorem C33_validate : forall l,
  (validate_coverage l = Ok l <-> Forall segment_ok l /\ disjoint l) /\ (validate_coverage l = Ok l \/ validate_coverage l = Err ValueError).
Proof. exact validate_iff. Qed.
Theorem C33_lookup : forall l, validate_coverage l = Ok l -> forall t ob, exists o, segment_for l t (Some ob) = Ok o /\
  (forall r, o = Some r <-> In r l /\ g_obj r = ob /\ covers r t).
Proof. exact segment_for_ok. Qed.
Theorem C33_lookup_without_id : forall l, validate_coverage l = Ok l -> forall t,
  ((forall a b, In a l -> In b l -> g_obj a = g_obj b) ->
     exists o, segment_for l t None = Ok o /\ forall r, o = Some r <-> In r l /\ covers r t) /\
  ((exists a b, In a l /\ In b l /\ g_obj a <> g_obj b) -> segment_for l t None = Err ValueError).
Proof. exact segment_for_none. Qed.
Definition toy_trajectory : list segment :=
  [mkseg "A" "2" 10 20 15; mkseg "B" "1" 0 30 0; mkseg "A" "1" 0 10 (9#2); mkseg "A" "3" 25 30 26]%string.
Example C33_case : validate_coverage toy_trajectory = Ok toy_trajectory /\
  segment_for toy_trajectory 10 (Some "A"%string) = Ok (Some (mkseg "A" "2" 10 20 15)) /\
  segment_for toy_trajectory 20 (Some "A"%string) = Ok None /\
  segment_for toy_trajectory 29 (Some "A"%string) = Ok (Some (mkseg "A" "3" 25 30 26)) /\
  segment_for toy_trajectory 29 None = Err ValueError /\
  validate_coverage [mkseg "A" "2" 10 20 15; mkseg "A" "1" 0 (21#2) 5] = Err ValueError.
Proof. repeat split. Qed.

(* ------------------------------------------------------------------ C34 ---- *)
Theorem C34_own_epoch_partial : forall l, validate_coverage l = Ok l -> forall r, In r l -> (g_epoch r < g_end r)%Q ->
  segment_for l (g_epoch r) (Some (g_obj r)) = Ok (Some r).
Proof. exact own_epoch. Qed.
(* an epoch at the end of the window is accepted but never found *)
Theorem C34_end_epoch_never_found : forall l, validate_coverage l = Ok l -> forall r, In r l -> (g_epoch r == g_end r)%Q ->
  segment_for l (g_epoch r) (Some (g_obj r)) <> Ok (Some r).
Proof. exact own_epoch_end. Qed.
Theorem C34_own_epoch_refuted : exists l r r', validate_coverage l = Ok l /\ In r l /\ g_epoch r = g_end r /\
  segment_for l (g_epoch r) (Some (g_obj r)) = Ok (Some r') /\ g_id r <> g_id r'.
Proof.
  exists [mkseg "A" "1" 0 10 10; mkseg "A" "2" 10 20 15]%string, (mkseg "A" "1" 0 10 10), (mkseg "A" "2" 10 20 15).
  repeat split; try discriminate. now left.
Qed.

Example C34_case : segment_for toy_trajectory 26 (Some "A"%string) = Ok (Some (mkseg "A" "3" 25 30 26)).
Proof. reflexivity. Qed.

(* ------------------------------------------------------------------ C35 ---- *)
(* bound orbit outside the region a > 3.2, q < 1.3 (see C95): the class is the only one whose
   documented ranges it satisfies, AST when there is none *)
Theorem C35_keplerian : forall a e, (0 < a)%Q -> (0 <= e)%Q -> (e < 1)%Q -> (a <= 32#10 \/ 13#10 <= a * (1 - e))%Q ->
  (forall c, in_class c a e <-> calc_orbit_class (keplerian_elements a e) = c /\ c <> "AST"%string) /\
  (calc_orbit_class (keplerian_elements a e) = "AST"%string <-> forall c, ~ in_class c a e).
Proof.
  intros a e H1 H2 H3 R. assert (B : bound a e) by (repeat split; auto). pose proof (like_keplerian a e B) as L. split.
  - intros c. split.
    + intros H. split. eapply class_of; eauto. intros ->. unfold in_class in H. intuition discriminate.
    + intros [<- N]. destruct (class_sound _ a e B L) as [[E _]|]; auto. contradiction.
  - now apply class_AST.
Qed.
Theorem C35_cometary : forall q e, (0 < q)%Q -> (0 <= e)%Q -> (e < 1)%Q -> let a := (q / (1 - e))%Q in (a <= 32#10 \/ 13#10 <= a * (1 - e))%Q ->
  (forall c, in_class c a e <-> calc_orbit_class (cometary_elements q e) = c /\ c <> "AST"%string) /\
  (calc_orbit_class (cometary_elements q e) = "AST"%string <-> forall c, ~ in_class c a e).
Proof.
  intros q e H1 H2 H3 a R. destruct (like_cometary q e H1 H2 H3) as [B L]. fold a in B, L. split.
  - intros c. split.
    + intros H. split. eapply class_of; eauto. intros ->. unfold in_class in H. intuition discriminate.
    + intros [<- N]. destruct (class_sound _ a e B L) as [[E _]|]; auto. contradiction.
  - now apply class_AST.
Qed.
(* unbound orbits, whatever the other columns (also NaN or infinite) *)
Theorem C35_unbound : forall v x, el_e v = Fin x ->
  ((1 < x)%Q -> calc_orbit_class v = "HYA"%string) /\ ((x == 1)%Q -> calc_orbit_class v = "PAA"%string).
Proof. exact unbound_class. Qed.
Example C35_case :
  calc_orbit_class (keplerian_elements (25#10) (1#10)) = "MBA"%string /\ calc_orbit_class (keplerian_elements 2 (1#10)) = "AST"%string /\
  calc_orbit_class (keplerian_elements (9#10) (3#10)) = "ATE"%string /\ calc_orbit_class (cometary_elements (1#2) 1) = "PAA"%string /\
  calc_orbit_class (cometary_elements (1#2) (12#10)) = "HYA"%string /\ calc_orbit_class (cometary_elements (12#10) (1#2)) = "AMO"%string.
Proof. repeat split. Qed.

(* ------------------------------------------------------------------ C95 ---- *)
Definition near_earth (c : string) : Prop := c = "AMO"%string \/ c = "APO"%string \/ c = "ATE"%string \/ c = "IEO"%string.
Theorem C95_near_earth_partial : forall a e c, (0 < a)%Q -> (0 <= e)%Q -> (e < 1)%Q -> (a <= 32#10)%Q -> near_earth c -> in_class c a e ->
  calc_orbit_class (keplerian_elements a e) = c.
Proof. intros a e c H1 H2 H3 H4 _ H. assert (B : bound a e) by (repeat split; auto). eapply class_of; eauto using like_keplerian. Qed.
(* an Earth crosser (perihelion 0.8 au) labelled outer main belt, and one labelled Centaur *)
Theorem C95_near_earth_refuted :
  (in_class "APO" 4 (8#10) /\ calc_orbit_class (keplerian_elements 4 (8#10)) = "OMB"%string) /\
  (in_class "APO" 10 (95#100) /\ calc_orbit_class (keplerian_elements 10 (95#100)) = "CEN"%string).
Proof. split; (split; [unfold in_class; right; left; repeat split; reflexivity|reflexivity]). Qed.
Example C95_case : in_class "APO" 2 (6#10) /\ calc_orbit_class (keplerian_elements 2 (6#10)) = "APO"%string.
Proof. split; [unfold in_class; right; left; repeat split; reflexivity|reflexivity]. Qed.

Print Assumptions C33_validate.
Print Assumptions C33_lookup.
Print Assumptions C33_lookup_without_id.
Print Assumptions C34_own_epoch_partial.
Print Assumptions C34_end_epoch_never_found.
Print Assumptions C34_own_epoch_refuted.
Print Assumptions C35_keplerian.
Print Assumptions C35_cometary.
Print Assumptions C35_unbound.
Print Assumptions C95_near_earth_partial.
Print Assumptions C95_near_earth_refuted.
