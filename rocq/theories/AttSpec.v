(* What the properties of magnitudes and phase angles of propagated ephemerides say. *)
From Coq Require Import QArith ZArith String List Bool.
From Verif Require Import Base AttModel.
Import ListNotations.

(* some row of the orbits with this identifier has these parameters *)
Definition has_param (os : list hgrow) (id : string) (h g : Q) : Prop := exists o, In o os /\ b_id o = id /\ b_H o = Some h /\ b_G o = Some g.
(* rows with the same identifier have the same parameters, as far as they have any *)
Definition agreeing (os : list hgrow) : Prop :=
  forall id h g h' g', has_param os id h g -> has_param os id h' g' -> (h == h')%Q /\ (g == g')%Q.
Section Rows.
  Context {P N : Type}.
  (* the observer with its time in the scale [to] *)
  Definition at_scale (rescale : string -> string -> Z * Z -> Z * Z) (from to : string) (o : @obsr P) : @obsr P :=
    let t := if string_dec from to then (o_days o, o_nanos o) else rescale from to (o_days o, o_nanos o) in
    mk_obsr (o_code o) (fst t) (snd t) (o_pos o).
  (* the observer has the code and the time of the row *)
  Definition observes (o : @obsr P) (e : @erow P N) : Prop := o_code o = e_code e /\ o_days o = e_days e /\ o_nanos o = e_nanos e.
  (* and both have positions with a sensible geometry *)
  Definition seen (ok : P -> P -> bool) (o : @obsr P) (e : @erow P N) (p q : P) : Prop := observes o e /\ e_pos e = Some p /\ o_pos o = Some q /\ ok p q = true.
  (* no two observers have the same code and time *)
  Definition apart (l : list (@obsr P)) : Prop :=
    forall i j a b, nth_error l i = Some a -> nth_error l j = Some b -> o_code a = o_code b -> o_days a = o_days b -> o_nanos a = o_nanos b -> i = j.
  (* some row has aberrated coordinates *)
  Definition lively (eph : list (@erow P N)) : Prop := exists e, In e eph /\ e_pos e <> None.
  (* something can be computed: phase angles, or magnitudes for some row *)
  Definition asked (want_mag want_alpha : bool) (os : list hgrow) (eph : list (@erow P N)) : Prop :=
    want_alpha = true \/ (want_mag = true /\ exists e h g, In e eph /\ has_param os (e_orbit e) h g).
  (* everything but the two new columns *)
  Definition same_columns (a b : @erow P N) : Prop :=
    e_orbit a = e_orbit b /\ e_code a = e_code b /\ e_days a = e_days b /\ e_nanos a = e_nanos b /\ e_pos a = e_pos b.
  (* the magnitude of the first row and the phase angle of the second *)
  Definition merge (a b : @erow P N) : @erow P N := mk_erow (e_orbit b) (e_code b) (e_days b) (e_nanos b) (e_pos b) (e_alpha b) (e_mag a).
End Rows.
