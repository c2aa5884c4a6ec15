(* What collapsing variants should give, independent of how the library computes it. *)
From Coq Require Import Reals ZArith String List Bool.
From Verif Require Import Base StrOrder SphModel CollModel.
Import ListNotations.
Open Scope string_scope.
Open Scope list_scope.
Open Scope R_scope.

Fixpoint total (l : list R) : R := match l with [] => 0 | x :: r => x + total r end.
(* what a collapsed row is about: object, epoch and observatory *)
Definition about := (option string * Z * Z * string)%type.
Definition about_row (r : erow) : about := (e_object r, e_day r, e_nanos r, e_code r).
Definition about_out (r : crow) : about := (g_object r, g_day r, g_nanos r, g_code r).
Definition about_dec : forall a b : about, {a = b} + {a <> b}.
Proof. repeat decide equality. Defined.
Definition variants_of (k : about) (rows : list erow) : list erow := filter (fun r => if about_dec (about_row r) k then true else false) rows.
(* average with weights that need not sum to one *)
Definition average (w x : list R) : R := total (map (fun p => fst p * snd p) (combine w x)) / total w.
(* the offset of an angle x from m in degrees, taken the short way *)
Definition short_offset (x m d : R) : Prop := -180 <= d < 180 /\ exists k : Z, x - m = d + 360 * IZR k.
(* the weighted directions add up to a vector of length r > 0 in direction m *)
Definition direction (w lon : list R) (m : R) : Prop :=
  0 <= m < 360 /\ exists r, 0 < r /\
    total (map (fun p => fst p * sin (radians (snd p))) (combine w lon)) = r * sin (radians m) /\
    total (map (fun p => fst p * cos (radians (snd p))) (combine w lon)) = r * cos (radians m).
Definition cancelling (w lon : list R) : Prop :=
  total (map (fun p => fst p * sin (radians (snd p))) (combine w lon)) = 0 /\
  total (map (fun p => fst p * cos (radians (snd p))) (combine w lon)) = 0.
(* a row turned by an angle *)
Definition turned (d : R) (r : erow) : erow :=
  mkerow (e_orbit r) (e_object r) (e_day r) (e_nanos r) (e_code r) (fun j => if Nat.eqb j 1 then e_vals r 1%nat + d else e_vals r j)
         (e_w r) (e_wc r) (e_mag r) (e_ab r) (e_lt r).
(* the layout that collapse_sigma_points_orbit_major documents: [row o k n] is variant k of orbit o at time n *)
Definition orbit_major (rows : list erow) (O K N : nat) (row : nat -> nat -> nat -> erow) : Prop :=
  rows = flat_map (fun o => flat_map (fun k => map (fun n => row o k n) (seq 0 N)) (seq 0 K)) (seq 0 O) /\
  (forall o k n, (o < O)%nat -> (k < K)%nat -> (n < N)%nat ->
     e_orbit (row o k n) = e_orbit (row o 0%nat 0%nat) /\ e_object (row o k n) = e_object (row o 0%nat 0%nat) /\
     e_day (row o k n) = e_day (row 0%nat 0%nat n) /\ e_nanos (row o k n) = e_nanos (row 0%nat 0%nat n) /\ e_code (row o k n) = e_code (row 0%nat 0%nat n) /\
     e_w (row o k n) = e_w (row o k 0%nat) /\ e_wc (row o k n) = e_wc (row o k 0%nat)) /\
  (* no object twice, no epoch and observatory twice *)
  (forall o o' n n', (o < O)%nat -> (o' < O)%nat -> (n < N)%nat -> (n' < N)%nat ->
     about_row (row o 0%nat n) = about_row (row o' 0%nat n') -> o = o' /\ n = n').
Definition without_magnitude (r : crow) : crow :=
  mkcrow (g_orbit r) (g_object r) (g_day r) (g_nanos r) (g_code r) (g_mean r) (g_cov r) None (g_ab r) (g_lt r).
(* the fractions that weights give the variants: each weight over their sum; [fallback] when a weight is missing or they sum to zero *)
Definition fractions (ws : list (option R)) (fallback w : list R) : Prop :=
  (exists xs, ws = map Some xs /\ total xs <> 0 /\ w = map (fun x => x / total xs) xs) \/
  ((forall xs, ws = map Some xs -> total xs = 0) /\ w = fallback).
Definition alike (g : list erow) : list R := map (fun _ => / INR (List.length g)) g.
Definition deviation (r : crow) (p : erow * R) (j : nat) : R := if Nat.eqb j 1 then snd p else e_vals (fst p) j - g_mean r j.
(* r has the mean and the covariance of the variants g; longitudes are averaged as directions and differences taken the short way *)
Definition statistics (g : list erow) (r : crow) : Prop :=
  exists w wc off, fractions (map e_w g) (alike g) w /\ fractions (map e_wc g) w wc /\
    0 <= g_mean r 1%nat < 360 /\
    (cancelling w (map (fun v => e_vals v 1%nat) g) \/ direction w (map (fun v => e_vals v 1%nat) g) (g_mean r 1%nat)) /\
    (forall j, j <> 1%nat -> g_mean r j = total (map (fun p => fst p * e_vals (snd p) j) (combine w g))) /\
    Forall2 (fun v d => short_offset (e_vals v 1%nat) (g_mean r 1%nat) d) g off /\
    (forall i j, g_cov r i j = total (map (fun p => fst p * deviation r (snd p) i * deviation r (snd p) j) (combine wc (combine g off)))).
(* the covariance weights are incomplete, or do not sum to zero *)
Definition sound_cov (g : list erow) : Prop := forall xs, map e_wc g = map Some xs -> total xs <> 0.
(* by object (those without one last), then day, then time of day, then observatory *)
Definition before (a b : about) : Prop :=
  let '(o, d, n, c) := a in let '(o', d', n', c') := b in
  match o, o' with Some x, Some y => x <> y /\ str_leb x y = true | Some _, None => True | None, _ => False end \/
  (o = o' /\ ((d < d')%Z \/ (d = d' /\ ((n < n')%Z \/ (n = n' /\ c <> c' /\ str_leb c c' = true))))).
(* equal but for the aberrated state and the light time *)
Definition same_but_light (a b : crow) : Prop :=
  g_orbit a = g_orbit b /\ about_out a = about_out b /\ g_mean a = g_mean b /\ g_cov a = g_cov b /\ g_mag a = g_mag b.
(* the average of the numbers present, with the weights of those *)
Definition present (p : R * option R) : bool := match snd p with Some _ => true | None => false end.
Definition value_of (o : option R) : R := match o with Some x => x | None => 0 end.
Definition average_present (w : list R) (xs : list (option R)) (m : R) : Prop :=
  let p := filter present (combine w xs) in
  0 < total (map fst p) /\ m = total (map (fun q => fst q * value_of (snd q)) p) / total (map fst p).
(* the distinct members of a list in the order of first appearance *)
Definition object_dec : forall x y : option string, {x = y} + {x <> y}.
Proof. repeat decide equality. Defined.
Fixpoint first_seen (l : list (option string)) : list (option string) :=
  match l with [] => [] | x :: r => x :: filter (fun y => if object_dec x y then false else true) (first_seen r) end.
(* the variants of an object among orbits *)
Definition orbits_of (o : option string) (rows : list vorb) : list vorb := filter (fun r => if object_dec (w_object r) o then true else false) rows.
Definition mean_of (l : list R) : R := total l / INR (List.length l).
