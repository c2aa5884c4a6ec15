(* Model of src/adam_core/orbits/variants.py: collapse_by_object_id of VariantOrbits (184-237) and of
   VariantEphemeris (352-742, without the recomputation of aberrated coordinates), and
   collapse_sigma_points_orbit_major (744-937) (definitions only).  Simplifications: exact real
   arithmetic; coordinates are finite; a missing or non-finite weight, magnitude, light time or
   aberrated state is None; the epochs of emission are left out; the mode is given in lower case without blanks.  Sorting is stable, nulls last. *)
From Coq Require Import Reals ZArith String List Bool.
From Verif Require Import Base StrOrder SphModel KepModel SigmaModel.
Import ListNotations.
Open Scope string_scope.
Open Scope list_scope.
Open Scope R_scope.

(* orbits/variants.py:240-251: a row of a variant ephemeris; column 1 of the values is the longitude in degrees *)
Record erow := mkerow { e_orbit : string; e_object : option string; e_day : Z; e_nanos : Z; e_code : string;
                        e_vals : nat -> R; e_w : option R; e_wc : option R; e_mag : option R; e_ab : option (nat -> R); e_lt : option R }.
(* orbits/variants.py:563-582, 631-656: a row of the collapsed ephemeris *)
Record crow := mkcrow { g_orbit : string; g_object : option string; g_day : Z; g_nanos : Z; g_code : string;
                        g_mean : nat -> R; g_cov : nat -> nat -> R; g_mag : option R; g_ab : option (nat -> R); g_lt : option R }.

(* orbits/variants.py:380-387: nulls last *)
Definition oleb_str (a b : option string) : bool :=
  match a, b with Some x, Some y => str_leb x y | _, None => true | None, Some _ => false end.
(* orbits/variants.py:395 *)
Definition oeqb_str (a b : option string) : bool :=
  match a, b with Some x, Some y => String.eqb x y | None, None => true | _, _ => false end.
(* orbits/variants.py:394-399: no change of the key *)
Definition same_group (a b : erow) : bool :=
  oeqb_str (e_object a) (e_object b) && Z.eqb (e_day a) (e_day b) && Z.eqb (e_nanos a) (e_nanos b) && String.eqb (e_code a) (e_code b).
(* orbits/variants.py:380-387 *)
Definition group_leb (a b : erow) : bool :=
  if oeqb_str (e_object a) (e_object b) then
    if Z.eqb (e_day a) (e_day b) then
      if Z.eqb (e_nanos a) (e_nanos b) then str_leb (e_code a) (e_code b) else Z.leb (e_nanos a) (e_nanos b)
    else Z.leb (e_day a) (e_day b)
  else oleb_str (e_object a) (e_object b).
(* orbits/variants.py:394-406: the runs of rows with equal keys *)
Fixpoint runs (l : list erow) : list (list erow) :=
  match l with
  | [] => []
  | a :: r => match runs r with
              | (b :: g) :: gs => if same_group a b then (a :: b :: g) :: gs else [a] :: (b :: g) :: gs
              | gs => [a] :: gs
              end
  end.

(* orbits/variants.py:429-434, 462-463: all values, or nothing if one is missing *)
Fixpoint all_some (l : list (option R)) : option (list R) :=
  match l with
  | [] => Some []
  | Some x :: r => match all_some r with Some xs => Some (x :: xs) | None => None end
  | None :: _ => None
  end.
(* orbits/variants.py:465, 518: equal weights *)
Definition equal_weights {A} (l : list A) : list R := map (fun _ => 1 / INR (List.length l)) l.
(* orbits/variants.py:462-470, 874-879: groups of one size; [normalised] is _normalize_rows *)
Definition fast_weights (g : list erow) : list R * list R :=
  let wm := match all_some (map e_w g) with Some w => w | None => equal_weights g end in
  let wc := match all_some (map e_wc g) with Some w => w | None => wm end in
  (normalised wm, normalised wc).
(* orbits/variants.py:515-530: groups of several sizes *)
Definition slow_weights (g : list erow) : list R * list R :=
  let wm := match all_some (map e_w g) with Some w => normalised w | None => equal_weights g end in
  let wc := match all_some (map e_wc g) with Some w => normalised_or wm w | None => wm end in
  (wm, wc).

(* orbits/variants.py:472-477, 532-545, 887-893 *)
Definition circular_mean (w lon : list R) : R :=
  let s := rsum (map (fun p => fst p * sin (radians (snd p))) (combine w lon)) in
  let c := rsum (map (fun p => fst p * cos (radians (snd p))) (combine w lon)) in
  pymod (degrees (atan2 s c) + 360) 360.
(* orbits/variants.py:479-484, 546, 895-899 *)
Definition wrap_lon (m : R) (v : nat -> R) : nat -> R :=
  fun j => if Nat.eqb j 1 then m + (pymod (v 1%nat - m + 180) 360 - 180) else v j.
(* orbits/variants.py:472-492, 532-551, 887-907 *)
Definition moments (w : list R * list R) (samples : list (nat -> R)) : (nat -> R) * (nat -> nat -> R) :=
  let lon := circular_mean (fst w) (map (fun v => v 1%nat) samples) in
  let samples2 := map (wrap_lon lon) samples in
  let m := weighted_mean samples2 (fst w) in
  let mean := fun j => if Nat.eqb j 1 then lon else m j in
  (mean, weighted_covariance mean samples2 (snd w)).
(* orbits/variants.py:494-504, 553-561 and 624-628: mean over those present *)
Definition present_mean (w : list R) (xs : list (option R)) : option R :=
  let p := combine w xs in
  let denom := rsum (map (fun q => match snd q with Some _ => fst q | None => 0 end) p) in
  let num := rsum (map (fun q => match snd q with Some x => fst q * x | None => 0 end) p) in
  if Rlt_dec 0 denom then Some (num / denom) else None.
(* orbits/variants.py:408-421, 563-582: one group *)
Definition collapse_rows (weights : list erow -> list R * list R) (g : list erow) : option crow :=
  match g with
  | [] => None
  | a :: _ =>
      let w := weights g in
      let mc := moments w (map e_vals g) in
      Some (mkcrow (e_orbit a) (e_object a) (e_day a) (e_nanos a) (e_code a) (fst mc) (snd mc) (present_mean (fst w) (map e_mag g)) None None)
  end.
(* orbits/variants.py:445-453, 607-613: slices of [n] groups *)
Fixpoint slices {A} (fuel n : nat) (l : list A) : list (list A) :=
  match fuel with
  | O => []
  | Datatypes.S k => match l with [] => [] | _ => firstn n l :: slices k n (skipn n l) end
  end.
(* orbits/variants.py:436-438 *)
Definition uniform (gs : list (list erow)) : bool :=
  match gs with [] => false | g :: _ => forallb (fun h => Nat.eqb (List.length h) (List.length g)) gs end.
(* helper of [collapse_base], orbits/variants.py:445-561 *)
Definition somes {A} (l : list (option A)) : list A := flat_map (fun x => match x with Some y => [y] | None => [] end) l.
(* orbits/variants.py:380-582 *)
Definition collapse_base (chunk : nat) (rows : list erow) : list crow :=
  let gs := runs (sort group_leb rows) in
  if uniform gs then somes (flat_map (map (collapse_rows fast_weights)) (slices (List.length gs) chunk gs))
  else somes (map (collapse_rows slow_weights) gs).

(* orbits/variants.py:620, 623: a weighted mean of states; any missing state makes it NaN *)
Definition mean_state (w : list R) (g : list erow) : option (nat -> R) :=
  if forallb (fun r => match e_ab r with Some _ => true | None => false end) g
  then Some (weighted_mean (map (fun r => match e_ab r with Some v => v | None => fun _ => 0 end) g) w) else None.
(* orbits/variants.py:634: length of the first three numbers *)
Definition length3 (v : nat -> R) : R := sqrt (v 0%nat * v 0%nat + v 1%nat * v 1%nat + v 2%nat * v 2%nat).
(* orbits/variants.py:587-658; [c] is the speed of light *)
Definition with_aberrations (c : R) (gs : list (list erow)) (out : list crow) : list crow :=
  let rows := concat gs in
  let has_ab := existsb (fun r => match e_ab r with Some _ => true | None => false end) rows in
  let has_lt := existsb (fun r => match e_lt r with Some _ => true | None => false end) rows in
  if has_ab && has_lt && uniform gs then
    let abs := map (fun g => mean_state (fst (fast_weights g)) g) gs in
    let lts := map (fun g => present_mean (fst (fast_weights g)) (map e_lt g)) gs in
    if forallb (fun x => match x with Some _ => true | None => false end) abs && existsb (fun x => match x with Some _ => true | None => false end) lts then
      map (fun q => let '(r, ab, lt) := q in
             mkcrow (g_orbit r) (g_object r) (g_day r) (g_nanos r) (g_code r) (g_mean r) (g_cov r) (g_mag r) ab
               (match lt, ab with Some x, _ => Some x | None, Some v => Some (length3 v / c) | None, None => None end))
          (combine (combine out abs) lts)
    else out
  else out.
(* orbits/variants.py:352-658, the modes "none" and "collapse" *)
Definition collapse_by_object_id (c : R) (mode : string) (chunk : Z) (rows : list erow) : result (list crow) :=
  match rows with
  | [] => Ok []
  | _ =>
      if negb (existsb (String.eqb mode) ["recompute"; "collapse"; "none"]) then Err ValueError
      else if Z.leb chunk 0 then Err ValueError
      else let out := collapse_base (Z.to_nat chunk) rows in
           if String.eqb mode "collapse" then Ok (with_aberrations c (runs (sort group_leb rows)) out) else Ok out
  end.

(* ---- collapse_sigma_points_orbit_major ---- *)
(* orbits/variants.py:881-885: the rows of the variants of orbit o at time n *)
Definition cell (d : erow) (rows : list erow) (K N o n : nat) : list erow := map (fun k => nth ((o * K + k) * N + n) rows d) (seq 0 K).
(* orbits/variants.py:784-803 *)
Definition layout_ok (d : erow) (rows : list erow) (K N O : nat) : bool :=
  forallb (fun o => let base := cell d rows K N o 0 in
    forallb (fun r => String.eqb (e_orbit r) (e_orbit (hd d base)) && oeqb_str (e_object r) (e_object (hd d base))) base) (seq 0 O).
(* orbits/variants.py:744-937 *)
Definition collapse_orbit_major (n_times n_variants : Z) (rows : list erow) : result (list crow) :=
  match rows with
  | [] => Ok []
  | d :: _ =>
      if Z.leb n_times 0 then Err ValueError
      else if Z.leb n_variants 0 then Err ValueError
      else if negb (Z.eqb (Z.modulo (Z.of_nat (List.length rows)) (n_times * n_variants)) 0) then Err ValueError
      else
        let N := Z.to_nat n_times in
        let K := Z.to_nat n_variants in
        let O := Nat.div (List.length rows) (N * K) in
        if layout_ok d rows K N O then
          Ok (flat_map (fun o => map (fun n =>
                 let first := nth (o * (N * K)) rows d in
                 let grid := nth n rows d in
                 let mc := moments (fast_weights (cell d rows K N o 0)) (map e_vals (cell d rows K N o n)) in
                 mkcrow (e_orbit first) (e_object first) (e_day grid) (e_nanos grid) (e_code grid) (fst mc) (snd mc) None None None) (seq 0 N)) (seq 0 O))
        else Ok (collapse_base 200000 rows)
  end.

(* ---- VariantOrbits.collapse_by_object_id ---- *)
(* orbits/variants.py:25-32: a row of variant orbits *)
Record vorb := mkvorb { w_orbit : string; w_object : option string; w_day : Z; w_nanos : Z; w_origin : string; w_vals : nat -> R; w_phys : option Z }.
(* orbits/variants.py:219-235; the orbit id is a new random one *)
Record corb := mkcorb { b_object : option string; b_day : Z; b_nanos : Z; b_origin : string; b_mean : nat -> R; b_cov : nat -> nat -> R; b_phys : option Z }.
(* orbits/variants.py:198: comparing with a missing id selects nothing *)
Definition selects (o p : option string) : bool := match o, p with Some x, Some y => String.eqb x y | _, _ => false end.
(* orbits/variants.py:197-235: one object *)
Definition collapse_object (rows : list vorb) (o : option string) : result corb :=
  let g := filter (fun r => selects o (w_object r)) rows in
  match g with
  | [] => Err AssertionError
  | a :: _ =>
      if negb (forallb (fun r => Z.eqb (w_day r) (w_day a) && Z.eqb (w_nanos r) (w_nanos a)) g) then Err AssertionError
      else if negb (forallb (fun r => String.eqb (w_origin r) (w_origin a)) g) then Err AssertionError
      else let m := weighted_mean (map w_vals g) (equal_weights g) in
           Ok (mkcorb o (w_day a) (w_nanos a) (w_origin a) m (weighted_covariance m (map w_vals g) (equal_weights g)) (w_phys a))
  end.
(* orbits/variants.py:184-237 *)
Definition orbits_by_object (rows : list vorb) : result (list corb) :=
  mapM (collapse_object rows) (uniq oeqb_str (map w_object rows)).
