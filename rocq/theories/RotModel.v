(* Rotation periods from photometry: /repo/src/adam_core/photometry/rotation/core.py,
   estimator.py and wrappers.py, photometry/lightcurve.py.  The JAX backend of the
   exact evaluation is in JaxModel.v.  Arithmetic is on exact reals; a missing or non-finite value is
   [None].  numpy's least squares, numpy's polynomial fit of the H-G phase curve and scipy's F
   distribution are parameters.  Fourier orders are positive. *)
From Coq Require Import Reals Lra.
From Coq Require Import List String Bool.
From Verif Require Import Base StrOrder PhotModel.
Import ListNotations.
Open Scope string_scope.
Open Scope list_scope.
Open Scope R_scope.

(* rotation/core.py:687-695; one row of the table, time as TDB MJD *)
Record obs := mkobs { o_time : R; o_mag : option R; o_sigma : option R; o_filter : option string;
                      o_session : option string; o_r : option R; o_delta : option R; o_phase : option R }.

(* helper of [design_row], rotation/core.py:117-125: the label of a row, and the labels in order of appearance *)
Definition label (missing : string) (v : option string) : string := match v with Some s => s | None => missing end.
(* rotation/core.py:106-114 *)
Definition ordered_unique (l : list string) : list string := uniq String.eqb l.

(* helper of [design_row], rotation/core.py:230-265 *)
Definition b2r (b : bool) : R := if b then 1 else 0.
(* helper of [design_row], rotation/core.py:246-249: sessions of one filter in order of appearance *)
Definition sessions_of (fs : list (string * string)) (f : string) : list string :=
  ordered_unique (map snd (filter (fun p => String.eqb (fst p) f) fs)).
(* rotation/core.py:230-265; [use] tells whether session labels are given *)
Definition design_row (use : bool) (fs : list (string * string)) (p : string * string) (alpha : R) : list R :=
  let uf := ordered_unique (map fst fs) in
  [1] ++ map (fun l => b2r (String.eqb (fst p) l)) (tl uf)
  ++ (if use then flat_map (fun l => map (fun s => b2r (String.eqb (fst p) l && String.eqb (snd p) s))
                                          (tl (sessions_of fs l))) uf
      else [])
  ++ [alpha; alpha * alpha].
(* rotation/core.py:230-265: the number of columns of the fixed part *)
Definition n_fixed (use : bool) (fs : list (string * string)) : nat :=
  let uf := ordered_unique (map fst fs) in
  (1 + List.length (tl uf)
   + (if use then List.length (flat_map (fun l => tl (sessions_of fs l)) uf) else 0) + 2)%nat.

(* rotation/core.py:311-322 *)
Definition fourier (t f : R) (order : nat) : list R :=
  flat_map (fun h => [cos (INR h * (2 * PI * f * t)); sin (INR h * (2 * PI * f * t))]) (seq 1 order).

(* helper of [solve], rotation/core.py:448-461 *)
Definition dotp (a b : list R) : R := rsum (map (fun p => fst p * snd p) (combine a b)).
(* helper of [solve], rotation/core.py:357-359 *)
Definition unit_row (n i : nat) : list R := map (fun j => if Nat.eqb j i then 1 else 0) (seq 0 n).

(* rotation/core.py:32-44 *)
Record fitres := mkfitres { r_freq : R; r_order : nat; r_coeffs : list R; r_sigma : R; r_rss : R; r_df : Z;
                            r_npar : nat; r_nfit : nat; r_nclip : nat }.
(* one row of the data handed to the fit: time, reduced magnitude, fixed columns, weight *)
(* helper of [solve], rotation/core.py:447-459 *)
Record datum := mkdatum { d_t : R; d_y : R; d_fix : list R; d_w : R }.

(* rotation/core.py:390-412; None stands for an infinite sigma *)
Definition paper_sigma (res : list R) (ws : option (list R)) (n_obs n_fit n_par : nat) : option (R * R * Z) :=
  let df := (Z.of_nat n_fit - Z.of_nat n_par)%Z in
  if (df <=? 0)%Z then None else
  match ws with
  | None => let rss := rsum (map (fun r => r * r) res) in
            Some (sqrt (Rmax (rss / IZR df) 0), rss, df)
  | Some w => let rss := rsum (map (fun p => fst p * (snd p * snd p)) (combine w res)) in
              let s := rsum w in
              if Rle_dec s 0 then None
              else Some (sqrt (Rmax (INR n_obs / s * rss / IZR df) 0), rss, df)
  end.

(* rotation/estimator.py:623-633: weights only when every uncertainty is known and positive *)
Definition weights_from_sigma (s : list (option R)) : option (list R) :=
  match all_some s with
  | Some l => if forallb (fun v => if Rlt_dec 0 v then true else false) l then Some (map (fun v => 1 / (v * v)) l) else None
  | None => None
  end.

(* helper of [clip_loop], rotation/core.py:495-502 *)
Fixpoint masked {A} (m : list bool) (l : list A) : list A :=
  match m, l with
  | b :: m', x :: l' => if b then x :: masked m' l' else masked m' l'
  | _, _ => []
  end.

(* helper of [best_of], rotation/estimator.py:404: comparisons of sigmas *)
Definition rlt (x y : R) : bool := if Rlt_dec x y then true else false.

(* rotation/core.py:629-635: the periodic part of a fit at one phase *)
Definition periodic (coeffs : list R) (order : nat) (phase : R) : R :=
  let start := (List.length coeffs - 2 * order)%nat in
  rsum (map (fun h => nth (start + 2 * (h - 1)) coeffs 0 * cos (2 * PI * INR h * phase)
                      + nth (start + 2 * (h - 1) + 1) coeffs 0 * sin (2 * PI * INR h * phase)) (seq 1 order)).
(* helper of [amplitude], rotation/core.py:653-659: the values at n phases *)
Definition curve (coeffs : list R) (order n : nat) : list R :=
  map (fun i => periodic coeffs order (INR i / INR n)) (seq 0 n).
(* rotation/core.py:624-640: strict on the left, not on the right, periodic *)
Definition n_maxima (coeffs : list R) (order : nat) : nat :=
  let n := (2 ^ 11)%nat in
  let c := fun i : nat => periodic coeffs order (INR (i mod n)%nat / INR n) in
  List.length (filter (fun i => rlt (c (i + (n - 1))%nat) (c i) && rle (c (i + 1)%nat) (c i)) (seq 0 n)).
(* rotation/core.py:643-660 *)
Definition amplitude (f : fitres) : R :=
  let c := curve (r_coeffs f) (r_order f) (2 ^ 12) in
  fold_right Rmax (nth 0 c 0) c - fold_right Rmin (nth 0 c 0) c.
(* rotation/core.py:62-67 *)
Record fwp := mkfwp { w_fit : fitres; w_period : R; w_doubled : bool }.
(* rotation/core.py:670-679 *)
Definition fit_with_period (f : fitres) : fwp :=
  let doubled := Nat.eqb (n_maxima (r_coeffs f) (r_order f)) 1 in
  mkfwp f ((if doubled then 2 else 1) / r_freq f) doubled.

(* ---- the staged search, on indices into the frequency grid ---- *)
(* rotation/estimator.py:186-192 *)
Definition by_start (a b : nat * nat) : bool := Nat.leb (fst a) (fst b).
(* helper of [merge_intervals], rotation/estimator.py:193-200 *)
Fixpoint merge_from (cur : nat * nat) (l : list (nat * nat)) : list (nat * nat) :=
  match l with
  | [] => [cur]
  | x :: r => if Nat.leb (fst x) (snd cur + 1) then merge_from (fst cur, Nat.max (snd cur) (snd x)) r
              else cur :: merge_from x r
  end.
(* rotation/estimator.py:183-200 *)
Definition merge_intervals (l : list (nat * nat)) : list (nat * nat) :=
  match sort by_start (map (fun p => (Nat.min (fst p) (snd p), Nat.max (fst p) (snd p))) l) with
  | [] => []
  | x :: r => merge_from x r
  end.
(* rotation/estimator.py:203-225; always called with stride 1 *)
Definition sample_indices (intervals : list (nat * nat)) (n_total : nat) : list nat :=
  if Nat.eqb n_total 0 then [] else
  let ivs := match intervals with [] => [(0%nat, (n_total - 1)%nat)] | _ => intervals end in
  sort Nat.leb (uniq Nat.eqb (flat_map (fun p =>
    let a := Nat.min (fst p) (n_total - 1) in
    let b := Nat.min (snd p) (n_total - 1) in
    let lo := Nat.min a b in let hi := Nat.max a b in
    lo :: hi :: seq lo (hi + 1 - lo)) ivs)).
(* rotation/estimator.py:229-244 *)
Definition finite_at (scores : list (option R)) (i : nat) : option R :=
  match nth_error scores i with Some (Some v) => Some v | _ => None end.
(* helper of [local_minima], rotation/estimator.py:234-245: a neighbour that is absent or not finite counts as infinity *)
Definition below (v : R) (w : option R) : bool := match w with Some x => rle v x | None => true end.
(* rotation/estimator.py:228-247 *)
Definition local_minima (scores : list (option R)) : list nat :=
  let valid := filter (fun i => match finite_at scores i with Some _ => true | None => false end) (seq 0 (List.length scores)) in
  let minima := filter (fun i => match finite_at scores i with
                                 | Some v => below v (match i with O => None | S j => finite_at scores j end)
                                             && below v (finite_at scores (S i))
                                 | None => false
                                 end) valid in
  match minima with [] => valid | _ => minima end.
(* helper of [candidate_intervals], rotation/estimator.py:262-266: round(median(diff)), halves to even *)
Definition median_step (idx : list nat) : nat :=
  let d := sort Nat.leb (map (fun p => (snd p - fst p)%nat) (combine idx (tl idx))) in
  let n := List.length d in
  let a := nth (n / 2 - 1) d 0%nat in let b := nth (n / 2) d 0%nat in
  if Nat.even n then
    let q := ((a + b) / 2)%nat in
    if Nat.even (a + b) then q else if Nat.even q then q else (q + 1)%nat
  else b.
(* helper of [candidate_intervals], rotation/estimator.py:267-274 *)
Fixpoint pick (idx : list nat) (n_total radius count stride : nat) (chosen : list nat) (pos : list nat) : list (nat * nat) :=
  match pos with
  | [] => []
  | p :: r =>
      let c := nth p idx 0%nat in
      if existsb (fun e => Nat.ltb (if Nat.leb c e then e - c else c - e)%nat stride) chosen
      then pick idx n_total radius count stride chosen r
      else ((c - radius)%nat, Nat.min (n_total - 1) (c + radius))
           :: (if Nat.leb count (S (List.length chosen)) then []
               else pick idx n_total radius count stride (c :: chosen) r)
  end.
(* rotation/estimator.py:250-275 *)
Definition candidate_intervals (idx : list nat) (scores : list (option R)) (n_total radius count : nat) : list (nat * nat) :=
  let key i := match finite_at scores i with Some v => v | None => 0 end in
  let positions := sort (fun i j => rle (key i) (key j)) (local_minima scores) in
  let stride := match idx with [] => 1%nat | [_] => 1%nat | _ => Nat.max 1 (median_step idx) end in
  merge_intervals (pick idx n_total radius count stride [] positions).
(* helper of [search], rotation/estimator.py:478-482: first position of the smallest finite score *)
Fixpoint argmin_from (i : nat) (l : list (option R)) : option (nat * R) :=
  match l with
  | [] => None
  | None :: r => argmin_from (S i) r
  | Some v :: r => match argmin_from (S i) r with
                   | Some (j, w) => if rlt w v then Some (j, w) else Some (i, v)
                   | None => Some (i, v)
                   end
  end.

(* rotation/estimator.py:401-405: the first fit with the smallest sigma *)
Definition better (b : option fitres) (f : option fitres) : option fitres :=
  match f, b with
  | None, _ => b
  | Some x, None => Some x
  | Some x, Some y => if rlt (r_sigma x) (r_sigma y) then Some x else Some y
  end.
(* rotation/estimator.py:346-406 *)
Definition best_of (l : list (option fitres)) : option fitres := fold_left better l None.

(* rotation/estimator.py:409-523; [exact] and [quick] are the clipped and the unclipped fit at a grid index *)
Definition search (exact quick : nat -> option fitres) (staged : bool) (n_total : nat) : option fitres :=
  if Nat.eqb n_total 0 then None else
  if negb staged || Nat.leb n_total (2 ^ 11) then best_of (map exact (seq 0 n_total)) else
  let stride := Nat.max 1 ((n_total + 1023) / 1024) in
  let c0 := map (fun i => (i * stride)%nat) (seq 0 ((n_total + stride - 1) / stride)) in
  let coarse := if Nat.eqb (last c0 0%nat) (n_total - 1) then c0 else c0 ++ [(n_total - 1)%nat] in
  let scores := map (fun i => option_map r_sigma (quick i)) coarse in
  let radius := Nat.max 8 (4 * stride) in
  let final := sample_indices (candidate_intervals coarse scores n_total radius 12) n_total in
  let final' := match argmin_from 0 scores with
                | Some (p, _) =>
                    let g := nth p coarse 0%nat in
                    let lo := (g - radius)%nat in
                    sort Nat.leb (uniq Nat.eqb (final ++ seq lo (Nat.min n_total (g + radius + 1) - lo)))
                | None => final
                end in
  match best_of (map exact final') with
  | Some f => Some f
  | None => best_of (map exact (seq 0 n_total))
  end.

(* ---- the frequency grid ---- *)
(* helper of [grid_size], rotation/estimator.py:587-589: math.ceil *)
Definition Rceil (x : R) : Z := (- Int_part (- x))%Z.
(* rotation/estimator.py:576-580 *)
Definition grid_min (span min_rot : R) (max_period : option R) : R :=
  let f := min_rot / span in match max_period with Some p => Rmax f (24 / p) | None => f end.
(* rotation/estimator.py:587-589: the number of frequencies before the cap *)
Definition grid_size (span f_min f_max scale : R) : Z := Z.max (Rceil (scale * span * (f_max - f_min)) + 1) 2.
(* rotation/estimator.py:560-565 *)
Definition max_samples : Z := 200000.
(* helper of [build_grid], rotation/estimator.py:591: np.linspace *)
Definition linspace (a b : R) (n : nat) : list R := map (fun i => a + INR i * ((b - a) / INR (n - 1))) (seq 0 n).
(* rotation/estimator.py:568-591 *)
Definition build_grid (span min_rot f_max scale : R) (max_period : option R) : result (list R) :=
  let f_min := grid_min span min_rot max_period in
  if rle f_min 0 then Err ValueError else
  if rle f_max f_min then Err ValueError else
  Ok (linspace f_min f_max (Z.to_nat (Z.min (grid_size span f_min f_max scale) max_samples))).
(* rotation/estimator.py:594-620 *)
Definition grid_capped (span min_rot f_max scale : R) (max_period : option R) : bool :=
  let f_min := grid_min span min_rot max_period in
  if rle f_min 0 || rle f_max f_min then false
  else (max_samples <? grid_size span f_min f_max scale)%Z.

(* ---- clusters of acceptable periods ---- *)
(* helper of [item_at], rotation/estimator.py:644-680 *)
Record item := mkitem { i_idx : nat; i_fwp : fwp; i_lo : R; i_hi : R }.
(* np.finfo(np.float64).eps *)
(* helper of [item_at], rotation/estimator.py:668-670 *)
Definition eps64 : R := / 2 ^ 52.
(* rotation/estimator.py:645-680; the grid is always given *)
Definition item_at (freqs : list R) (idx : nat) (f : fitres) : item :=
  let w := fit_with_period f in
  let c := r_freq f in
  let left := match idx with O => c | S j => nth j freqs c end in
  let right := nth (S idx) freqs c in
  let hs := Rmax (Rabs (c - left)) (Rabs (right - c)) / 2 in
  let factor := if w_doubled w then 2 else 1 in
  let lowf := Rmax (c - hs) eps64 in
  let highf := c + hs in
  mkitem idx w (Rmin (factor / highf) (factor / lowf)) (Rmax (factor / highf) (factor / lowf)).
(* rotation/estimator.py:683: lexicographic key *)
Definition item_leb (a b : item) : bool :=
  if rlt (i_lo a) (i_lo b) then true else if rlt (i_lo b) (i_lo a) then false
  else if rlt (i_hi a) (i_hi b) then true else if rlt (i_hi b) (i_hi a) then false
  else Nat.leb (i_idx a) (i_idx b).
(* helper of [merge_items], rotation/estimator.py:691 *)
Definition max_hi (g : list item) : R :=
  match g with [] => 0 | x :: r => fold_left (fun m y => Rmax m (i_hi y)) r (i_hi x) end.
(* helper of [cluster_of], rotation/estimator.py:700 *)
Definition min_lo (g : list item) : R :=
  match g with [] => 0 | x :: r => fold_left (fun m y => Rmin m (i_lo y)) r (i_lo x) end.
(* rotation/estimator.py:685-695 *)
Fixpoint merge_items (cur : list item) (l : list item) : list (list item) :=
  match l with
  | [] => [cur]
  | x :: r => if rle (i_lo x) (max_hi cur + / 10 ^ 12) then merge_items (cur ++ [x]) r else cur :: merge_items [x] r
  end.
(* rotation/estimator.py:95-101 *)
Record cluster := mkcluster { c_idx : list nat; c_best : fwp; c_lo : R; c_hi : R }.
(* helper of [cluster_of], rotation/estimator.py:699: the first with the smallest sigma *)
Definition better_fwp (a b : fwp) : fwp := if rlt (r_sigma (w_fit b)) (r_sigma (w_fit a)) then b else a.
(* rotation/estimator.py:696-710 *)
Definition cluster_of (g : list item) (d : fwp) : cluster :=
  mkcluster (map i_idx g)
            (match g with [] => d | x :: r => fold_left better_fwp (map i_fwp r) (i_fwp x) end)
            (min_lo g) (max_hi g).
(* helper of [clusters], rotation/estimator.py:711 *)
Definition cluster_leb (a b : cluster) : bool := rle (r_sigma (w_fit (c_best a))) (r_sigma (w_fit (c_best b))).
(* rotation/estimator.py:636-711 *)
Definition clusters (freqs : list R) (fits : list (option fitres)) (accepted : list nat) : list cluster :=
  let items := keep_some (map (fun i => match nth_error fits i with
                                        | Some (Some f) => Some (item_at freqs i f) | _ => None end) accepted) in
  match sort item_leb items with
  | [] => []
  | x :: r => sort cluster_leb (map (fun g => cluster_of g (i_fwp x)) (merge_items [x] r))
  end.
(* rotation/estimator.py:835-850: the cluster holding the best index (else the first), and the others *)
Fixpoint split_primary (i : nat) (l : list cluster) : option (cluster * list cluster) :=
  match l with
  | [] => None
  | c :: r => if existsb (Nat.eqb i) (c_idx c) then Some (c, r)
              else match split_primary i r with Some (p, o) => Some (p, c :: o) | None => None end
  end.

(* rotation/estimator.py:104-119 *)
Record solution := mksol { s_chosen : fwp; s_primary : cluster; s_threshold : option R; s_clusters : list cluster;
                           s_relunc : option R; s_alternates : list R; s_reliable : bool; s_amplitude : R }.

(* rotation/estimator.py:714-721; None is infinity *)
Definition rel_uncertainty (p lo hi : R) : option R :=
  if rle p 0 then None else Some (Rmax (Rabs (p - lo)) (Rabs (hi - p)) / p).
(* rotation/estimator.py:724-737 *)
Definition max_deviation (p : R) (cs : list cluster) : option R :=
  if rle p 0 then None else
  match map (fun c => Rmax (Rabs (c_lo c - p)) (Rabs (c_hi c - p))) cs with
  | [] => None
  | x :: r => Some (fold_left Rmax r x)
  end.

(* ---- the verdict ---- *)
(* rotation/estimator.py:955-962 *)
Definition below_min (v : option R) (t : R) : bool := match v with Some x => rlt x t | None => true end.
(* rotation/estimator.py:965-971 *)
Definition at_least (v : option R) (t : R) : bool := match v with Some x => rle t x | None => false end.
(* helper of [classify], rotation/estimator.py:1007-1018: rows of (condition, label) *)
Definition emitted (l : list (bool * string)) : list string := map snd (filter fst l).
(* rotation/estimator.py:85-92 *)
Definition code_of (verdict : string) : string :=
  if String.eqb verdict "single_period" then "3" else if String.eqb verdict "period_family" then "2" else "1".
(* rotation/estimator.py:974-1087: verdict, flags, reasons.  The Fourier solution is always valid
   (valid_relative_uncertainty_max is None, rotation/core.py:91), so the branch adding "no_precision" is
   not reached. *)
Definition classify (snr coverage rotations : option R) (min_rot : R) (n_aliases : nat) (doubled count_ok reliable claim : bool)
  : string * list string * list string :=
  let gate := emitted [(below_min snr 3, "amplitude_below_noise"); (below_min coverage (1 / 2), "phase_coverage_low");
                       (below_min rotations min_rot, "spans_too_few_rotations"); (negb count_ok, "too_few_observations")] in
  match gate with
  | _ :: _ => ("insufficient_data", [], gate)
  | [] =>
      let good := at_least coverage (7 / 10) in
      let flags := emitted [(good, "good_phase_coverage"); (at_least rotations (2 * min_rot), "multi_night");
                            (negb doubled, "two_max_two_min")] in
      let ambiguous := Nat.leb 2 n_aliases in
      let assumed := claim && doubled && negb ambiguous in
      let blocking := doubled && negb assumed in
      let eligible := negb ambiguous && negb blocking && good in
      let reasons := emitted [(ambiguous, "conflicting_aliases"); (blocking, "single_max_alias");
                              (negb good && negb ambiguous && negb blocking, "phase_coverage_low")] in
      ((if eligible && reliable then "single_period" else "period_family"),
       flags ++ (if assumed then ["doubled_fold_assumed"] else []), reasons)
  end.

(* rotation/estimator.py:935-937: the bin, out of twenty *)
Definition phase_bin (t p : R) : Z := Z.max 0 (Z.min (Int_part (frac_part (t / p) * 20)) 19).
(* rotation/estimator.py:918-939 *)
Definition coverage (ts : list R) (p : R) : option R :=
  if rle p 0 then None else
  match ts with [] => None | _ => Some (INR (List.length (uniq Z.eqb (map (fun t => phase_bin t p) ts))) / 20) end.
(* rotation/estimator.py:942-952 *)
Definition snr_of (amp sigma : R) : option R := if rle sigma 0 then None else Some (amp / sigma).
(* rotation/estimator.py:894-915 *)
Definition count_sufficient (fs : list string) : bool :=
  existsb (fun l => Nat.leb 30 (List.length (filter (String.eqb l) fs))) (ordered_unique fs).

(* rotation/estimator.py:1204-1263 *)
Definition pre_solve (n_obs : nat) (fs : list string) (span : R) (y : list R) (sigma : list (option R)) (min_order : nat) (min_rot f_max : R) : list string :=
  let n_filters := List.length (ordered_unique fs) in
  let few := Nat.ltb n_obs 8 || Nat.ltb n_obs (n_filters + 2 * min_order + 2 + 2) in
  let short := rle span 0 || rle f_max (min_rot / span) in
  let scatter := 14826 / 10000 * median (map (fun v => Rabs (v - median y)) y) in
  let noise := match keep_some sigma with [] => 2 / 100 | l => median l end in
  emitted [(few, "too_few_observations"); (short, "insufficient_time_span");
           (rlt scatter (3 / 2 * noise), "amplitude_below_noise")].

(* rotation/core.py:55-59 *)
Record summary := mksummary { n_sessions : nat; min_group : nat; median_span : R }.
(* helper of [summarize], rotation/core.py:290-292 *)
Definition fmax (l : list R) : R := match l with [] => 0 | x :: r => fold_left Rmax r x end.
(* helper of [summarize], rotation/core.py:290-292 *)
Definition fmin (l : list R) : R := match l with [] => 0 | x :: r => fold_left Rmin r x end.
(* rotation/core.py:268-308; [use] tells whether session labels are given *)
Definition summarize (use : bool) (ts : list R) (fs : list (string * string)) : summary :=
  if negb use then mksummary 0 0 0 else
  let us := ordered_unique (map snd fs) in
  let uf := ordered_unique (map fst fs) in
  let spans := map (fun s => let l := map fst (filter (fun p => String.eqb (snd (snd p)) s) (combine ts fs)) in fmax l - fmin l) us in
  let counts := flat_map (fun s => filter (fun n => Nat.ltb 0 n)
                   (map (fun f => List.length (filter (fun p => String.eqb (snd p) s && String.eqb (fst p) f) fs)) uf)) us in
  mksummary (List.length us) (match counts with [] => 0 | x :: r => fold_left Nat.min r x end)%nat (median spans).

(* rotation/core.py:591-595; None is infinity *)
Definition bic (f : fitres) : option R :=
  if Nat.leb (r_nfit f) (r_npar f) || rle (r_rss f) 0 then None
  else Some (INR (r_nfit f) * ln (r_rss f / INR (r_nfit f)) + INR (r_npar f) * ln (INR (r_nfit f))).

(* rotation/core.py:729-766: the columns of a result row that are modelled; a NaN period is None *)
Record row := mkrow { p_days : option R; p_verdict : string; p_code : string; p_flags : list string; p_reasons : list string;
                      p_valid : bool; p_reliable : bool; p_lower : option R; p_upper : option R; p_relunc : option R;
                      p_alternates : list R; p_order : option nat; p_sigma : option R; p_coverage : option R;
                      p_rotations : option R; p_snr : option R; p_aliases : option nat; p_nobs : nat; p_nfit : nat; p_nclip : nat;
                      p_nfilters : nat; p_nsessions : nat; p_offsets : bool; p_doubled : bool }.
(* rotation/core.py:768-823 *)
Definition insufficient_row (reasons flags : list string) (n_obs n_filters n_sess : nat) : row :=
  mkrow None "insufficient_data" "1" flags reasons false false None None None [] None None None None None None n_obs 0 0
        n_filters n_sess false false.

(* rotation/estimator.py:1490-1491 *)
Inductive session_mode := Ignore | Use | Auto.
(* rotation/estimator.py:1384-1401; the numeric options that are checked for their sign *)
Record options := mkoptions { staged : bool; orders : list nat; clip_sigma : R; min_rotations : R; max_frequency : R;
                              grid_scale : R; max_period : option R; early_exit : bool; mode : session_mode;
                              min_per_group : nat; bic_improvement : R; claim_doubled : bool }.
(* rotation/estimator.py:1384-1401: the defaults *)
Definition default_options : options := mkoptions true [] 3 2 1000 30 None true Auto 6 10 true.
(* rotation/core.py:85-95 *)
Definition profile_orders : list nat := [2; 3; 4; 5; 6]%nat.
(* rotation/estimator.py:756-758 *)
Definition used_orders (o : options) : list nat :=
  sort Nat.leb (uniq Nat.eqb (match orders o with [] => profile_orders | l => l end)).
(* rotation/estimator.py:1480-1499 *)
Definition options_ok (o : options) : bool :=
  negb (rle (clip_sigma o) 0) && negb (rle (min_rotations o) 0) && negb (rle (max_frequency o) 0) && negb (rle (grid_scale o) 0)
  && (match max_period o with Some p => negb (rle p 0) | None => true end)
  && Nat.ltb 0 (min_per_group o) && rle 0 (bic_improvement o).

(* rotation/core.py:128-217: the columns as plain numbers, or the rejection *)
Record valid_obs := mkvalid { v_time : R; v_mag : R; v_sigma : option R; v_filter : string; v_session : option string;
                              v_r : R; v_delta : R; v_phase : R }.
(* rotation/core.py:128-217 *)
Definition validate_row (o : obs) : option valid_obs :=
  match o_mag o, o_r o, o_delta o, o_phase o with
  | Some m, Some r, Some d, Some a =>
      if rle r 0 || rle d 0 then None
      else Some (mkvalid (o_time o) m (o_sigma o) (label "__missing_filter__" (o_filter o)) (o_session o) r d a)
  | _, _, _, _ => None
  end.
(* rotation/core.py:128-217 *)
Definition validate (l : list obs) : result (list valid_obs) :=
  match l with
  | [] => Err ValueError
  | _ => match all_some (map validate_row l) with Some v => Ok v | None => Err ValueError end
  end.

Section Rot.
(* np.linalg.lstsq; np.polyfit of the H-G phase curve with the given centre and G, giving the linear
   and quadratic coefficient (rotation/core.py:325-339); scipy.stats.f cdf and ppf (None: not finite);
   the speed of light (Constants.C) *)
Variable lstsq : list (list R) -> list R -> list R.
Variable hgfit : R -> R -> R * R.
Variable f_cdf : R -> Z -> Z -> R.
Variable f_ppf : R -> Z -> Z -> option R.
Variable light : R.

(* rotation/core.py:325-372: targets and weights of the two prior rows *)
Definition prior (min_phase : R) : (R * R) * (R * R) :=
  let c := Rmin (Rmax min_phase 1) 120 in
  let a := hgfit c (- (1 / 4)) in
  let b := hgfit c (95 / 100) in
  let s x y := Rmax (Rabs (x - y) / 2) (/ 10 ^ 6) in
  (((fst a + fst b) / 2, (snd a + snd b) / 2),
   (/ (s (fst a) (fst b) * s (fst a) (fst b)), / (s (snd a) (snd b) * s (snd a) (snd b)))).

(* rotation/core.py:375-387 *)
Definition weighted_lstsq (design : list (list R)) (target ws : list R) : list R :=
  lstsq (map (fun p => map (fun x => x * sqrt (snd p)) (fst p)) (combine design ws))
        (map (fun p => fst p * sqrt (snd p)) (combine target ws)).

(* rotation/core.py:437-465; [all] are the rows before clipping, [nf] the number of fixed columns *)
Definition solve (weighted : bool) (all : list datum) (nf order : nat) (freq : R) (rows : list datum)
  : option (list R * list R * R * R * Z) :=
  let n_par := (nf + 2 * order)%nat in
  let pr := prior (fmin (map (fun d => nth (nf - 2) (d_fix d) 0) all)) in
  let real := map (fun d => d_fix d ++ fourier (d_t d) freq order) rows in
  let design := real ++ [unit_row n_par (nf - 2); unit_row n_par (nf - 1)] in
  let target := map d_y rows ++ [fst (fst pr); snd (fst pr)] in
  let ws := map (fun d => if weighted then d_w d else 1) rows ++ [fst (snd pr); snd (snd pr)] in
  let coeffs := weighted_lstsq design target ws in
  let res := map (fun p => d_y (fst p) - dotp (snd p) coeffs) (combine rows real) in
  match paper_sigma res (if weighted then Some (map d_w rows) else None) (List.length all) (List.length rows) n_par with
  | Some (sigma, rss, df) => Some (coeffs, res, sigma, rss, df)
  | None => None
  end.

(* rotation/core.py:467-486 *)
Definition result_of (all : list datum) (nf order : nat) (freq : R) (rows : list datum) (coeffs : list R) (sigma rss : R) (df : Z) : fitres :=
  mkfitres freq order coeffs sigma rss df (nf + 2 * order) (List.length rows) (List.length all - List.length rows).

(* rotation/core.py:488-510: at most [k] clipping rounds, then a last fit *)
Fixpoint clip_loop (k : nat) (weighted : bool) (clip : R) (all : list datum) (nf order : nat) (freq : R) (rows : list datum) : option fitres :=
  if Nat.leb (List.length rows) (nf + 2 * order) then None else
  match solve weighted all nf order freq rows with
  | None => None
  | Some (coeffs, res, sigma, rss, df) =>
      match k with
      | O => Some (result_of all nf order freq rows coeffs sigma rss df)
      | S k' =>
          let keep := map (fun r => rle (Rabs r) (clip * sigma)) res in
          if forallb (fun b => b) keep then Some (result_of all nf order freq rows coeffs sigma rss df)
          else clip_loop k' weighted clip all nf order freq (masked keep rows)
      end
  end.
(* rotation/core.py:415-510; eight rounds *)
Definition fit_frequency (weighted : bool) (clip : R) (all : list datum) (nf order : nat) (freq : R) : option fitres :=
  if Nat.leb (List.length all) (nf + 2 * order) then None else clip_loop 8 weighted clip all nf order freq all.
(* rotation/core.py:513-566 *)
Definition fit_unclipped (weighted : bool) (all : list datum) (nf order : nat) (freq : R) : option fitres :=
  if Nat.leb (List.length all) (nf + 2 * order) then None else
  match solve weighted all nf order freq all with
  | None => None
  | Some (coeffs, res, sigma, rss, df) => Some (result_of all nf order freq all coeffs sigma rss df)
  end.

(* rotation/core.py:569-588 *)
Definition f_test (small large : fitres) : R :=
  if Nat.leb (r_npar large) (r_npar small) then 0 else
  if (r_df small <=? 0)%Z || (r_df large <=? 0)%Z then 0 else
  let vs := r_sigma small * r_sigma small in
  let vl := r_sigma large * r_sigma large in
  if rle vs vl || rle vl 0 then 0 else
  if rle (vs / vl) 1 then 0 else f_cdf (vs / vl) (r_df small) (r_df large).
(* rotation/core.py:598-612: candidates in increasing order *)
Fixpoint select_order (l : list fitres) : option fitres :=
  match l with
  | [] => None
  | c :: r => if existsb (fun h => rlt (9 / 10) (f_test c h)) r then select_order r else Some c
  end.
(* rotation/core.py:615-621; None is infinity *)
Definition sigma_threshold (f : fitres) : option R :=
  if (r_df f <=? 0)%Z then None else
  match f_ppf (95 / 100) (r_df f) (r_df f) with
  | Some c => if rle c 0 then None else Some (r_sigma f * sqrt c)
  | None => None
  end.

(* rotation/estimator.py:740-891 *)
Definition derive (o : options) (weighted : bool) (all : list datum) (nf : nat) (freqs : list R) : result solution :=
  let exact order i := fit_frequency weighted (clip_sigma o) all nf order (nth i freqs 0) in
  let quick order i := fit_unclipped weighted all nf order (nth i freqs 0) in
  let cand := keep_some (map (fun k => search (exact k) (quick k) (staged o) (List.length freqs)) (used_orders o)) in
  match select_order cand with
  | None => Err ValueError
  | Some chosen =>
      let fits := map (exact (r_order chosen)) (seq 0 (List.length freqs)) in
      match argmin_from 0 (map (option_map r_sigma) fits) with
      | None => Err ValueError
      | Some (best, _) =>
          match nth_error fits best with
          | Some (Some bf) =>
              let w := fit_with_period bf in
              let thr := sigma_threshold bf in
              let acc0 := filter (fun i => match nth_error fits i with
                                           | Some (Some f) => match thr with Some t => rle (r_sigma f) t | None => true end
                                           | _ => false end) (seq 0 (List.length freqs)) in
              let acc := match acc0 with [] => [best] | _ => acc0 end in
              let cs0 := clusters freqs fits acc in
              let cs := match cs0 with [] => [mkcluster [best] w (w_period w) (w_period w)] | _ => cs0 end in
              let po := match split_primary best cs with
                        | Some x => x
                        | None => (hd (mkcluster [best] w (w_period w) (w_period w)) cs, tl cs)
                        end in
              let pc := fst po in
              let reliable := match max_deviation (w_period w) cs with
                              | Some d => rle d (Rmax (2 * w_period w) (7 / 24))
                              | None => false
                              end in
              Ok (mksol w pc thr cs (rel_uncertainty (w_period w) (c_lo pc) (c_hi pc))
                        (map (fun c => w_period (c_best c)) (snd po)) reliable (amplitude bf))
          | _ => Err ValueError
          end
      end
  end.

(* rotation/estimator.py:1554-1590: the rows handed to the fits *)
Definition data_of (use : bool) (fs : list (string * string)) (t_rel y ws : list R) (vs : list valid_obs) : list datum :=
  map (fun q => mkdatum (fst (fst q)) (snd (fst q)) (design_row use fs (fst (snd q)) (v_phase (snd (snd (snd q))))) (fst (snd (snd q))))
      (combine (combine t_rel y) (combine fs (combine ws vs))).

(* rotation/estimator.py:1633-1643: long periods; the triple is (verdict, flags, reasons) *)
Definition guard_long (period : R) (v : string * list string * list string) : string * list string * list string :=
  if String.eqb (fst (fst v)) "single_period" && rlt 240 (period * 24)
  then ("period_family", snd (fst v), snd v ++ ["period_implausibly_long"]) else v.
(* rotation/estimator.py:1655-1685; [half] is the fit at half the frequency with order six *)
Definition guard_half (period f0 sigma : R) (half : option fitres) (v : string * list string * list string)
  : string * list string * list string :=
  if String.eqb (fst (fst v)) "single_period" && rlt 0 period && rlt (1 / 2 / period) f0 then
    match half with
    | Some h => if rlt (r_sigma h) sigma then ("period_family", snd (fst v), snd v ++ ["subharmonic_unresolved"]) else v
    | None => v
    end
  else v.

(* rotation/estimator.py:1384-1712 *)
Definition estimate (o : options) (l : list obs) : result row :=
  if negb (options_ok o) then Err ValueError else
  bind (validate l) (fun vs =>
  let time_lt := map (fun v => v_time v - v_delta v / light) vs in
  let t_rel := map (fun t => t - fmin time_lt) time_lt in
  let span := fmax t_rel - fmin t_rel in
  let y := map (fun v => v_mag v - 5 * log10 (v_r v * v_delta v)) vs in
  let use := existsb (fun v => match v_session v with Some _ => true | None => false end) vs in
  let fs := map (fun v => (v_filter v, label "__missing_session__" (v_session v))) vs in
  let filters := map fst fs in
  let sigmas := map v_sigma vs in
  let sum := summarize use time_lt fs in
  let pre := if early_exit o then pre_solve (List.length l) filters span y sigmas 2 (min_rotations o) (max_frequency o) else [] in
  match pre with
  | _ :: _ => Ok (insufficient_row pre [] (List.length l) (List.length (ordered_unique filters)) (n_sessions sum))
  | [] =>
  if rle span 0 then Err ValueError else
  let wo := weights_from_sigma sigmas in
  let weighted := match wo with Some _ => true | None => false end in
  let ws := match wo with Some w => w | None => map (fun _ => 1) vs end in
  bind (build_grid span (min_rotations o) (max_frequency o) (grid_scale o) (max_period o)) (fun freqs =>
  let base := data_of false fs t_rel y ws vs in
  let sess := data_of true fs t_rel y ws vs in
  bind (derive o weighted base (n_fixed false fs) freqs) (fun bsol =>
  bind (if use && (match mode o with Ignore => false | _ => true end)
        then bind (derive o weighted sess (n_fixed true fs) freqs) (fun ssol =>
             match mode o with
             | Use => Ok (ssol, true)
             | _ => let eligible := Nat.leb 2 (n_sessions sum) && Nat.leb (min_per_group o) (min_group sum) && rlt 0 (median_span sum) in
                    let lower := match bic (w_fit (s_chosen ssol)), bic (w_fit (s_chosen bsol)) with
                                 | Some a, Some b => rlt (a + bic_improvement o) b
                                 | Some _, None => true
                                 | None, _ => false
                                 end in
                    if eligible && lower then Ok (ssol, true) else Ok (bsol, false)
             end)
        else Ok (bsol, false)) (fun su =>
  let sol := fst su in
  let offsets := snd su in
  let p := w_period (s_chosen sol) in
  let bf := w_fit (s_chosen sol) in
  let snr := snr_of (s_amplitude sol) (r_sigma bf) in
  let rot := if rlt 0 p then Some (span / p) else None in
  let cov := if rlt 0 p then coverage t_rel p else None in
  let v0 := classify snr cov rot (min_rotations o) (List.length (s_clusters sol)) (w_doubled (s_chosen sol))
                     (count_sufficient filters) (s_reliable sol) (claim_doubled o) in
  let v1 := guard_long p v0 in
  let half := fit_frequency weighted (clip_sigma o) (if offsets then sess else base) (n_fixed offsets fs) 6 (1 / 2 / p) in
  let v2 := guard_half p (nth 0 freqs 0) (r_sigma bf) half v1 in
  let diag := (if staged o && Nat.ltb (2 ^ 11) (List.length freqs) then ["staged_search_used"] else [])
              ++ (if grid_capped span (min_rotations o) (max_frequency o) (grid_scale o) (max_period o) then ["grid_capped"] else []) in
  let verdict := fst (fst v2) in
  Ok (mkrow (Some p) verdict (code_of verdict) (snd (fst v2) ++ diag) (snd v2)
            (String.eqb verdict "single_period" || String.eqb verdict "period_family") (String.eqb verdict "single_period")
            (Some (c_lo (s_primary sol))) (Some (c_hi (s_primary sol))) (s_relunc sol) (s_alternates sol)
            (Some (r_order bf)) (Some (r_sigma bf)) cov rot snr (Some (List.length (s_clusters sol)))
            (List.length l) (r_nfit bf) (r_nclip bf) (List.length (ordered_unique filters)) (n_sessions sum)
            offsets (w_doubled (s_chosen sol))))))
  end).

(* ---- wrappers.py ---- *)
(* rotation/wrappers.py:320-321: the key of the stable sort by time *)
Definition time_leb (a b : nat * R) : bool := rle (snd a) (snd b).
(* helper of [apparitions], rotation/wrappers.py:322-323 *)
Fixpoint split_gaps (gap : R) (cur : list nat) (prev : R) (l : list (nat * R)) : list (list nat) :=
  match l with
  | [] => [cur]
  | (i, t) :: r => if rlt gap (t - prev) then cur :: split_gaps gap [i] t r else split_gaps gap (cur ++ [i]) t r
  end.
(* rotation/wrappers.py:309-323: runs of times with no gap above the limit; indices into the table *)
Definition apparitions (gap : R) (ts : list R) : list (list nat) :=
  match sort time_leb (combine (seq 0 (List.length ts)) ts) with
  | [] => [[]]
  | (i, t) :: r => split_gaps gap [i] t r
  end.
(* rotation/wrappers.py:326 *)
Definition rank (verdict : string) : nat :=
  if String.eqb verdict "single_period" then 2 else if String.eqb verdict "period_family" then 1 else 0.
(* rotation/wrappers.py:399-412: is candidate b strictly better than a?  Equal scores cannot occur between
   different apparitions because the last component is the position. *)
Definition better_row (a b : nat * row) : bool :=
  if Nat.ltb (rank (p_verdict (snd a))) (rank (p_verdict (snd b))) then true else
  if Nat.ltb (rank (p_verdict (snd b))) (rank (p_verdict (snd a))) then false else
  let olt x y := match x, y with None, Some _ => true | Some u, Some v => rlt u v | _, None => false end in
  if olt (p_snr (snd a)) (p_snr (snd b)) then true else if olt (p_snr (snd b)) (p_snr (snd a)) then false else
  if Nat.ltb (p_nobs (snd a)) (p_nobs (snd b)) then true else if Nat.ltb (p_nobs (snd b)) (p_nobs (snd a)) then false else
  Nat.ltb (fst b) (fst a).
(* helper of [best_apparition], rotation/wrappers.py:412 max(candidates, key=...) *)
Definition best_row (l : list (nat * row)) (x : nat * row) : nat * row :=
  fold_left (fun a b => if better_row a b then b else a) l x.
(* helper of [best_apparition], rotation/wrappers.py:382-396: a ValueError gives an insufficient row, any
   other exception becomes a RuntimeError *)
Definition guarded (n : nat) (r : result row) : result row :=
  match r with
  | Ok x => Ok x
  | Err ValueError => Ok (insufficient_row ["solve_error"] ["solve_error"] n 0 0)
  | Err _ => Err RuntimeError
  end.
(* helper of [best_apparition], rotation/wrappers.py:381 take *)
Definition take {A} (l : list A) (idx : list nat) : list A := flat_map (fun i => match nth_error l i with Some x => [x] | None => [] end) idx.
(* rotation/wrappers.py:329-413; the flag "apparition_selected_k_of_n" is the pair (k, n) beside the row *)
Definition best_apparition (o : options) (gap : R) (l : list obs) : result (row * (nat * nat)) :=
  let gs := apparitions gap (map o_time l) in
  if Nat.leb (List.length gs) 1 then bind (estimate o l) (fun r => Ok (r, (1, 1)%nat)) else
  bind (mapM (fun g => guarded (List.length g) (estimate o (take l g))) gs) (fun rows =>
  match combine (seq 0 (List.length gs)) rows with
  | [] => Err ValueError
  | x :: r => let b := best_row r x in Ok (snd b, (fst b + 1, List.length gs)%nat)
  end).

(* rotation/wrappers.py:88-182: a detection and the object's coordinates; [geometry] stands for the observer
   state, the distances, the phase angle and the observing night of one row *)
Variable detection exposure coords : Type.
Variable d_exposure : detection -> option string.
Variable e_id : exposure -> string.
Variable heliocentric : coords -> bool.
Variable geometry : detection -> exposure -> coords -> result obs.
(* rotation/wrappers.py:37-60: the first exposure with the id of the detection *)
Definition exposure_of (es : list exposure) (d : detection) : result exposure :=
  match d_exposure d with
  | None => Err ValueError
  | Some i => match find (fun e => String.eqb (e_id e) i) es with Some e => Ok e | None => Err ValueError end
  end.
(* rotation/wrappers.py:88-182 *)
Definition build_observations (es : list exposure) (ds : list (detection * coords)) : result (list obs) :=
  if negb (forallb (fun d => heliocentric (snd d)) ds) then Err ValueError else
  match ds with
  | [] => Err ValueError
  | _ => bind (mapM (fun d => exposure_of es (fst d)) ds) (fun xs =>
         mapM (fun p => geometry (fst (fst p)) (snd p) (snd (fst p))) (combine ds xs))
  end.
(* rotation/wrappers.py:204-306; the table has as many rows of coordinates as detections *)
Definition estimate_grouped (o : options) (es : list exposure) (ds : list (detection * coords)) (ids : list (option string))
  : result (list (string * row)) :=
  match ds with
  | [] => Ok []
  | _ =>
      if negb (Nat.eqb (List.length ids) (List.length ds)) then Err ValueError else
      let rows := keep_some (map (fun p => match fst p with Some i => Some (i, snd p) | None => None end) (combine ids ds)) in
      mapM (fun g => bind (guarded (List.length (snd g)) (bind (build_observations es (snd g)) (estimate o))) (fun r => Ok (fst g, r)))
           (runs (sort by_id rows))
  end.
End Rot.

(* ---- scoring, rotation/core.py:831-990 ---- *)
(* rotation/core.py:836-848 *)
Definition harmonic_factors : list R := [1 / 4; 1 / 3; 1 / 2; 2 / 3; 3 / 4; 1; 4 / 3; 3 / 2; 2; 3; 4].
(* rotation/core.py:852-867 *)
Definition relative_error (p_rec p_true : R) : R := 100 * Rabs (p_rec - p_true) / p_true.
(* helper of [harmonic_error], rotation/core.py:888-890: np.argmin, the first smallest *)
Fixpoint argmin_factor (f : R -> R) (x : R) (l : list R) : R :=
  match l with [] => x | y :: r => if rlt (f y) (f x) then argmin_factor f y r else argmin_factor f x r end.
(* rotation/core.py:870-891 *)
Definition harmonic_error (p_rec p_true : R) : R * R :=
  let e f := Rabs (p_rec * f - p_true) / p_true in
  let b := argmin_factor e (1 / 4) (tl harmonic_factors) in (100 * e b, b).
(* rotation/core.py:909-921 *)
Definition bucket_labels : list (R * string) :=
  [(1, "1x"); (1 / 4, "1/4x"); (1 / 3, "1/3x"); (1 / 2, "1/2x"); (2 / 3, "2/3x"); (3 / 4, "3/4x"); (4 / 3, "4/3x");
   (3 / 2, "3/2x"); (2, "2x"); (3, "3x"); (4, "4x")].
(* rotation/core.py:894-926 *)
Definition alias_bucket (factor : R) : string :=
  match find (fun p => rle (Rabs (factor - fst p)) (5 / 100 * fst p)) bucket_labels with
  | Some p => snd p
  | None => "other"
  end.
(* rotation/core.py:929-949 *)
Definition within_tolerance (p_rec p_true tol : R) : bool := rle (relative_error p_rec p_true) (tol * 100).
(* rotation/core.py:952-990 *)
Definition near_day_alias (p_rec p_true tol : R) : bool :=
  if rle p_rec 0 || rle p_true 0 then false else
  let fr := 24 / p_rec in let ft := 24 / p_true in
  existsb (fun a => negb (rle a 0) && rle (Rabs (fr - a) / ft) tol) [ft + 1; ft - 1; ft + 2; ft - 2].
