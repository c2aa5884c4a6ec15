(* The JAX backend of the rotation fits: /repo/src/adam_core/photometry/rotation/jax_backend.py and the parts
   of rotation/estimator.py that call it.  Arithmetic is on exact reals; an infinite or missing value is [None].
   jnp.linalg.solve is a parameter.  The clipping factor is positive, so a factor times an infinite sigma is
   infinite. *)
From Coq Require Import Reals Lra.
From Coq Require Import List String Bool ZArith.
From Verif Require Import Base StrOrder PhotModel RotModel.
Import ListNotations.
Open Scope list_scope.
Open Scope R_scope.

(* jax_backend.py:36-39; the quotient is exact *)
Definition next_multiple (v m : Z) : Z := (if m <=? 1 then v else (- ((- v) / m)) * m)%Z.
(* helper of [row_bucket], jax_backend.py:51: int.bit_length *)
Definition bit_length (z : Z) : Z := (if z =? 0 then 0 else Z.log2 (Z.abs z) + 1)%Z.
(* jax_backend.py:42-51 *)
Definition row_bucket (n_rows floor : Z) : Z :=
  (let n := Z.max n_rows floor in Z.shiftl 1 (bit_length (n - 1)))%Z.

(* helper of [pad_rows], jax_backend.py:70-74 *)
Definition zeros (n : nat) : list R := repeat 0 n.
(* jax_backend.py:54-85; a row and whether it is a real one *)
Definition pad_rows (weighted : bool) (rows : list datum) (nf : nat) (floor : Z) : list (datum * bool) :=
  let n := List.length rows in
  let total := Z.to_nat (row_bucket (Z.of_nat n) floor) in
  map (fun d => (mkdatum (d_t d) (d_y d) (d_fix d) (if weighted then d_w d else 1), true)) rows
  ++ repeat (mkdatum 0 0 (zeros nf) 0, false) (total - n).
(* jax_backend.py:281-294: zero columns after the first [nf] *)
Definition pad_cols (nf pad : nat) (r : list R) : list R := firstn nf r ++ zeros pad ++ skipn nf r.

(* jax_backend.py:182 *)
Definition ridge : R := / 10 ^ 15.
(* jax_backend.py:178-184: the normal matrix with its ridge *)
Definition normal_matrix (n : nat) (design : list (list R)) : list (list R) :=
  map (fun i => map (fun j => rsum (map (fun r => nth i r 0 * nth j r 0) design) + (if Nat.eqb i j then ridge else 0))
                    (seq 0 n)) (seq 0 n).
(* jax_backend.py:178-180: the right-hand side *)
Definition normal_rhs (n : nat) (design : list (list R)) (target : list R) : list R :=
  map (fun i => rsum (map (fun p => nth i (fst p) 0 * snd p) (combine design target))) (seq 0 n).

(* helper of [jstep], jax_backend.py:187 *)
Definition count (m : list bool) : nat := List.length (filter (fun b => b) m).

(* jax_backend.py:219-234: what the program holds for one frequency at the end *)
Record jfit := mkjfit { j_coeffs : list R; j_mask : list bool; j_sigma : option R; j_rss : R; j_df : Z; j_nfit : nat }.

Section Solver.
Variable solver : list (list R) -> list R -> list R.
Variable hgfit : R -> R -> R * R.

(* jax_backend.py:169-201 for one frequency: coefficients, residuals, rss, sigma.  [n_obs] counts the real rows,
   [n_par] is the true number of parameters, [design] has the padded columns *)
Definition solve_with_mask (weighted : bool) (n_obs : nat) (n_par : Z) (prior_design : list (list R)) (prior_target prior_w : list R)
  (design : list (list R)) (target ws : list R) (active : list bool) : list R * list R * R * option R :=
  let w_eff := map (fun p => if fst p : bool then snd p else 0) (combine active ws) in
  let design_w := map (fun p => map (fun x => x * sqrt (snd p)) (fst p)) (combine design w_eff)
                  ++ map (fun p => map (fun x => x * sqrt (snd p)) (fst p)) (combine prior_design prior_w) in
  let target_w := map (fun p => fst p * sqrt (snd p)) (combine target w_eff)
                  ++ map (fun p => fst p * sqrt (snd p)) (combine prior_target prior_w) in
  let n := List.length (hd [] design) in
  let coeffs := solver (normal_matrix n design_w) (normal_rhs n design_w target_w) in
  let resid := map (fun p => fst p - dotp (snd p) coeffs) (combine target design) in
  let df := (Z.of_nat (count active) - n_par)%Z in
  if weighted then
    let rss := rsum (map (fun p => if fst p : bool then fst (snd p) * (snd (snd p) * snd (snd p)) else 0)
                         (combine active (combine w_eff resid))) in
    let s := rsum w_eff in
    (coeffs, resid, rss,
     if (0 <? df)%Z && rlt 0 s then Some (sqrt (Rmax (INR n_obs / s * rss / IZR df) 0)) else None)
  else
    let rss := rsum (map (fun p => if fst p : bool then snd p * snd p else 0) (combine active resid)) in
    (coeffs, resid, rss, if (0 <? df)%Z then Some (sqrt (Rmax (rss / IZR df) 0)) else None).

(* jax_backend.py:208-217: one clipping round on the mask of a valid frequency; for an invalid one the mask stays *)
Definition clip_mask (clip : R) (resid : list R) (sigma : option R) (active : list bool) : list bool :=
  map (fun p => fst p && match sigma with Some s => rle (Rabs (snd p)) (clip * s) | None => true end)
      (combine active resid).

(* jax_backend.py:104-234 for one frequency: [k] rounds, then the last fit *)
Fixpoint jax_rounds (k : nat) (valid : bool) (clip : R) (step : list bool -> list R * list R * R * option R) (n_par : Z)
  (active : list bool) : jfit :=
  match k with
  | O => match step active with
         | (coeffs, _, rss, sigma) => mkjfit coeffs active sigma rss (Z.of_nat (count active) - n_par) (count active)
         end
  | S k' => match step active with
            | (_, resid, _, sigma) =>
                jax_rounds k' valid clip step n_par (if valid then clip_mask clip resid sigma active else active)
            end
  end.

(* jax_backend.py:135-234 for one frequency of a batch; [rows] are padded, [nf] and [pad] count columns *)
Definition jax_frequency (weighted : bool) (clip : R) (rounds : nat) (rows : list (datum * bool))
  (prior_design : list (list R)) (prior_target prior_w : list R) (nf pad order : nat) (fv : R * bool) : jfit :=
  let design := map (fun r => (d_fix (fst r) ++ zeros pad) ++ fourier (d_t (fst r)) (fst fv) order) rows in
  let n_par := Z.of_nat (nf + 2 * order) in
  let step := solve_with_mask weighted (count (map snd rows)) n_par prior_design prior_target prior_w
                              design (map (fun r => d_y (fst r)) rows) (map (fun r => d_w (fst r)) rows) in
  jax_rounds rounds (snd fv) clip step n_par (map (fun r => snd r && snd fv) rows).

(* jax_backend.py:222-223 *)
Definition j_score (valid : bool) (j : jfit) : option R :=
  if valid && (0 <? j_df j)%Z then j_sigma j else None.
(* helper of [evaluate_jax], jax_backend.py:224-234: the index of the first smallest score, 0 if none is finite *)
Definition argmin_inf (l : list (option R)) : nat := match argmin_from 0 l with Some (i, _) => i | None => 0%nat end.

(* jax_backend.py:306-311: the batches *)
Definition batches (size : nat) (l : list R) : list (list R) :=
  map (fun k => firstn size (skipn (k * size) l)) (seq 0 ((List.length l + size - 1) / size)).
(* jax_backend.py:312-316: a batch filled up with invalid zero frequencies *)
Definition fill (size : nat) (b : list R) : list (R * bool) :=
  map (fun f => (f, true)) b ++ repeat (0, false) (size - List.length b).

(* jax_backend.py:237-384, the results handed back: scores, and for a valid best its coefficients, mask, sigma,
   rss, df and number of fitted rows *)
Record jax_result := mkjax { x_scores : list (option R); x_best : option (list R * list bool * R * R * Z * nat) }.

(* jax_backend.py:345-372: one batch and the best so far; a sigma that is not finite never wins *)
Definition take_batch (one : R * bool -> jfit) (nf pad order n_rows size : nat)
  (acc : jax_result) (b : list R) : jax_result :=
  let js := map (fun fv => (snd fv, one fv)) (fill size b) in
  let scores := map (fun p => j_score (fst p) (snd p)) js in
  let best := nth (argmin_inf scores) (map snd js) (mkjfit [] [] None 0 0 0) in
  let real := firstn (List.length b) scores in
  let all := x_scores acc ++ real in
  match argmin_from 0 real with
  | None => mkjax all (x_best acc)
  | Some (_, local_sigma) =>
      let wins := match x_best acc with
                  | Some (_, _, s, _, _, _) => rlt local_sigma s
                  | None => true
                  end in
      if wins then
        let c := j_coeffs best in
        let c' := if Nat.eqb pad 0 then c else firstn nf c ++ firstn (2 * order) (skipn (nf + pad) c) in
        mkjax all (Some (c', firstn n_rows (j_mask best), local_sigma, j_rss best, j_df best, j_nfit best))
      else mkjax all (x_best acc)
  end.

(* jax_backend.py:237-384; [freqs] are the frequencies at the sample indices *)
Definition evaluate_jax (weighted : bool) (clip : R) (rounds : nat) (rows : list datum) (prior_design : list (list R))
  (prior_target prior_w : list R) (nf order : nat) (batch_size floor : Z) (freqs : list R) : jax_result :=
  let pad := Z.to_nat (next_multiple (Z.of_nat nf) 8 - Z.of_nat nf) in
  let pr := if Nat.eqb pad 0 then prior_design else map (pad_cols nf pad) prior_design in
  let size := Nat.max 1 (Z.to_nat batch_size) in
  fold_left (take_batch (jax_frequency weighted clip rounds (pad_rows weighted rows nf floor) pr prior_target prior_w nf pad order)
                        nf pad order (List.length rows) size)
            (batches size freqs) (mkjax [] None).

(* rotation/estimator.py:278-343: scores, fits (only the best is filled in) and the best fit; [all] are the rows,
   [freqs] the frequencies at the sample indices; _FOURIER_MAX_CLIP_ITERATIONS is eight *)
Definition jax_indices (weighted : bool) (clip : R) (all : list datum) (nf order : nat) (batch_size floor : Z) (freqs : list R)
  : list (option R) * list (option fitres) * option fitres :=
  let n_par := (nf + 2 * order)%nat in
  let pr := prior hgfit (fmin (map (fun d => nth (nf - 2) (d_fix d) 0) all)) in
  let r := evaluate_jax weighted clip 8 all [unit_row n_par (nf - 2); unit_row n_par (nf - 1)]
                        [fst (fst pr); snd (fst pr)] [fst (snd pr); snd (snd pr)] nf order batch_size floor freqs in
  let none := map (fun _ => None) freqs in
  match x_best r, argmin_from 0 (x_scores r) with
  | Some (c, _, sigma, rss, df, nfit), Some (pos, _) =>
      let f := mkfitres (nth pos freqs 0) order c sigma rss df n_par nfit (List.length all - nfit) in
      (x_scores r, firstn pos none ++ Some f :: skipn (S pos) none, Some f)
  | _, _ => (x_scores r, none, None)
  end.
(* rotation/estimator.py:375-406 with exact fits: the numpy backend *)
Definition numpy_indices (lstsq : list (list R) -> list R -> list R) (weighted : bool) (clip : R) (all : list datum) (nf order : nat)
  (freqs : list R) : list (option R) * list (option fitres) * option fitres :=
  let fits := map (fit_frequency lstsq hgfit weighted clip all nf order) freqs in
  (map (option_map r_sigma) fits, fits, best_of fits).

(* rotation/estimator.py:409-523 with any evaluation of a list of grid indices; [quick] is the numpy fit without
   clipping, used for the coarse grid with either backend *)
Definition search_with (best : list nat -> option fitres) (quick : nat -> option fitres) (staged : bool) (n_total : nat) : option fitres :=
  if Nat.eqb n_total 0 then None else
  if negb staged || Nat.leb n_total (2 ^ 11) then best (seq 0 n_total) else
  let stride := Nat.max 1 ((n_total + 1023) / 1024) in
  let c0 := map (fun i => (i * stride)%nat) (seq 0 ((n_total + stride - 1) / stride)) in
  let coarse := if Nat.eqb (last c0 0%nat) (n_total - 1) then c0 else c0 ++ [(n_total - 1)%nat] in
  let scores := map (fun i => option_map r_sigma (quick i)) coarse in
  let radius := Nat.max 8 (4 * stride) in
  let final := sample_indices (candidate_intervals coarse scores n_total radius 12) n_total in
  let final' := match argmin_from 0 scores with
                | Some (p, _) =>
                    let g := nth p coarse 0%nat in
                    let lo := (g - radius)%nat in
                    sort Nat.leb (uniq Nat.eqb (final ++ seq lo (Nat.min n_total (g + radius + 1) - lo)))
                | None => final
                end in
  match best final' with
  | Some f => Some f
  | None => best (seq 0 n_total)
  end.

Variable lstsq : list (list R) -> list R -> list R.
Variable f_cdf : R -> Z -> Z -> R.
Variable f_ppf : R -> Z -> Z -> option R.
(* rotation/estimator.py:740-891 with the JAX backend: only the best fit comes with the scores, the other accepted
   ones are fitted again with numpy (lines 808-819) *)
Definition derive_jax (o : options) (weighted : bool) (all : list datum) (nf : nat) (batch_size floor : Z) (freqs : list R)
  : result solution :=
  let eval order idx := jax_indices weighted (clip_sigma o) all nf order batch_size floor (map (fun i => nth i freqs 0) idx) in
  let quick order i := fit_unclipped lstsq hgfit weighted all nf order (nth i freqs 0) in
  let cand := keep_some (map (fun k => search_with (fun idx => snd (eval k idx)) (quick k) (staged o) (List.length freqs)) (used_orders o)) in
  match select_order f_cdf cand with
  | None => Err ValueError
  | Some chosen =>
      let ev := eval (r_order chosen) (seq 0 (List.length freqs)) in
      let scores := fst (fst ev) in
      let fits0 := snd (fst ev) in
      match argmin_from 0 scores with
      | None => Err ValueError
      | Some (best, _) =>
          match nth_error fits0 best with
          | Some (Some bf) =>
              let w := fit_with_period bf in
              let thr := sigma_threshold f_ppf bf in
              let acc0 := filter (fun i => match nth_error scores i with
                                           | Some (Some s) => match thr with Some t => rle s t | None => true end
                                           | _ => false end) (seq 0 (List.length freqs)) in
              let acc := match acc0 with [] => [best] | _ => acc0 end in
              let fits := map (fun p => match snd p with
                                        | Some f => Some f
                                        | None => if existsb (Nat.eqb (fst p)) acc
                                                  then fit_frequency lstsq hgfit weighted (clip_sigma o) all nf (r_order chosen) (nth (fst p) freqs 0)
                                                  else None
                                        end) (combine (seq 0 (List.length freqs)) fits0) in
              let cs0 := clusters freqs fits acc in
              let cs := match cs0 with [] => [mkcluster [best] w (w_period w) (w_period w)] | _ => cs0 end in
              let po := match split_primary best cs with
                        | Some x => x
                        | None => (hd (mkcluster [best] w (w_period w) (w_period w)) cs, tl cs)
                        end in
              let pc := fst po in
              let reliable := match max_deviation (w_period w) cs with
                              | Some d => rle d (Rmax (2 * w_period w) (7 / 24))
                              | None => false
                              end in
              Ok (mksol w pc thr cs (rel_uncertainty (w_period w) (c_lo pc) (c_hi pc))
                        (map (fun c => w_period (c_best c)) (snd po)) reliable (amplitude bf))
          | _ => Err ValueError
          end
      end
  end.
End Solver.
