(* Model of src/adam_core/coordinates/covariances.py (packed triangles, matrices from sigmas) and
   of orbits/query/neocc.py:16-36, 157-183 (definitions only). *)
From Coq Require Import QArith.
From Verif Require Import Base ResModel.
Open Scope nat_scope.
Open Scope list_scope.

Section Triangles.
Context {A : Type}.
Variable zero : A.
(* a 2-D array as a function of row and column *)
(* helper of [upper_to_full], covariances.py:481-494 *)
Definition arr := nat -> nat -> A.
(* np.triu_indices(n, k) / np.tril_indices(n, k): row-major, j >= i + k / j <= i + k; [k] is
   given as two naturals up - down because it may be negative *)
(* helper of [upper_to_full], covariances.py:481-494 *)
Definition all_pairs (n : nat) : list (nat * nat) := list_prod (seq 0 n) (seq 0 n).
(* helper of [upper_to_full], covariances.py:481-494 *)
Definition triu (n up down : nat) : list (nat * nat) := filter (fun p => fst p + up <=? snd p + down) (all_pairs n).
(* helper of [upper_to_full], covariances.py:481-494 *)
Definition tril (n up down : nat) : list (nat * nat) := filter (fun p => snd p + down <=? fst p + up) (all_pairs n).
(* full[indices] = values *)
(* helper of [upper_to_full], covariances.py:481-494 *)
Definition put (full : arr) (idx : list (nat * nat)) (vals : list A) : arr :=
  fold_left (fun f iv => fun i j => if (i =? fst (fst iv)) && (j =? snd (fst iv)) then snd iv else f i j)
            (combine idx vals) full.
(* full[indices] = full.T[indices]; the right-hand side is evaluated first *)
(* helper of [upper_to_full], covariances.py:481-494 *)
Definition mirror (full : arr) (idx : list (nat * nat)) : arr :=
  put full idx (map (fun p => full (snd p) (fst p)) idx).
(* helper of [upper_to_full], covariances.py:481-494 *)
Definition zeros : arr := fun _ _ => zero.

(* covariances.py:481-494 *)
Definition upper_to_full (v : list A) : result arr :=
  if negb (List.length v =? 21) then Err AssertionError
  else Ok (mirror (put zeros (triu 6 0 0) v) (tril 6 0 1)).
(* covariances.py:497-510; np.triu_indices(6, -1) *)
Definition lower_to_full (v : list A) : result arr :=
  if negb (List.length v =? 21) then Err AssertionError
  else Ok (mirror (put zeros (tril 6 0 0) v) (triu 6 0 1)).
(* neocc.py:16-36 *)
Definition drop_last_column (v : list A) : result (list A) :=
  if negb (List.length v =? 28) then Err AssertionError
  else let full := put zeros (triu 7 0 0) v in Ok (map (fun p => full (fst p) (snd p)) (triu 6 0 0)).
(* neocc.py:158-173: the covariance read from the COV lines of an OEF file *)
Definition oef_covariance (v : list A) : result (option arr) :=
  match v with
  | [] => Ok None
  | _ => bind (if List.length v =? 28 then drop_last_column v else Ok v)
              (fun w => bind (upper_to_full w) (fun f => Ok (Some f)))
  end.
End Triangles.

(* covariances.py:18-36 sigmas_to_covariances for one row: out[i][j] = sigma[j]^2 * identity[j][i];
   NaN times zero is NaN *)
Definition nmul (a b : num) : num := match a, b with Some x, Some y => Some (x * y)%Q | _, _ => None end.
(* covariances.py:18-36: np.identity *)
Definition identity (i j : nat) : num := if i =? j then Some 1%Q else Some 0%Q.
(* covariances.py:18-36, one row *)
Definition sigmas_to_covariance (s : list num) : list (list num) :=
  map (fun i => map (fun js => nmul (nmul (snd js) (snd js)) (identity (fst js) i)) (combine (seq 0 (List.length s)) s))
      (seq 0 (List.length s)).
