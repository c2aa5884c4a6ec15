(* Claims C295-C298: repaired covariances and the cosine of the latitude. *)
From Coq Require Import Reals List Bool Lia Lra.
From Verif Require Import Base PsdModel PsdSpec PsdProofs.
Import ListNotations.
Open Scope R_scope.

Definition unit_at (k : nat) (i : nat) : R := if Nat.eqb i k then 1 else 0.
Definition two (a b : R) : eig := [(a, unit_at 0); (b, unit_at 1)].
Definition diag2 (a b : R) (i j : nat) : R := if Nat.eqb i j then (if Nat.eqb i 0 then a else b) else 0.
Lemma two_ok a b : decomposition 2 (diag2 a b) (two a b).
Proof.
  split; [|split].
  - intros i j Hi Hj. destruct i as [|[|i]]; try lia; destruct j as [|[|j]]; try lia; unfold diag2, two, unit_at; cbn; ring.
  - intros p [<-|[<-|[]]]; unfold dotn, form, diag2, unit_at; cbn; split; ring.
  - intros x. unfold dotn, two, unit_at. cbn. ring.
Qed.

(* ---------------------------------------------------------------- C295 ---- *)
(* an eigenvalue of exactly minus the tolerance is neither refused nor repaired *)
Theorem C295_refuted : forall tol, 0 < tol -> exists cov eigh M, decomposition 2 cov (eigh cov) /\ make_psd eigh tol cov = Ok M /\ ~ psd 2 M.
Proof.
  intros tol T. exists (diag2 1 (- tol)), (fun _ => two 1 (- tol)). eexists. split; [apply two_ok|]. split.
  - unfold make_psd, two. cbn [existsb fst]. destruct (Rlt_dec 1 (- tol)); [exfalso; lra|]. destruct (Rlt_dec (- tol) (- tol)); [exfalso; lra|]. reflexivity.
  - intros P. specialize (P (unit_at 1)). rewrite form_rebuild in P. unfold wsum, dotn, unit_at in P. cbn [map fold_right fst snd sumn Nat.eqb] in P.
    unfold flip in P. destruct (Rlt_dec 1 0); [lra|]. destruct (Rlt_dec (- tol) 0); [|lra]. rewrite Rabs_left in P by lra. destruct (Rlt_dec (- - tol) tol); lra.
Qed.
Print Assumptions C295_refuted.

(* no variance of exactly minus the tolerance in a direction of unit length: the result is positive semidefinite *)
Theorem C295_partial : forall n eigh tol cov M, decomposition n cov (eigh cov) ->
  (forall v, dotn n v v = 1 -> form n cov v <> - tol) ->
  make_psd eigh tol cov = Ok M -> psd n M.
Proof.
  intros n eigh tol cov M D N H x. destruct (make_psd_ok eigh tol cov M H) as [-> L]. rewrite form_rebuild. apply wsum_nonneg.
  intros q Hq. apply in_map_iff in Hq. destruct Hq as (p & <- & Hp). cbn. apply flip_nonneg. destruct (proj1 (proj2 D) p Hp) as [U F].
  pose proof (L p Hp). pose proof (N (snd p) U). rewrite F in H1. lra.
Qed.
Print Assumptions C295_partial.
Example C295_case : exists M, decomposition 2 (diag2 1 (- (1 / 4))) (two 1 (- (1 / 4)))
  /\ make_psd (fun _ => two 1 (- (1 / 4))) (1 / 2) (diag2 1 (- (1 / 4))) = Ok M /\ M 1%nat 1%nat = 1 / 4
  /\ (forall v, dotn 2 v v = 1 -> form 2 (diag2 1 (- (1 / 4))) v <> - (1 / 2)).
Proof.
  eexists. split; [apply two_ok|]. split; [|split].
  - unfold make_psd, two. cbn [existsb fst]. destruct (Rlt_dec 1 (- (1 / 2))); [exfalso; lra|]. destruct (Rlt_dec (- (1 / 4)) (- (1 / 2))); [exfalso; lra|]. reflexivity.
  - unfold rebuild, unit_at. cbn [map fold_right fst snd Nat.eqb]. unfold flip. destruct (Rlt_dec 1 0); [lra|]. destruct (Rlt_dec (- (1 / 4)) 0); [|lra]. rewrite Rabs_left by lra. destruct (Rlt_dec (- - (1 / 4)) (1 / 2)); lra.
  - intros v. unfold dotn, form, diag2. cbn. intros H. nra.
Qed.

(* ---------------------------------------------------------------- C296 ---- *)
Lemma direction n cov e : decomposition n cov e -> forall tol, (exists p, In p e /\ fst p < - tol) <-> exists x, form n cov x < - tol * dotn n x x.
Proof.
  intros D tol. split.
  - intros (p & Hp & H). exists (snd p). destruct (proj1 (proj2 D) p Hp) as [U F]. rewrite U, F. lra.
  - intros (x & H). destruct (existsb (fun p : R * (nat -> R) => if Rlt_dec (fst p) (- tol) then true else false) e) eqn:X.
    + apply existsb_exists in X. destruct X as (p & Hp & Y). exists p. destruct (Rlt_dec (fst p) (- tol)); [auto|discriminate].
    + exfalso. rewrite (form_wsum n cov e x D), (proj2 (proj2 D) x) in H.
      assert (L : forall p, In p e -> - tol <= fst p).
      { intros p Hp. apply Rnot_lt_le. intros Y. assert (Z : existsb (fun p : R * (nat -> R) => if Rlt_dec (fst p) (- tol) then true else false) e = true); [|congruence].
        apply existsb_exists. exists p. split; auto. destruct (Rlt_dec (fst p) (- tol)); [reflexivity|contradiction]. }
      pose proof (wsum_lower n tol e x L). lra.
Qed.

(* refused, with ValueError, exactly if the variance in some direction is below minus the tolerance; otherwise no variance becomes smaller or
   grows by more than twice the tolerance; a positive semidefinite matrix is returned as it is *)
Theorem C296 : forall n eigh tol cov, decomposition n cov (eigh cov) -> 0 <= tol ->
  match make_psd eigh tol cov with
  | Err e => e = ValueError /\ exists x, form n cov x < - tol * dotn n x x
  | Ok M => (forall x, - tol * dotn n x x <= form n cov x)
            /\ (forall x, form n cov x <= form n M x <= form n cov x + 2 * tol * dotn n x x)
            /\ (psd n cov -> forall i j, (i < n)%nat -> (j < n)%nat -> M i j = cov i j)
  end.
Proof.
  intros n eigh tol cov D T. destruct (make_psd eigh tol cov) as [M|e] eqn:H.
  - destruct (make_psd_ok eigh tol cov M H) as [-> L]. split; [|split].
    + intros x. apply Rnot_lt_le. intros X. assert (Y : exists p, In p (eigh cov) /\ fst p < - tol) by (apply (direction n cov); eauto).
      apply make_psd_err in Y. congruence.
    + intros x. rewrite form_rebuild, (form_wsum n cov (eigh cov) x D), (proj2 (proj2 D) x). apply wsum_flip; auto.
    + intros Pc i j Hi Hj. rewrite <- (rebuild_back n cov (eigh cov) i j D Hi Hj). f_equal.
      rewrite <- (map_id (eigh cov)) at 2. apply map_ext_in. intros p Hp. rewrite flip_same; [symmetry; apply surjective_pairing|].
      destruct (proj1 (proj2 D) p Hp) as [U F]. rewrite <- F. apply Pc.
  - assert (E : e = ValueError) by (unfold make_psd in H; destruct (existsb _ _); congruence). subst. split; auto.
    apply (direction n cov (eigh cov)); auto. apply make_psd_err. exact H.
Qed.
Print Assumptions C296.
(* the result has the eigenvectors of the given matrix and the absolute values of its eigenvalues, if none is exactly minus the tolerance *)
Theorem C296_abs : forall n eigh tol cov M, decomposition n cov (eigh cov) -> (forall v, dotn n v v = 1 -> form n cov v <> - tol) ->
  make_psd eigh tol cov = Ok M ->
  forall i j, M i j = fold_right (fun p s => Rabs (fst p) * (snd p i * snd p j) + s) 0 (eigh cov).
Proof.
  intros n eigh tol cov M D N H i j. destruct (make_psd_ok eigh tol cov M H) as [-> L].
  assert (A : forall p, In p (eigh cov) -> flip tol (fst p) = Rabs (fst p)).
  { intros p Hp. destruct (proj1 (proj2 D) p Hp) as [U F]. pose proof (L p Hp). pose proof (N (snd p) U) as Q. rewrite F in Q.
    unfold flip. destruct (Rlt_dec (fst p) 0); [|rewrite Rabs_right; lra]. rewrite Rabs_left by auto. destruct (Rlt_dec (- fst p) tol); lra. }
  clear - A. unfold rebuild. induction (eigh cov) as [|p e IH]; cbn [map fold_right fst snd]; auto.
  rewrite A by (left; auto). rewrite IH by (intros; apply A; right; auto). ring.
Qed.
Print Assumptions C296_abs.
Example C296_case : make_psd (fun _ => two 1 (- 2)) 1 (diag2 1 (- 2)) = Err ValueError /\ decomposition 2 (diag2 1 (- 2)) (two 1 (- 2)).
Proof. split; [|apply two_ok]. unfold make_psd, two. cbn [existsb fst]. destruct (Rlt_dec 1 (- (1))); [exfalso; lra|]. destruct (Rlt_dec (- 2) (- (1))); [reflexivity|lra]. Qed.

(* ---------------------------------------------------------------- C297 ---- *)
(* each residual is scaled by the factor of its component, each entry of the covariance by those of its row and its column; what is missing stays
   missing and changes nothing else *)
Theorem C297 : forall lat r c,
  (forall i, correct_residual lat r i = option_map (fun x => factor lat i * x) (r i))
  /\ (forall i j, (i < 6)%nat -> (j < 6)%nat -> correct_covariance lat c i j = option_map (fun x => factor lat i * factor lat j * x) (c i j)).
Proof.
  intros lat r c. split.
  - intros i. unfold correct_residual. assert (C : cos_lat lat = cos (lat * PI / 180)) by (unfold cos_lat; f_equal; field). rewrite C.
    destruct i as [|[|[|[|[|i]]]]]; cbn [Nat.eqb factor]; destruct (r _); cbn; f_equal; ring.
  - intros i j Hi Hj. unfold correct_covariance. destruct (c i j) as [x|] eqn:X; [|reflexivity]. cbn. f_equal. rewrite sandwich by auto. unfold masked. rewrite X. reflexivity.
Qed.
Print Assumptions C297.
Example C297_case : let c := fun i j => if Nat.eqb i 0 || Nat.eqb j 0 then None else Some 8 in
  correct_covariance 60 c 1 1 = Some 2 /\ correct_covariance 60 c 1 2 = Some 4 /\ correct_covariance 60 c 0 1 = None /\ correct_residual 60 (fun _ => Some 3) 4 = Some (3 / 2).
Proof.
  assert (C : cos (60 * PI / 180) = 1 / 2) by (replace (60 * PI / 180) with (PI / 3) by field; rewrite cos_PI3; lra).
  cbn zeta. destruct (C297 60 (fun _ => Some 3) (fun i j => if Nat.eqb i 0 || Nat.eqb j 0 then None else Some 8)) as [A B].
  rewrite A, !B by lia. cbn [factor Nat.eqb orb option_map]. rewrite C. repeat split; f_equal; field.
Qed.

(* ---------------------------------------------------------------- C298 ---- *)
(* a complete row away from the poles: chi2 with the corrected residuals and covariance is chi2 without the correction *)
Theorem C298 : forall lat r (c : nat -> nat -> R) P, cos (lat * PI / 180) <> 0 -> inverse_of c P ->
  forall r' c' P',
  (forall i, (i < 6)%nat -> correct_residual lat (fun i => Some (r i)) i = Some (r' i)) ->
  (forall i j, (i < 6)%nat -> (j < 6)%nat -> correct_covariance lat (fun i j => Some (c i j)) i j = Some (c' i j)) ->
  inverse_of c' P' -> chi2_of P' r' = chi2_of P r.
Proof.
  intros lat r c P Nz IP r' c' P' Hr Hc IP'.
  assert (F : forall i, factor lat i <> 0).
  { intros i. unfold factor. destruct i as [|[|[|[|[|i]]]]]; auto; lra. }
  destruct (C297 lat (fun i => Some (r i)) (fun i j => Some (c i j))) as [A B].
  assert (R' : forall i, (i < 6)%nat -> r' i = factor lat i * r i) by (intros i Hi; pose proof (Hr i Hi) as H; rewrite A in H; cbn in H; congruence).
  assert (C' : forall i j, (i < 6)%nat -> (j < 6)%nat -> c' i j = factor lat i * factor lat j * c i j).
  { intros i j Hi Hj. pose proof (Hc i j Hi Hj) as H. rewrite B in H by auto. cbn in H. congruence. }
  assert (ext : forall a b g h, (forall i, (i < 6)%nat -> a i = b i) -> (forall i, (i < 6)%nat -> g i = h i) -> along6 a g = along6 b h).
  { intros a b g h X Y. unfold along6. rewrite !X, !Y by lia. reflexivity. }
  assert (unit : forall h i, (i < 6)%nat -> along6 (fun j => if Nat.eqb i j then 1 else 0) h = h i).
  { intros h. apply below6; unfold along6; cbn [Nat.eqb]; ring. }
  (* the inverse of the corrected covariance is the inverse divided by the factors *)
  assert (E : forall i j, (i < 6)%nat -> (j < 6)%nat -> factor lat i * P' i j * factor lat j = P i j).
  { intros i j Hi Hj.
    assert (Q : along6 (fun k => along6 (P i) (fun m => c m k)) (fun k => factor lat k * P' k j * factor lat j) = factor lat i * P' i j * factor lat j).
    { rewrite (ext _ (fun k => if Nat.eqb i k then 1 else 0) _ (fun k => factor lat k * P' k j * factor lat j)); auto. rewrite unit by auto. reflexivity.
      intros k Hk. apply IP; auto. }
    rewrite <- Q. replace (along6 (fun k => along6 (P i) (fun m => c m k)) (fun k => factor lat k * P' k j * factor lat j))
      with (along6 (P i) (fun m => along6 (c m) (fun k => factor lat k * P' k j * factor lat j))) by (unfold along6; ring).
    rewrite (ext _ (P i) _ (fun m => if Nat.eqb j m then 1 else 0)); auto.
    - transitivity (along6 (fun m => if Nat.eqb j m then 1 else 0) (P i)); [unfold along6; ring|]. rewrite unit by auto. reflexivity.
    - intros m Hm. pose proof (proj1 (IP' m j Hm Hj)) as I. rewrite (ext _ (fun k => factor lat m * factor lat k * c m k) _ (fun k => P' k j)) in I; auto.
      assert (I2 : factor lat m * along6 (c m) (fun k => factor lat k * P' k j * factor lat j) = factor lat j * (if Nat.eqb m j then 1 else 0)).
      { rewrite <- I. unfold along6. ring. }
      apply Rmult_eq_reg_l with (factor lat m); [|apply F]. rewrite I2. destruct (Nat.eqb_spec m j), (Nat.eqb_spec j m); subst; try contradiction; ring. }
  unfold chi2_of. rewrite (ext r' (fun i => factor lat i * r i) _ (fun i => along6 (P' i) (fun k => factor lat k * r k))); auto.
  - rewrite (ext r r (fun i => along6 (P i) r) (fun i => factor lat i * along6 (P' i) (fun k => factor lat k * r k))); auto.
    + unfold along6. ring.
    + intros i Hi. rewrite (ext (P i) (fun j => factor lat i * P' i j * factor lat j) r r); auto.
      * unfold along6. ring.
      * intros j Hj. symmetry. auto.
Qed.
Print Assumptions C298.
Example C298_case : cos (60 * PI / 180) <> 0
  /\ inverse_of (fun i j => if Nat.eqb i j then 4 else 0) (fun i j => if Nat.eqb i j then / 4 else 0)
  /\ exists P', inverse_of (fun i j => factor 60 i * factor 60 j * (if Nat.eqb i j then 4 else 0)) P'.
Proof.
  assert (C : cos (60 * PI / 180) = 1 / 2) by (replace (60 * PI / 180) with (PI / 3) by field; rewrite cos_PI3; lra).
  split; [lra|]. split.
  - intros i j Hi Hj. destruct i as [|[|[|[|[|[|i]]]]]]; try lia; destruct j as [|[|[|[|[|[|j]]]]]]; try lia; unfold along6; cbn [Nat.eqb]; split; field.
  - exists (fun i j => if Nat.eqb i j then (match i with 1%nat | 4%nat => 1 | _ => / 4 end) else 0).
    intros i j Hi Hj. unfold along6, factor. destruct i as [|[|[|[|[|[|i]]]]]]; try lia; destruct j as [|[|[|[|[|[|j]]]]]]; try lia; cbn [Nat.eqb]; rewrite ?C; split; field.
Qed.

(* the same for a row with missing values, in the dimensions that have values *)
Theorem C298_dims : forall lat (r : nat -> option R) (c : nat -> nat -> option R) ds rd cd P, cos (lat * PI / 180) <> 0 ->
  NoDup ds -> (forall i, In i ds -> (i < 6)%nat) ->
  (forall i, In i ds -> r i = Some (rd i)) -> (forall i j, In i ds -> In j ds -> c i j = Some (cd i j)) -> inverse_dims ds cd P ->
  forall r' c' P',
  (forall i, In i ds -> correct_residual lat r i = Some (r' i)) ->
  (forall i j, In i ds -> In j ds -> correct_covariance lat c i j = Some (c' i j)) ->
  inverse_dims ds c' P' -> chi2_dims ds P' r' = chi2_dims ds P rd.
Proof.
  intros lat r c ds rd cd P Nz N B Hr Hc IP r' c' P' Hr' Hc' IP'. destruct (C297 lat r c) as [A C].
  rewrite <- (chi2_scaled ds (factor lat) rd cd P P'); auto.
  - assert (R' : forall i, In i ds -> r' i = factor lat i * rd i).
    { intros i Hi. pose proof (Hr' i Hi) as H. rewrite A, (Hr i Hi) in H. cbn in H. congruence. }
    unfold chi2_dims. apply along_ext; auto. intros i Hi. apply along_ext; auto.
  - intros i _. unfold factor. destruct i as [|[|[|[|[|i]]]]]; auto; lra.
  - assert (C' : forall i j, In i ds -> In j ds -> factor lat i * factor lat j * cd i j = c' i j).
    { intros i j Hi Hj. pose proof (Hc' i j Hi Hj) as H. rewrite C, (Hc i j Hi Hj) in H by auto. cbn in H. congruence. }
    intros i j Hi Hj. destruct (IP' i j Hi Hj) as [X Y]. rewrite <- X at 1. rewrite <- Y. split; apply along_ext; intros; auto.
Qed.
Print Assumptions C298_dims.
Example C298_dims_case : inverse_dims [1%nat; 2%nat] (fun i j => if Nat.eqb i j then 4 else 0) (fun i j => if Nat.eqb i j then / 4 else 0) /\ NoDup [1%nat; 2%nat]
  /\ inverse_dims [1%nat; 2%nat] (fun i j => factor 60 i * factor 60 j * (if Nat.eqb i j then 4 else 0)) (fun i j => if Nat.eqb i j then (if Nat.eqb i 1 then 1 else / 4) else 0).
Proof.
  assert (C : cos (60 * PI / 180) = 1 / 2) by (replace (60 * PI / 180) with (PI / 3) by field; rewrite cos_PI3; lra).
  split; [|split].
  - intros i j [<-|[<-|[]]] [<-|[<-|[]]]; cbn; split; field.
  - constructor; [cbn; lia|]. constructor; [cbn; lia|]. constructor.
  - intros i j [<-|[<-|[]]] [<-|[<-|[]]]; cbn; rewrite ?C; split; field.
Qed.
