(* Lemmas about PsdModel.v. *)
From Coq Require Import Reals List Bool Lia Lra.
From Verif Require Import Base PsdModel PsdSpec.
Import ListNotations.
Open Scope R_scope.

Lemma sumn_ext n f g : (forall i, (i < n)%nat -> f i = g i) -> sumn n f = sumn n g.
Proof. induction n as [|n IH]; cbn; intros H; auto. rewrite H by lia. f_equal. apply IH. intros. apply H. lia. Qed.
Lemma sumn_plus n f g : sumn n (fun i => f i + g i) = sumn n f + sumn n g.
Proof. induction n as [|n IH]; cbn; [ring|]. rewrite IH. ring. Qed.
Lemma sumn_scale n c f : sumn n (fun i => c * f i) = c * sumn n f.
Proof. induction n as [|n IH]; cbn; [ring|]. rewrite IH. ring. Qed.
Lemma sumn_zero n : sumn n (fun _ => 0) = 0.
Proof. induction n as [|n IH]; cbn; [ring|]. rewrite IH. ring. Qed.

Lemma form_ext n M N x : (forall i j, (i < n)%nat -> (j < n)%nat -> M i j = N i j) -> form n M x = form n N x.
Proof. intros H. apply sumn_ext. intros i Hi. apply sumn_ext. intros j Hj. rewrite H; auto. Qed.
Lemma form_plus n M N x : form n (fun i j => M i j + N i j) x = form n M x + form n N x.
Proof.
  unfold form. rewrite <- sumn_plus. apply sumn_ext. intros i _. rewrite <- sumn_plus. apply sumn_ext. intros j _. ring.
Qed.
Lemma form_rank1 n w v x : form n (fun i j => w * v i * v j) x = w * dotn n v x ^ 2.
Proof.
  unfold form. rewrite (sumn_ext n _ (fun i => (w * dotn n v x) * (v i * x i))).
  - rewrite sumn_scale. fold (dotn n v x). ring.
  - intros i _. rewrite (sumn_ext n _ (fun j => (w * v i * x i) * (v j * x j))) by (intros; ring). rewrite sumn_scale. fold (dotn n v x). ring.
Qed.

Definition wsum (n : nat) (e : eig) (x : nat -> R) : R := fold_right (fun p s => fst p * dotn n (snd p) x ^ 2 + s) 0 e.
Lemma form_rebuild n e x : form n (rebuild e) x = wsum n e x.
Proof.
  induction e as [|[w v] e IH].
  - unfold form, rebuild, wsum. cbn. rewrite (sumn_ext n _ (fun _ => 0)); [apply sumn_zero|]. intros i _.
    rewrite (sumn_ext n _ (fun _ => 0)); [apply sumn_zero|]. intros; ring.
  - unfold rebuild, wsum. cbn [fold_right fst snd]. fold (rebuild e). fold (wsum n e x).
    rewrite (form_plus n (fun i j => w * v i * v j) (fun i j => fold_right (fun p s => fst p * snd p i * snd p j + s) 0 e)).
    rewrite form_rank1. f_equal. exact IH.
Qed.
Lemma rebuild_back n M e i j : decomposition n M e -> (i < n)%nat -> (j < n)%nat -> rebuild e i j = M i j.
Proof. intros (D & _) Hi Hj. rewrite D by auto. unfold rebuild. clear. induction e as [|p e IH]; cbn; auto. rewrite IH. ring. Qed.
Lemma form_wsum n M e x : decomposition n M e -> form n M x = wsum n e x.
Proof. intros D. rewrite <- form_rebuild. apply form_ext. intros. symmetry. apply (rebuild_back n M e); auto. Qed.

Lemma make_psd_err eigh tol cov : make_psd eigh tol cov = Err ValueError <-> exists p, In p (eigh cov) /\ fst p < - tol.
Proof.
  unfold make_psd. destruct (existsb _ (eigh cov)) eqn:X.
  - split; auto. intros _. apply existsb_exists in X. destruct X as (p & Hp & H). exists p. destruct (Rlt_dec (fst p) (- tol)); [auto|discriminate].
  - split; [discriminate|]. intros (p & Hp & H). assert (Y : existsb (fun p => if Rlt_dec (fst p) (- tol) then true else false) (eigh cov) = true).
    { apply existsb_exists. exists p. split; auto. destruct (Rlt_dec (fst p) (- tol)); [reflexivity|contradiction]. }
    congruence.
Qed.
Lemma make_psd_ok eigh tol cov M : make_psd eigh tol cov = Ok M ->
  M = rebuild (map (fun p => (flip tol (fst p), snd p)) (eigh cov)) /\ forall p, In p (eigh cov) -> - tol <= fst p.
Proof.
  intros H. assert (N : ~ exists p, In p (eigh cov) /\ fst p < - tol) by (rewrite <- make_psd_err; congruence).
  split.
  - unfold make_psd in H. destruct (existsb _ (eigh cov)); [discriminate|]. congruence.
  - intros p Hp. apply Rnot_lt_le. intros L. apply N. eauto.
Qed.

Lemma flip_nonneg tol w : - tol < w -> 0 <= flip tol w.
Proof.
  intros H. unfold flip. destruct (Rlt_dec w 0); [|lra]. destruct (Rlt_dec (Rabs w) tol) as [L|L]; [lra|]. rewrite Rabs_left in L by auto. lra.
Qed.
Lemma flip_same tol w : 0 <= w -> flip tol w = w.
Proof. intros H. unfold flip. destruct (Rlt_dec w 0); [lra|reflexivity]. Qed.
Lemma flip_near tol w : - tol <= w -> 0 <= tol -> w <= flip tol w <= w + 2 * tol.
Proof.
  intros H T. unfold flip. destruct (Rlt_dec w 0); [|lra]. destruct (Rlt_dec (Rabs w) tol); lra.
Qed.

Lemma wsum_flip n tol e x : (forall p, In p e -> - tol <= fst p) -> 0 <= tol ->
  wsum n e x <= wsum n (map (fun p => (flip tol (fst p), snd p)) e) x <= wsum n e x + 2 * tol * fold_right (fun p s => dotn n (snd p) x ^ 2 + s) 0 e.
Proof.
  intros H T. unfold wsum. induction e as [|[w v] e IH]; cbn [map fold_right fst snd]. lra.
  assert (I := IH (fun p Hp => H p (or_intror Hp))). pose proof (flip_near tol w (H (w, v) (or_introl eq_refl)) T) as [F1 F2].
  pose proof (pow2_ge_0 (dotn n v x)) as Q. set (q := dotn n v x ^ 2) in *.
  assert (w * q <= flip tol w * q) by (apply Rmult_le_compat_r; lra). assert (flip tol w * q <= (w + 2 * tol) * q) by (apply Rmult_le_compat_r; lra). lra.
Qed.
Lemma wsum_nonneg n e x : (forall p, In p e -> 0 <= fst p) -> 0 <= wsum n e x.
Proof.
  intros H. unfold wsum. induction e as [|[w v] e IH]; cbn [fold_right fst snd]. lra. pose proof (IH (fun p Hp => H p (or_intror Hp))).
  pose proof (Rmult_le_pos _ _ (H (w, v) (or_introl eq_refl)) (pow2_ge_0 (dotn n v x))). cbn [fst] in *. lra.
Qed.
Lemma wsum_lower n tol e x : (forall p, In p e -> - tol <= fst p) -> - tol * fold_right (fun p s => dotn n (snd p) x ^ 2 + s) 0 e <= wsum n e x.
Proof.
  intros H. unfold wsum. induction e as [|[w v] e IH]; cbn [fold_right fst snd]. lra. pose proof (IH (fun p Hp => H p (or_intror Hp))).
  pose proof (H (w, v) (or_introl eq_refl)) as L. cbn in L. pose proof (Rmult_le_compat_r _ _ _ (pow2_ge_0 (dotn n v x)) L). lra.
Qed.

Lemma below6 (P : nat -> Prop) : P 0%nat -> P 1%nat -> P 2%nat -> P 3%nat -> P 4%nat -> P 5%nat -> forall i, (i < 6)%nat -> P i.
Proof. intros. destruct i as [|[|[|[|[|[|i]]]]]]; auto. lia. Qed.
Lemma diag_factor lat i : diag lat i = factor lat i.
Proof.
  assert (C : cos_lat lat = cos (lat * PI / 180)) by (unfold cos_lat; f_equal; field).
  unfold diag, factor. rewrite C. destruct i as [|[|[|[|[|i]]]]]; reflexivity.
Qed.
Lemma sandwich lat m i j : (i < 6)%nat -> (j < 6)%nat ->
  matmul (matmul (cos_lat_cov lat) m) (fun i j => cos_lat_cov lat j i) i j = factor lat i * factor lat j * m i j.
Proof.
  intros Hi Hj. rewrite <- !diag_factor. unfold matmul, cos_lat_cov.
  destruct i as [|[|[|[|[|[|i]]]]]]; try lia; destruct j as [|[|[|[|[|[|j]]]]]]; try lia; cbn [Nat.eqb]; ring.
Qed.

(* ---- sums over a list of dimensions ---- *)
Lemma along_cons k ds a h : along_dims (k :: ds) a h = a k * h k + along_dims ds a h.
Proof. reflexivity. Qed.
Lemma along_nil a h : along_dims [] a h = 0.
Proof. reflexivity. Qed.
Lemma along_ext ds a b g h : (forall i, In i ds -> a i = b i) -> (forall i, In i ds -> g i = h i) -> along_dims ds a g = along_dims ds b h.
Proof.
  induction ds as [|k ds IH]; intros X Y; auto. rewrite !along_cons, X, Y by (left; auto). f_equal. apply IH; intros; [apply X|apply Y]; right; auto.
Qed.
Lemma along_scale ds c a h : along_dims ds a (fun k => c * h k) = c * along_dims ds a h.
Proof. induction ds as [|k ds IH]; [rewrite ?along_nil; ring|]. rewrite !along_cons, IH. ring. Qed.
Lemma along_comm ds a h : along_dims ds a h = along_dims ds h a.
Proof. induction ds as [|k ds IH]; [rewrite ?along_nil; ring|]. rewrite !along_cons, IH. ring. Qed.
Lemma along_plus ds a g h : along_dims ds a (fun k => g k + h k) = along_dims ds a g + along_dims ds a h.
Proof. induction ds as [|k ds IH]; [rewrite ?along_nil; ring|]. rewrite !along_cons, IH. ring. Qed.
Lemma along_swap ds es a (m : nat -> nat -> R) h :
  along_dims ds (fun k => along_dims es a (fun l => m l k)) h = along_dims es a (fun l => along_dims ds (m l) h).
Proof.
  induction ds as [|k ds IH].
  - rewrite along_nil. induction es as [|l es IH]; auto. rewrite along_cons, <- IH, along_nil. ring.
  - rewrite along_cons, IH. rewrite (along_ext es a a (fun l => along_dims (k :: ds) (m l) h) (fun l => h k * m l k + along_dims ds (m l) h)); auto.
    + rewrite (along_plus es a (fun l => h k * m l k) (fun l => along_dims ds (m l) h)), (along_scale es (h k) a (fun l => m l k)). ring.
    + intros l _. rewrite along_cons. ring.
Qed.
Lemma along_zero ds i h : ~ In i ds -> along_dims ds (fun j => if Nat.eqb i j then 1 else 0) h = 0.
Proof.
  induction ds as [|k ds IH]; intros N; auto. rewrite along_cons, IH by (intros X; apply N; right; auto). destruct (Nat.eqb_spec i k); [subst; destruct N; left; auto|ring].
Qed.
Lemma along_unit ds i h : NoDup ds -> In i ds -> along_dims ds (fun j => if Nat.eqb i j then 1 else 0) h = h i.
Proof.
  induction ds as [|k ds IH]; intros N I; [destruct I|]. inversion N; subst. rewrite along_cons.
  destruct (Nat.eqb_spec i k).
  - subst. rewrite along_zero by auto. ring.
  - destruct I as [->|I]; [tauto|]. rewrite IH by auto. ring.
Qed.
Lemma along_move ds f r h : along_dims ds (fun i => f i * r i) h = along_dims ds r (fun i => f i * h i).
Proof. induction ds as [|k ds IH]; auto. rewrite !along_cons, IH. ring. Qed.
Lemma chi2_scaled ds (f r : nat -> R) (c P P' : nat -> nat -> R) : NoDup ds -> (forall i, In i ds -> f i <> 0) -> inverse_dims ds c P ->
  inverse_dims ds (fun i j => f i * f j * c i j) P' -> chi2_dims ds P' (fun i => f i * r i) = chi2_dims ds P r.
Proof.
  intros N F I I'.
  assert (E : forall i j, In i ds -> In j ds -> f i * P' i j * f j = P i j).
  { intros i j Hi Hj. set (g := fun k => f k * P' k j * f j).
    assert (Q : along_dims ds (fun k => along_dims ds (P i) (fun m => c m k)) g = g i).
    { rewrite (along_ext ds _ (fun k => if Nat.eqb i k then 1 else 0) g g); auto; [apply along_unit; auto|]. intros k Hk. apply I; auto. }
    change (f i * P' i j * f j) with (g i). rewrite <- Q, along_swap. rewrite (along_ext ds (P i) (P i) _ (fun m => if Nat.eqb j m then 1 else 0)); auto.
    - rewrite along_comm. apply along_unit; auto.
    - intros m Hm. pose proof (proj1 (I' m j Hm Hj)) as J.
      apply Rmult_eq_reg_l with (f m); [|auto]. rewrite <- along_scale. transitivity (f j * (if Nat.eqb m j then 1 else 0)).
      + rewrite <- J. rewrite <- along_scale. unfold g. clear. induction ds as [|k ds IH]; auto. rewrite !along_cons, IH. ring.
      + destruct (Nat.eqb_spec m j), (Nat.eqb_spec j m); subst; try contradiction; ring. }
  unfold chi2_dims. rewrite (along_ext ds r r (fun i => along_dims ds (P i) r) (fun i => f i * along_dims ds (P' i) (fun k => f k * r k))); auto.
  - apply (along_move ds f r (fun i => along_dims ds (P' i) (fun k => f k * r k))).
  - intros i Hi. rewrite (along_ext ds (P i) (fun j => f i * P' i j * f j) r r); auto; [|intros; symmetry; auto].
    clear. induction ds as [|k ds IH]; [rewrite !along_nil; ring|]. rewrite !along_cons, IH. ring.
Qed.
