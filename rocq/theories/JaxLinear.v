(* Linear algebra on lists: ridge normal matrices are positive definite, positive definite systems have one
   solution, elimination finds it, and zero rows or columns do not matter. *)
From Coq Require Import Reals Lra Lia.
From Coq Require Import List String Bool ZArith.
From Verif Require Import Base StrOrder PhotModel RotModel JaxModel JaxSpec.
Import ListNotations.
Open Scope list_scope.
Open Scope R_scope.

Lemma rsum_app a b : rsum (a ++ b) = rsum a + rsum b.
Proof. unfold rsum. induction a as [|x a IH]; cbn; [|rewrite IH]; lra. Qed.
Lemma rsum_ext {A} (f g : A -> R) l : (forall x, In x l -> f x = g x) -> rsum (map f l) = rsum (map g l).
Proof. intros H. f_equal. apply map_ext_in. exact H. Qed.
Lemma rsum_zero {A} (f : A -> R) l : (forall x, In x l -> f x = 0) -> rsum (map f l) = 0.
Proof. induction l as [|x l IH]; intros H; [reflexivity|]. cbn. rewrite H by (left; reflexivity). fold (rsum (map f l)). rewrite IH by (intros; apply H; right; assumption). lra. Qed.
Lemma rsum_plus {A} (f g : A -> R) l : rsum (map (fun x => f x + g x) l) = rsum (map f l) + rsum (map g l).
Proof. induction l as [|x l IH]; cbn; [lra|]. unfold rsum in *. rewrite IH. lra. Qed.
Lemma rsum_scal {A} (k : R) (f : A -> R) l : rsum (map (fun x => k * f x) l) = k * rsum (map f l).
Proof. induction l as [|x l IH]; cbn; [lra|]. unfold rsum in *. rewrite IH. lra. Qed.
Lemma rsum_swap {A B} (f : A -> B -> R) l m :
  rsum (map (fun x => rsum (map (f x) m)) l) = rsum (map (fun y => rsum (map (fun x => f x y) l)) m).
Proof.
  induction l as [|x l IH]; cbn [map].
  - symmetry. apply rsum_zero. reflexivity.
  - transitivity (rsum (map (f x) m) + rsum (map (fun x0 => rsum (map (f x0) m)) l)); [reflexivity|].
    rewrite IH, <- rsum_plus. apply rsum_ext. reflexivity.
Qed.
Lemma rsum_nonneg l : (forall x, In x l -> 0 <= x) -> 0 <= rsum l.
Proof. induction l as [|x l IH]; intros H; cbn; [lra|]. fold (rsum l). pose proof (H x (or_introl eq_refl)). pose proof (IH (fun y h => H y (or_intror h))). lra. Qed.
Lemma rsum_pos l v : (forall x, In x l -> 0 <= x) -> In v l -> 0 < v -> 0 < rsum l.
Proof.
  induction l as [|x l IH]; intros H I P; [destruct I|]. cbn. fold (rsum l).
  pose proof (H x (or_introl eq_refl)). pose proof (rsum_nonneg l (fun y h => H y (or_intror h))).
  destruct I as [<-|I]; [lra|]. pose proof (IH (fun y h => H y (or_intror h)) I P). lra.
Qed.

Lemma dotp_cons a l b m : dotp (a :: l) (b :: m) = a * b + dotp l m.
Proof. reflexivity. Qed.
Lemma dotp_nil_r l : dotp l [] = 0.
Proof. destruct l; reflexivity. Qed.
Lemma dotp_comm a : forall b, dotp a b = dotp b a.
Proof. induction a as [|x a IH]; intros [|y b]; try reflexivity. rewrite !dotp_cons, IH. lra. Qed.
Lemma dotp_app a b : forall c d, List.length a = List.length c -> dotp (a ++ b) (c ++ d) = dotp a c + dotp b d.
Proof.
  induction a as [|x a IH]; intros [|y c] d H; try discriminate; [change (dotp b d = 0 + dotp b d); lra|].
  injection H as H. cbn [app]. rewrite !dotp_cons, IH by exact H. lra.
Qed.
Lemma dotp_zeros n : forall c, dotp (zeros n) c = 0.
Proof. induction n as [|n IH]; intros [|y c]; try reflexivity. unfold zeros in *. cbn [repeat]. rewrite dotp_cons, IH. lra. Qed.
Lemma seq_shift_map {A} (f : nat -> A) n : map f (seq 1 n) = map (fun i => f (S i)) (seq 0 n).
Proof. rewrite <- seq_shift, map_map. reflexivity. Qed.
Lemma dotp_seq a : forall b, List.length a = List.length b ->
  dotp a b = rsum (map (fun j => nth j a 0 * nth j b 0) (seq 0 (List.length a))).
Proof.
  induction a as [|x a IH]; intros [|y b] H; try discriminate; [reflexivity|]. injection H as H.
  rewrite dotp_cons, (IH b H). cbn [List.length seq map]. rewrite seq_shift_map. reflexivity.
Qed.
Lemma dotp_tab (f : nat -> R) n b : List.length b = n -> dotp (map f (seq 0 n)) b = rsum (map (fun j => f j * nth j b 0) (seq 0 n)).
Proof.
  intros H. rewrite dotp_seq by (rewrite map_length, seq_length; congruence). rewrite map_length, seq_length.
  apply rsum_ext. intros j Hj. apply in_seq in Hj. f_equal.
  rewrite (nth_indep _ 0 (f 0%nat)) by (rewrite map_length, seq_length; lia). rewrite map_nth, seq_nth by lia. reflexivity.
Qed.
Lemma delta_sum n i (g : nat -> R) e : (i < n)%nat -> rsum (map (fun j => (if Nat.eqb i j then e else 0) * g j) (seq 0 n)) = e * g i.
Proof.
  intros H. replace n with (i + (1 + (n - i - 1)))%nat by lia. rewrite seq_app, map_app, rsum_app.
  rewrite rsum_zero. 2:{ intros j Hj. apply in_seq in Hj. destruct (Nat.eqb_spec i j); [lia|lra]. }
  rewrite seq_app, map_app, rsum_app. cbn [seq map]. rewrite (rsum_zero _ (seq (0 + i + 1) _)).
  2:{ intros j Hj. apply in_seq in Hj. destruct (Nat.eqb_spec i j); [lia|lra]. }
  replace (0 + i)%nat with i by lia. rewrite Nat.eqb_refl. cbn. lra.
Qed.

(* ---- the normal matrix ---- *)
Lemma ridge_pos : 0 < ridge.
Proof. unfold ridge. apply Rinv_0_lt_compat. apply pow_lt. lra. Qed.
Lemma matrix_length n X : List.length (normal_matrix n X) = n.
Proof. unfold normal_matrix. rewrite map_length, seq_length. reflexivity. Qed.
Lemma matrix_square n X : square (normal_matrix n X).
Proof.
  intros r H. rewrite matrix_length. unfold normal_matrix in H. apply in_map_iff in H. destruct H as (i & <- & _).
  rewrite map_length, seq_length. reflexivity.
Qed.
Lemma rhs_length n X t : List.length (normal_rhs n X t) = n.
Proof. unfold normal_rhs. rewrite map_length, seq_length. reflexivity. Qed.
Lemma matrix_mul n X c : (forall r, In r X -> List.length r = n) -> List.length c = n ->
  matvec (normal_matrix n X) c = map (fun i => rsum (map (fun r => nth i r 0 * dotp r c) X) + ridge * nth i c 0) (seq 0 n).
Proof.
  intros HX Hc. unfold matvec, normal_matrix. rewrite map_map. apply map_ext_in. intros i Hi. apply in_seq in Hi.
  rewrite dotp_tab by exact Hc.
  rewrite (rsum_ext _ (fun j => rsum (map (fun r => nth i r 0 * nth j r 0 * nth j c 0) X) + (if Nat.eqb i j then ridge else 0) * nth j c 0)).
  2:{ intros j _. rewrite Rmult_plus_distr_r. f_equal. rewrite Rmult_comm, <- rsum_scal. apply rsum_ext. intros; lra. }
  rewrite rsum_plus, delta_sum by lia. f_equal. rewrite rsum_swap. apply rsum_ext. intros r Hr.
  rewrite (rsum_ext _ (fun j => nth i r 0 * (nth j r 0 * nth j c 0))) by (intros; lra). rewrite rsum_scal. f_equal.
  rewrite dotp_seq by (rewrite (HX r Hr); congruence). rewrite (HX r Hr). reflexivity.
Qed.
Lemma matrix_form n X c : (forall r, In r X -> List.length r = n) -> List.length c = n ->
  dotp c (matvec (normal_matrix n X) c) = rsum (map (fun r => dotp r c * dotp r c) X) + ridge * norm2 c.
Proof.
  intros HX Hc. rewrite matrix_mul by assumption. rewrite dotp_comm, dotp_tab by exact Hc.
  rewrite (rsum_ext _ (fun j => rsum (map (fun r => nth j r 0 * dotp r c * nth j c 0) X) + ridge * (nth j c 0 * nth j c 0))).
  2:{ intros j _. rewrite Rmult_plus_distr_r. f_equal; [|lra]. rewrite Rmult_comm, <- rsum_scal. apply rsum_ext. intros; lra. }
  rewrite rsum_plus, rsum_scal. f_equal.
  - rewrite rsum_swap. apply rsum_ext. intros r Hr.
    rewrite (rsum_ext _ (fun j => dotp r c * (nth j r 0 * nth j c 0))) by (intros; lra). rewrite rsum_scal. f_equal.
    rewrite dotp_seq by (rewrite (HX r Hr); congruence). rewrite (HX r Hr). reflexivity.
  - f_equal. transitivity (dotp c c); [rewrite dotp_seq by reflexivity; rewrite Hc; reflexivity|].
    unfold norm2. clear. induction c as [|x c IH]; [reflexivity|]. rewrite dotp_cons, IH. reflexivity.
Qed.
Lemma norm2_nonneg c : 0 <= norm2 c.
Proof. apply rsum_nonneg. intros x H. apply in_map_iff in H. destruct H as (v & <- & _). nra. Qed.
Lemma norm2_pos c : nonzero c -> 0 < norm2 c.
Proof.
  intros (v & Hv & N). apply (rsum_pos _ (v * v)).
  - intros x H. apply in_map_iff in H. destruct H as (w & <- & _). nra.
  - apply in_map_iff. exists v. split; [reflexivity|exact Hv].
  - nra.
Qed.
Lemma matrix_posdef n X : (forall r, In r X -> List.length r = n) -> posdef (normal_matrix n X).
Proof.
  intros HX x Hx N. rewrite matrix_length in Hx. rewrite matrix_form by assumption.
  assert (0 <= rsum (map (fun r => dotp r x * dotp r x) X)) by (apply rsum_nonneg; intros v H; apply in_map_iff in H; destruct H as (r & <- & _); nra).
  pose proof (norm2_pos x N). pose proof ridge_pos. nra.
Qed.

(* ---- one solution ---- *)
Definition vsub (a b : list R) : list R := map (fun p => fst p - snd p) (combine a b).
Lemma vsub_length a b : List.length a = List.length b -> List.length (vsub a b) = List.length a.
Proof. intros H. unfold vsub. rewrite map_length, combine_length. lia. Qed.
Lemma dotp_vsub r : forall a b, List.length a = List.length b -> dotp r (vsub a b) = dotp r a - dotp r b.
Proof.
  induction r as [|x r IH]; intros [|y a] [|z b] H; try discriminate; try (unfold dotp; cbn; lra).
  injection H as H. unfold vsub. cbn [combine map fst snd]. rewrite !dotp_cons. fold (vsub a b). rewrite IH by exact H. lra.
Qed.
Lemma vsub_zero : forall a b, List.length a = List.length b -> (forall v, In v (vsub a b) -> v = 0) -> a = b.
Proof.
  induction a as [|x a IH]; intros [|y b] H K; try discriminate; [reflexivity|]. injection H as H.
  pose proof (K (x - y) (or_introl eq_refl)). f_equal; [lra|]. apply IH; [exact H|]. intros v Hv. apply K. right. exact Hv.
Qed.
Lemma posdef_unique a x y : List.length x = List.length a -> List.length y = List.length a -> posdef a ->
  matvec a x = matvec a y -> x = y.
Proof.
  intros Hx Hy P E.
  assert (D : nonzero (vsub x y) \/ forall v, In v (vsub x y) -> v = 0).
  { generalize (vsub x y) as l. induction l as [|v l IH]; [right; intros v []|].
    destruct (Req_dec v 0) as [Z|N]; [|left; exists v; split; [left; reflexivity|exact N]].
    destruct IH as [(w & Hw & N)|K]; [left; exists w; split; [right; exact Hw|exact N]|].
    right. intros w [<-|Hw]; [exact Z|exact (K w Hw)]. }
  destruct D as [N|Z]; [|apply vsub_zero; [congruence|exact Z]]. exfalso.
  assert (L : List.length (vsub x y) = List.length a) by (rewrite vsub_length; congruence).
  pose proof (P _ L N) as Q.
  assert (M : matvec a (vsub x y) = zeros (List.length a)).
  { unfold matvec in *. clear - E Hx Hy. assert (L : List.length x = List.length y) by congruence. clear Hx Hy.
    revert E. induction a as [|r a IH]; [reflexivity|]. cbn [map List.length]. intros E. injection E as E1 E2. unfold zeros in *. cbn [repeat].
    rewrite IH by exact E2. f_equal. rewrite dotp_vsub by exact L. lra. }
  rewrite M, dotp_comm, dotp_zeros in Q. lra.
Qed.
Lemma solver_is solver X n t c : solves solver -> (forall r, In r X -> List.length r = n) -> List.length c = n ->
  matvec (normal_matrix n X) c = normal_rhs n X t -> solver (normal_matrix n X) (normal_rhs n X t) = c.
Proof.
  intros S HX Hc E. destruct (S (normal_matrix n X) (normal_rhs n X t)) as [L M].
  - apply matrix_square.
  - rewrite rhs_length, matrix_length. reflexivity.
  - apply matrix_posdef. exact HX.
  - apply (posdef_unique (normal_matrix n X)); [exact L|rewrite matrix_length; exact Hc|apply matrix_posdef; exact HX|congruence].
Qed.
Lemma solver_ok solver X n t : solves solver -> (forall r, In r X -> List.length r = n) ->
  List.length (solver (normal_matrix n X) (normal_rhs n X t)) = n /\
  matvec (normal_matrix n X) (solver (normal_matrix n X) (normal_rhs n X t)) = normal_rhs n X t.
Proof.
  intros S HX. destruct (S (normal_matrix n X) (normal_rhs n X t)) as [L M].
  - apply matrix_square.
  - rewrite rhs_length, matrix_length. reflexivity.
  - apply matrix_posdef. exact HX.
  - rewrite matrix_length in L. split; assumption.
Qed.

(* ---- padded columns ---- *)
Lemma pad_length nf p r : (nf <= List.length r)%nat -> List.length (pad_cols nf p r) = (List.length r + p)%nat.
Proof. intros H. unfold pad_cols, zeros. rewrite !app_length, repeat_length, firstn_length, skipn_length. lia. Qed.
Lemma pad_dotp nf p a b : List.length a = List.length b -> dotp (pad_cols nf p a) (pad_cols nf p b) = dotp a b.
Proof.
  intros H. unfold pad_cols. rewrite dotp_app by (rewrite !firstn_length; lia). rewrite dotp_app by reflexivity.
  rewrite dotp_zeros. transitivity (dotp (firstn nf a ++ skipn nf a) (firstn nf b ++ skipn nf b)).
  - rewrite dotp_app by (rewrite !firstn_length; lia). lra.
  - rewrite !firstn_skipn. reflexivity.
Qed.
Lemma nth_zeros n i : nth i (zeros n) 0 = 0.
Proof. unfold zeros. revert i. induction n as [|n IH]; intros [|i]; cbn; auto. Qed.
Lemma pad_nth nf p r i : (nf <= List.length r)%nat ->
  nth i (pad_cols nf p r) 0 = if Nat.ltb i nf then nth i r 0 else if Nat.ltb i (nf + p) then 0 else nth (i - p) r 0.
Proof.
  intros H. assert (L : List.length (firstn nf r) = nf) by (rewrite firstn_length; lia). unfold pad_cols.
  destruct (Nat.ltb_spec i nf) as [A|A].
  - rewrite app_nth1 by lia. rewrite <- (firstn_skipn nf r) at 2. rewrite app_nth1 by lia. reflexivity.
  - rewrite app_nth2 by lia. rewrite L. destruct (Nat.ltb_spec i (nf + p)) as [B|B].
    + rewrite app_nth1 by (unfold zeros; rewrite repeat_length; lia). apply nth_zeros.
    + rewrite app_nth2 by (unfold zeros; rewrite repeat_length; lia). unfold zeros. rewrite repeat_length.
      rewrite <- (firstn_skipn nf r) at 2. rewrite app_nth2 by lia. rewrite L. f_equal. lia.
Qed.
Lemma nth_tab (f : nat -> R) n i : (i < n)%nat -> nth i (map f (seq 0 n)) 0 = f i.
Proof.
  intros H. rewrite (nth_indep _ 0 (f 0%nat)) by (rewrite map_length, seq_length; lia). rewrite map_nth, seq_nth by lia. reflexivity.
Qed.
Lemma nth_eq_tab (f g : nat -> R) n i : map f (seq 0 n) = map g (seq 0 n) -> (i < n)%nat -> f i = g i.
Proof. intros E H. rewrite <- (nth_tab f n i H), <- (nth_tab g n i H), E. reflexivity. Qed.
Lemma combine_map_l {A B C} (f : A -> C) (l : list A) (m : list B) : combine (map f l) m = map (fun p => (f (fst p), snd p)) (combine l m).
Proof. revert m. induction l as [|x l IH]; intros [|y m]; cbn; congruence. Qed.
(* the padded system has the padded solution *)
Lemma padded_solution nf p n X t c : (nf <= n)%nat -> (forall r, In r X -> List.length r = n) -> List.length c = n ->
  matvec (normal_matrix n X) c = normal_rhs n X t ->
  matvec (normal_matrix (n + p) (map (pad_cols nf p) X)) (pad_cols nf p c) = normal_rhs (n + p) (map (pad_cols nf p) X) t.
Proof.
  intros Hn HX Hc E. rewrite matrix_mul in E by assumption. rewrite matrix_mul.
  2:{ intros r Hr. apply in_map_iff in Hr. destruct Hr as (s & <- & Hs). rewrite pad_length; rewrite (HX s Hs); [reflexivity|exact Hn]. }
  2:{ rewrite pad_length; rewrite Hc; [reflexivity|exact Hn]. }
  unfold normal_rhs in *. apply map_ext_in. intros i Hi. apply in_seq in Hi. rewrite combine_map_l, !map_map. cbn [fst snd].
  rewrite (rsum_ext _ (fun r => nth i (pad_cols nf p r) 0 * dotp r c)).
  2:{ intros r Hr. rewrite pad_dotp by (rewrite (HX r Hr); congruence). reflexivity. }
  rewrite pad_nth by lia.
  assert (HC : forall q, In q (combine X t) -> (nf <= List.length (fst q))%nat).
  { intros [r v] Hq. apply in_combine_l in Hq. cbn. rewrite (HX r Hq). exact Hn. }
  destruct (Nat.ltb_spec i nf) as [A|A]; [|destruct (Nat.ltb_spec i (nf + p)) as [B|B]].
  - rewrite (rsum_ext _ (fun r => nth i r 0 * dotp r c)).
    2:{ intros r Hr. rewrite pad_nth by (rewrite (HX r Hr); exact Hn). destruct (Nat.ltb_spec i nf); [reflexivity|lia]. }
    rewrite (rsum_ext _ (fun q => nth i (fst q) 0 * snd q)).
    2:{ intros q Hq. rewrite pad_nth by (apply HC; exact Hq). destruct (Nat.ltb_spec i nf); [reflexivity|lia]. }
    exact (nth_eq_tab (fun i => rsum (map (fun r => nth i r 0 * dotp r c) X) + ridge * nth i c 0) _ n i E ltac:(lia)).
  - rewrite rsum_zero. 2:{ intros r Hr. rewrite pad_nth by (rewrite (HX r Hr); exact Hn).
      destruct (Nat.ltb_spec i nf); [lia|]. destruct (Nat.ltb_spec i (nf + p)); [lra|lia]. }
    rewrite rsum_zero; [lra|]. intros q Hq. rewrite pad_nth by (apply HC; exact Hq).
    destruct (Nat.ltb_spec i nf); [lia|]. destruct (Nat.ltb_spec i (nf + p)); [lra|lia].
  - rewrite (rsum_ext _ (fun r => nth (i - p) r 0 * dotp r c)).
    2:{ intros r Hr. rewrite pad_nth by (rewrite (HX r Hr); exact Hn). destruct (Nat.ltb_spec i nf); [lia|].
        destruct (Nat.ltb_spec i (nf + p)); [lia|reflexivity]. }
    rewrite (rsum_ext (fun x => nth i (pad_cols nf p (fst x)) 0 * snd x) (fun q => nth (i - p) (fst q) 0 * snd q)).
    2:{ intros q Hq. rewrite pad_nth by (apply HC; exact Hq). destruct (Nat.ltb_spec i nf); [lia|].
        destruct (Nat.ltb_spec i (nf + p)); [lia|reflexivity]. }
    exact (nth_eq_tab (fun i => rsum (map (fun r => nth i r 0 * dotp r c) X) + ridge * nth i c 0) _ n (i - p) E ltac:(lia)).
Qed.
Lemma padded_solver solver nf p n X t : solves solver -> (nf <= n)%nat -> (forall r, In r X -> List.length r = n) ->
  solver (normal_matrix (n + p) (map (pad_cols nf p) X)) (normal_rhs (n + p) (map (pad_cols nf p) X) t) =
  pad_cols nf p (solver (normal_matrix n X) (normal_rhs n X t)).
Proof.
  intros S Hn HX. destruct (solver_ok solver X n t S HX) as [L M]. apply solver_is; [exact S| | |].
  - intros r Hr. apply in_map_iff in Hr. destruct Hr as (s & <- & Hs). rewrite pad_length; rewrite (HX s Hs); [reflexivity|exact Hn].
  - rewrite pad_length; rewrite L; [reflexivity|exact Hn].
  - apply padded_solution; assumption.
Qed.

(* ---- rows of zeros ---- *)
Lemma filtered_matrix n X (keep : list bool) : List.length keep = List.length X ->
  (forall r b, In (b, r) (combine keep X) -> b = false -> forall i, nth i r 0 = 0) ->
  normal_matrix n X = normal_matrix n (masked keep X).
Proof.
  intros HL HZ. unfold normal_matrix. apply map_ext. intros i. apply map_ext. intros j. f_equal.
  revert X HL HZ. induction keep as [|b keep IH]; intros [|r X] HL HZ; try discriminate; [reflexivity|]. injection HL as HL.
  assert (E := IH X HL (fun r0 b0 h => HZ r0 b0 (or_intror h))).
  pose proof (HZ r b (or_introl eq_refl)) as Z. destruct b; cbn [masked map].
  - transitivity (nth i r 0 * nth j r 0 + rsum (map (fun r0 => nth i r0 0 * nth j r0 0) X)); [reflexivity|]. rewrite E. reflexivity.
  - transitivity (nth i r 0 * nth j r 0 + rsum (map (fun r0 => nth i r0 0 * nth j r0 0) X)); [reflexivity|]. rewrite E, (Z eq_refl i). lra.
Qed.
Lemma filtered_rhs n X (keep : list bool) : forall t, List.length keep = List.length X -> List.length t = List.length X ->
  (forall r b, In (b, r) (combine keep X) -> b = false -> forall i, nth i r 0 = 0) ->
  normal_rhs n X t = normal_rhs n (masked keep X) (masked keep t).
Proof.
  intros t HL HT HZ. unfold normal_rhs. apply map_ext. intros i.
  revert X t HL HT HZ. induction keep as [|b keep IH]; intros [|r X] [|y t] HL HT HZ; try discriminate; [reflexivity|].
  injection HL as HL. injection HT as HT.
  assert (E := IH X t HL HT (fun r0 b0 h => HZ r0 b0 (or_intror h))).
  pose proof (HZ r b (or_introl eq_refl)) as Z. destruct b; cbn [masked combine map fst snd].
  - transitivity (nth i r 0 * y + rsum (map (fun p => nth i (fst p) 0 * snd p) (combine X t))); [reflexivity|]. rewrite E. reflexivity.
  - transitivity (nth i r 0 * y + rsum (map (fun p => nth i (fst p) 0 * snd p) (combine X t))); [reflexivity|]. rewrite E, (Z eq_refl i). lra.
Qed.

(* ---- a solver by elimination ---- *)
Definition axpy (k : R) (x y : list R) : list R := map (fun p => snd p - k * fst p) (combine x y).
Lemma axpy_length k x y : List.length x = List.length y -> List.length (axpy k x y) = List.length y.
Proof. intros H. unfold axpy. rewrite map_length, combine_length. lia. Qed.
Lemma axpy_dotp k x : forall y z, List.length x = List.length y -> dotp (axpy k x y) z = dotp y z - k * dotp x z.
Proof.
  induction x as [|a x IH]; intros [|b y] [|c z] H; try discriminate; try (unfold dotp; cbn; lra).
  injection H as H. unfold axpy. cbn [combine map fst snd]. rewrite !dotp_cons. fold (axpy k x y). rewrite IH by exact H. lra.
Qed.
Fixpoint gauss (n : nat) (a : list (list R)) (b : list R) : list R :=
  match n, a, b with
  | S n', (p :: r0) :: rest, b0 :: bs =>
      let x := gauss n' (map (fun r => axpy (hd 0 r / p) r0 (tl r)) rest)
                     (map (fun q => snd q - hd 0 (fst q) / p * b0) (combine rest bs)) in
      (b0 - dotp r0 x) / p :: x
  | _, _, _ => []
  end.
Definition elimination (a : list (list R)) (b : list R) : list R := gauss (List.length a) a b.

Lemma gauss_ok n : forall a b, List.length a = n -> square a -> List.length b = n -> posdef a ->
  List.length (gauss n a b) = n /\ matvec a (gauss n a b) = b.
Proof.
  induction n as [|n IH]; intros a b Ha Sq Hb P.
  - destruct a; [|discriminate]. destruct b; [|discriminate]. split; reflexivity.
  - destruct a as [|row0 rest]; [discriminate|]. destruct b as [|b0 bs]; [discriminate|].
    injection Ha as Ha. injection Hb as Hb.
    assert (L0 : List.length row0 = S n) by (rewrite (Sq row0 (or_introl eq_refl)); cbn; congruence).
    destruct row0 as [|p r0]; [discriminate|]. injection L0 as L0.
    assert (LR : forall r, In r rest -> List.length r = S n) by (intros r Hr; rewrite (Sq r (or_intror Hr)); cbn; congruence).
    assert (Pp : 0 < p).
    { assert (Q : 0 < dotp (1 :: zeros n) (matvec ((p :: r0) :: rest) (1 :: zeros n))).
      { apply P; [unfold zeros; cbn; rewrite repeat_length; congruence|]. exists 1. split; [left; reflexivity|lra]. }
      unfold matvec in Q. cbn [map] in Q. rewrite !dotp_cons, dotp_zeros, (dotp_comm r0), dotp_zeros in Q. lra. }
    set (a' := map (fun r => axpy (hd 0 r / p) r0 (tl r)) rest).
    set (b' := map (fun q => snd q - hd 0 (fst q) / p * b0) (combine rest bs)).
    assert (LT : forall r, In r rest -> List.length r0 = List.length (tl r)).
    { intros r Hr. specialize (LR r Hr). destruct r; [discriminate|]. cbn in *. congruence. }
    (* multiplying the reduced matrix: first component chosen so that the first equation vanishes *)
    assert (MV : forall x0 x r, In r rest -> dotp r (x0 :: x) = hd 0 r * x0 + dotp (tl r) x).
    { intros x0 x r Hr. specialize (LR r Hr). destruct r; [discriminate|]. reflexivity. }
    destruct (IH a' b') as [LX EX].
    + unfold a'. rewrite map_length. exact Ha.
    + intros r Hr. unfold a' in *. rewrite map_length. apply in_map_iff in Hr. destruct Hr as (s & <- & Hs).
      rewrite axpy_length by (apply LT; exact Hs). rewrite <- (LT s Hs). congruence.
    + unfold b'. rewrite map_length, combine_length. lia.
    + intros x Hx N. unfold a' in Hx. rewrite map_length, Ha in Hx.
      set (x0 := - dotp r0 x / p).
      assert (Q : 0 < dotp (x0 :: x) (matvec ((p :: r0) :: rest) (x0 :: x))).
      { apply P; [cbn; congruence|]. destruct N as (v & Hv & N). exists v. split; [right; exact Hv|exact N]. }
      unfold matvec in Q. cbn [map] in Q. rewrite !dotp_cons in Q.
      assert (Z : p * x0 + dotp r0 x = 0) by (unfold x0; field; lra). rewrite Z in Q.
      unfold matvec, a'. rewrite map_map.
      rewrite (map_ext_in _ (fun r => dotp r (x0 :: x))); [lra|]. intros r Hr. rewrite axpy_dotp by (apply LT; exact Hr).
      rewrite MV by exact Hr. unfold x0. field. lra.
    + cbn [gauss]. fold a' b'. set (x := gauss n a' b') in *. split; [cbn; congruence|].
      unfold matvec. cbn [map]. rewrite dotp_cons. f_equal; [field; lra|].
      set (x0 := (b0 - dotp r0 x) / p).
      assert (G : forall rs cs, List.length cs = List.length rs -> (forall r, In r rs -> In r rest) ->
        matvec (map (fun r => axpy (hd 0 r / p) r0 (tl r)) rs) x = map (fun q => snd q - hd 0 (fst q) / p * b0) (combine rs cs) ->
        map (fun r => dotp r (x0 :: x)) rs = cs).
      { induction rs as [|r rs IHr]; intros [|c cs] HL HI E; try discriminate; [reflexivity|]. injection HL as HL.
        unfold matvec in E. cbn [map combine fst snd] in E. injection E as E1 E2. cbn [map]. f_equal.
        - rewrite axpy_dotp in E1 by (apply LT, HI; left; reflexivity). rewrite MV by (apply HI; left; reflexivity).
          apply (Rplus_eq_reg_r (- (hd 0 r / p * b0))). transitivity (c - hd 0 r / p * b0); [|lra]. rewrite <- E1. unfold x0. field. lra.
        - apply IHr; [exact HL|intros r1 H1; apply HI; right; exact H1|exact E2]. }
      apply G; [lia|intros r Hr; exact Hr|exact EX].
Qed.
Lemma elimination_solves : solves elimination.
Proof. intros a b Sq Hb P. unfold elimination. apply gauss_ok; [reflexivity|exact Sq|exact Hb|exact P]. Qed.
