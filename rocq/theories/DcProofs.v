(* Proofs about the scipy differential corrector. *)
From Coq Require Import Reals Lra Lia ZArith String List Bool Sorted.
From Verif Require Import Base ListLemmas StrOrder SphModel FitModel DcModel DcSpec.
Import ListNotations.
Open Scope string_scope.
Open Scope list_scope.
Open Scope R_scope.

(* ---- sums ---- *)
Lemma total_rsum : forall l, rsum_ l = total l.
Proof. induction l as [|x l IH]; [reflexivity|]. cbn [rsum_ total fold_right]. fold (rsum_ l). rewrite IH. reflexivity. Qed.
Lemma total_app : forall a b, total (a ++ b) = total a + total b.
Proof. induction a as [|x a IH]; intro b; cbn [app total]; [ring|]. rewrite IH. ring. Qed.
Lemma total_ext : forall {A} (f g : A -> R) l, (forall x, In x l -> f x = g x) -> total (map f l) = total (map g l).
Proof. intros A f g l. induction l as [|x l IH]; intro H; [reflexivity|]. cbn [map total]. rewrite (H x (or_introl eq_refl)), IH; [reflexivity|]. intros y Y. apply H. right. exact Y. Qed.
Lemma total_scale : forall {A} (f : A -> R) k l, total (map (fun x => k * f x) l) = k * total (map f l).
Proof. intros A f k l. induction l as [|x l IH]; cbn [map total]; [ring|]. rewrite IH. ring. Qed.
Lemma total_plus : forall {A} (f g : A -> R) l, total (map (fun x => f x + g x) l) = total (map f l) + total (map g l).
Proof. intros A f g l. induction l as [|x l IH]; cbn [map total]; [ring|]. rewrite IH. ring. Qed.
Lemma total_le : forall {A} (f g : A -> R) l, (forall x, In x l -> f x <= g x) -> total (map f l) <= total (map g l).
Proof.
  intros A f g l. induction l as [|x l IH]; intro H; cbn [map total]; [lra|]. pose proof (H x (or_introl eq_refl)).
  assert (total (map f l) <= total (map g l)) by (apply IH; intros y Y; apply H; right; exact Y). lra.
Qed.
Lemma squares_nonneg : forall l, 0 <= sum_of_squares l.
Proof. unfold sum_of_squares. induction l as [|x l IH]; cbn [map total]; [lra|]. pose proof (Rle_0_sqr x) as S. unfold Rsqr in S. lra. Qed.

(* ---- ordered observations ---- *)
Section Fit.
Context {V P Rr : Type}.
Variable predict : phys -> Z * Z -> string -> P.
Variable resid : V -> P -> Rr.
Variable chi2 : Rr -> R.
Variable dof : Rr -> Z.
Variable solve : (row6 -> list R) -> row6 -> list (string * kwvalue) -> result solution.
Variable inv : (nat -> nat -> R) -> option (nat -> nat -> R).
Notation fit := (fit_least_squares predict resid chi2 dof solve inv).
Notation res := (residuals predict resid).
Definition own (ph : phys) (b : observation) : Rr := resid (ob_value b) (predict ph (ob_time b) (ob_code b)).

Lemma filter_in_order : forall (f : observation (V := V) -> bool) l, in_order l -> in_order (filter f l).
Proof.
  intros f l H. unfold in_order in *. induction H as [|a l S IH F]; cbn [filter]; [constructor|]. destruct (f a); [|exact IH].
  constructor; [exact IH|]. rewrite Forall_forall in *. intros x X. apply filter_In in X as [X _]. exact (F x X).
Qed.
Lemma combine_map_r : forall {A B} (g : A -> B) l, combine l (map g l) = map (fun x => (x, g x)) l.
Proof. intros A B g l. induction l as [|x l IH]; cbn [map combine]; [reflexivity|]. rewrite IH. reflexivity. Qed.
Lemma residuals_own : forall ph obs, in_order obs -> res ph obs = map (own ph) obs.
Proof.
  intros ph obs H. unfold residuals. rewrite (sort_sorted_id oleb_obs obs H), combine_map_r, map_map. reflexivity.
Qed.
Lemma residuals_length : forall ph obs, List.length (res ph obs) = List.length obs.
Proof. intros ph obs. unfold residuals. rewrite map_length, combine_length, map_length, sort_length. apply Nat.min_id. Qed.

Lemma fit_inv : forall os obs ig kw d ms, fit os obs ig kw = Ok (d, ms) ->
  exists o sol, os = [o] /\
    solve (residual_function predict resid chi2 (ph_mjd (do_phys o)) (filter (fun b => negb (ignored ig b)) obs)) (ph_state (do_phys o)) (solver_kwargs kw) = Ok sol /\
    let p := mkphys (so_x sol) (ph_mjd (do_phys o)) "tdb" (ph_origin (do_phys o)) (ph_frame (do_phys o)) in
    df_orbit d = mkdo (do_id o) (do_object o) p (inv (normal_matrix (so_jac sol))) /\
    df_nobs d = List.length (filter (fun b => negb (ignored ig b)) obs) /\
    df_chi2 d = rsum_ (map chi2 (map snd (filter (fun q => negb (ignored ig (fst q))) (combine obs (res p obs))))) /\
    df_iterations d = Some (so_nfev sol) /\ df_success d = Some (so_success sol) /\ df_status d = Some (so_status sol) /\
    ms = map (fun q => mkdm (do_id o) (ob_id (fst q)) (snd q) (ignored ig (fst q)) (Some (negb (ignored ig (fst q))))) (combine obs (res p obs)).
Proof.
  intros os obs ig kw d ms H. destruct os as [|o [|? ?]]; try discriminate. unfold fit_least_squares in H.
  destruct (solve _ _ _) as [sol|] eqn:S; [|discriminate]. cbn [bind] in H. exists o, sol. split; [reflexivity|]. split; [exact S|]. cbv zeta.
  unfold evaluate_one in H. cbn [do_phys do_id] in H. destruct (filter (fun b => negb (ignored ig b)) obs) as [|u us] eqn:U; [discriminate|].
  cbn [bind fst snd df_orbit df_arc df_nobs df_chi2 df_reduced] in H. injection H as <- <-. cbn [df_orbit df_nobs df_chi2 df_iterations df_success df_status].
  repeat split. rewrite map_map. reflexivity.
Qed.
Lemma chi2_own : forall ph obs ig, in_order obs ->
  rsum_ (map chi2 (map snd (filter (fun q => negb (ignored ig (fst q))) (combine obs (res ph obs))))) = orbit_chi2 predict resid chi2 ph obs ig.
Proof.
  intros ph obs ig H. rewrite total_rsum, residuals_own by exact H. unfold orbit_chi2. rewrite combine_map_r. f_equal. clear H.
  induction obs as [|b l IH]; [reflexivity|]. cbn [map filter fst]. unfold ignored at 1. destruct (negb _); [|exact IH]. cbn [map snd]. rewrite IH. reflexivity.
Qed.
Hypothesis chi2_nonneg : forall r, 0 <= chi2 r.
Lemma cost_own : forall mjd obs s, in_order obs ->
  sum_of_squares (residual_function predict resid chi2 mjd obs s) = total (map (fun b => chi2 (own (mkphys s mjd "tdb" "SUN" "ecliptic") b)) obs).
Proof.
  intros mjd obs s H. unfold residual_function, sum_of_squares. rewrite residuals_own by exact H. rewrite !map_map. apply total_ext. intros b _. apply sqrt_def, chi2_nonneg.
Qed.
End Fit.

(* ---- fewer equations than unknowns ---- *)
Lemma dot_S : forall n a b, dot_n (S n) a b = dot_n n a b + a n * b n.
Proof. intros n a b. unfold dot_n. rewrite seq_S, map_app, total_app. cbn [map total Nat.add]. ring. Qed.
Lemma dot_ext : forall n a b a' b', (forall k, (k < n)%nat -> a k = a' k /\ b k = b' k) -> dot_n n a b = dot_n n a' b'.
Proof.
  intros n a b a' b' H. unfold dot_n. apply total_ext. intros k K. apply in_seq in K. destruct (H k) as [-> ->]; [lia|reflexivity].
Qed.
Lemma dot_sub : forall n a b c v, dot_n n (fun k => a k - c * b k) v = dot_n n a v - c * dot_n n b v.
Proof. induction n as [|n IH]; intros a b c v; [unfold dot_n; cbn; ring|]. rewrite !dot_S, IH. ring. Qed.
Lemma dot_zero : forall n v, dot_n n (fun _ => 0) v = 0.
Proof. induction n as [|n IH]; intro v; [reflexivity|]. rewrite dot_S, IH. ring. Qed.
Lemma underdetermined : forall n rows, (List.length rows < n)%nat ->
  exists v, (exists k, (k < n)%nat /\ v k <> 0) /\ forall r, In r rows -> dot_n n r v = 0.
Proof.
  induction n as [|n IH]; intros rows L; [lia|].
  assert (D : (exists p l1 l2, rows = l1 ++ p :: l2 /\ p n <> 0) \/ (forall r, In r rows -> r n = 0)).
  { clear. induction rows as [|r rows IH]; [right; intros ? []|]. destruct (Req_dec (r n) 0) as [Z|Z].
    - destruct IH as [(p & l1 & l2 & -> & N)|A]; [left; exists p, (r :: l1), l2; auto|right; intros r' [<-|I]; auto].
    - left. exists r, [], rows. auto. }
  destruct D as [(p & l1 & l2 & -> & N)|A].
  - rewrite app_length in L. cbn [List.length] in L.
    destruct (IH (map (fun r k => r k - r n / p n * p k) (l1 ++ l2))) as (v & (k & K1 & K2) & H); [rewrite map_length, app_length; lia|].
    set (w := fun k => if Nat.eqb k n then - dot_n n p v / p n else v k).
    assert (W : forall a, dot_n n a w = dot_n n a v).
    { intro a. apply dot_ext. intros j J. split; [reflexivity|]. unfold w. destruct (Nat.eqb_spec j n); [lia|reflexivity]. }
    assert (WN : w n = - dot_n n p v / p n) by (unfold w; rewrite Nat.eqb_refl; reflexivity).
    exists w. split.
    + exists k. split; [lia|]. unfold w. destruct (Nat.eqb_spec k n); [lia|exact K2].
    + intros r I. rewrite dot_S, W, WN. apply in_app_or in I.
      assert (I' : r = p \/ In r (l1 ++ l2)) by (destruct I as [I|[->|I]]; [right; apply in_or_app; auto|auto|right; apply in_or_app; auto]).
      destruct I' as [->|I']; [field; exact N|].
      specialize (H _ (in_map (fun r k => r k - r n / p n * p k) _ _ I')). cbv beta in H. rewrite dot_sub in H.
      replace (dot_n n r v) with (r n / p n * dot_n n p v) by lra. field. exact N.
  - exists (fun k => if Nat.eqb k n then 1 else 0). split; [exists n; rewrite Nat.eqb_refl; split; [lia|lra]|].
    intros r I. rewrite dot_S, (A r I). rewrite (dot_ext n r _ r (fun _ => 0)); [|intros k K; split; [reflexivity|]; destruct (Nat.eqb_spec k n); [lia|reflexivity]].
    assert (Z : dot_n n r (fun _ => 0) = 0) by (clear; induction n as [|n IH]; [reflexivity|]; rewrite dot_S, IH; ring). rewrite Z. ring.
Qed.

Lemma total_swap : forall {A B} (f : A -> B -> R) la lb,
  total (map (fun a => total (map (fun b => f a b) lb)) la) = total (map (fun b => total (map (fun a => f a b) la)) lb).
Proof.
  intros A B f la lb. induction la as [|a la IH]; cbn [map total].
  - induction lb as [|b lb IHb]; cbn [map total]; [reflexivity|]. rewrite <- IHb. ring.
  - rewrite IH, <- total_plus. reflexivity.
Qed.
Lemma normal_dot : forall J a v, dot_n 6 (normal_matrix J a) v = total (map (fun r => r a * dot_n 6 r v) J).
Proof.
  intros J a v. unfold dot_n at 1. unfold normal_matrix.
  transitivity (total (map (fun k => total (map (fun r => r a * (r k * v k)) J)) (seq 0 6))).
  - apply total_ext. intros k _. rewrite total_rsum, Rmult_comm, <- total_scale. apply total_ext. intros r _. ring.
  - rewrite total_swap. apply total_ext. intros r _. rewrite total_scale. reflexivity.
Qed.
Lemma normal_singular : forall J, (List.length J < 6)%nat -> singular (normal_matrix J).
Proof.
  intros J L. destruct (underdetermined 6 J L) as (v & K & H). exists v. split; [exact K|]. intros a _. rewrite normal_dot.
  rewrite (total_ext _ (fun _ => 0)); [|intros r I; rewrite (H r I); ring]. clear. induction J as [|x J IH]; cbn [map total]; [reflexivity|]. rewrite IH. ring.
Qed.
Lemma singular_none : forall inv m, inverts inv -> singular m -> inv m = None.
Proof.
  intros inv m [I _] (v & (k & K & N) & S). destruct (inv m) as [n|] eqn:E; [|reflexivity]. exfalso. destruct (I m n E) as [_ NM]. apply N.
  assert (X : total (map (fun j => total (map (fun b => n k j * m j b * v b) (seq 0 6))) (seq 0 6)) = v k).
  { rewrite total_swap. transitivity (total (map (fun b => (if Nat.eqb k b then 1 else 0) * v b) (seq 0 6))).
    - apply total_ext. intros b B. apply in_seq in B. rewrite <- (NM k b K) by lia. rewrite Rmult_comm, <- total_scale. apply total_ext. intros j _. ring.
    - assert (KK : (k = 0 \/ k = 1 \/ k = 2 \/ k = 3 \/ k = 4 \/ k = 5)%nat) by lia.
      destruct KK as [->|[->|[->|[->|[->| ->]]]]]; cbn [seq map total Nat.eqb]; ring. }
  rewrite <- X. rewrite (total_ext _ (fun _ => 0)); [cbn [seq map total]; ring|]. intros j J. apply in_seq in J.
  transitivity (n k j * dot_n 6 (m j) v); [|rewrite S by lia; ring]. unfold dot_n. rewrite <- total_scale. apply total_ext. intros b _. ring.
Qed.
Lemma normal_form : forall J x, total (map (fun a => x a * dot_n 6 (normal_matrix J a) x) (seq 0 6)) = total (map (fun r => dot_n 6 r x * dot_n 6 r x) J).
Proof.
  intros J x. transitivity (total (map (fun a => total (map (fun r => x a * (r a * dot_n 6 r x)) J)) (seq 0 6))).
  - apply total_ext. intros a _. rewrite normal_dot, total_scale. reflexivity.
  - rewrite total_swap. apply total_ext. intros r _. unfold dot_n at 2. rewrite (Rmult_comm (total _)), <- total_scale. apply total_ext. intros a _. ring.
Qed.

(* ---- one chi per observation carries no more information than its components ---- *)
Lemma cauchy : forall l, total (map (fun p => fst p * snd p) l) * total (map (fun p => fst p * snd p) l) <=
  total (map (fun p : R * R => fst p * fst p) l) * total (map (fun p => snd p * snd p) l).
Proof.
  induction l as [|[a b] l IH]; cbn [map total fst snd]; [lra|].
  set (s := total (map (fun p => fst p * snd p) l)) in *. set (u := total (map (fun p : R * R => fst p * fst p) l)) in *. set (w := total (map (fun p : R * R => snd p * snd p) l)) in *.
  assert (U : 0 <= u) by (unfold u; clear; induction l as [|[x y] l IH]; cbn [map total fst snd]; [lra|pose proof (Rle_0_sqr x) as S; unfold Rsqr in S; lra]).
  assert (W : 0 <= w) by (unfold w; clear; induction l as [|[x y] l IH]; cbn [map total fst snd]; [lra|pose proof (Rle_0_sqr y) as S; unfold Rsqr in S; lra]).
  assert (M : 2 * (a * b * s) <= a * a * w + b * b * u).
  { destruct (Rle_lt_dec (a * b * s) 0) as [N|N].
    - pose proof (Rle_0_sqr a) as A2. pose proof (Rle_0_sqr b) as B2. unfold Rsqr in *. pose proof (Rmult_le_pos _ _ A2 W). pose proof (Rmult_le_pos _ _ B2 U). lra.
    - pose proof (Rle_0_sqr (a * a * w - b * b * u)) as Q. unfold Rsqr in Q.
      assert (E : (a * b * s) * (a * b * s) <= a * a * w * (b * b * u)).
      { replace (a * b * s * (a * b * s)) with ((a * a) * (b * b) * (s * s)) by ring. replace (a * a * w * (b * b * u)) with ((a * a) * (b * b) * (u * w)) by ring.
        apply Rmult_le_compat_l; [|exact IH]. pose proof (Rle_0_sqr (a * b)) as AB. unfold Rsqr in AB. lra. }
      assert (P : 0 <= a * a * w + b * b * u). { pose proof (Rle_0_sqr a) as A2. pose proof (Rle_0_sqr b) as B2. unfold Rsqr in *. pose proof (Rmult_le_pos _ _ A2 W). pose proof (Rmult_le_pos _ _ B2 U). lra. }
      apply Rsqr_incr_0_var; [|exact P]. unfold Rsqr. lra. }
  lra.
Qed.
Lemma derive_squares : forall rs ds, Forall2 (fun r d => derivable_pt_lim r 0 d) rs ds ->
  derivable_pt_lim (fun t => sum_of_squares (map (fun r => r t) rs)) 0 (2 * total (map (fun p => fst p * snd p) (combine (map (fun r => r 0) rs) ds))).
Proof.
  intros rs ds H. induction H as [|r d rs ds D F IH]; cbn [map combine total fst snd].
  - replace (2 * 0) with 0 by ring. apply derivable_pt_lim_const.
  - replace (2 * (r 0 * d + total (map (fun p => fst p * snd p) (combine (map (fun r => r 0) rs) ds))))
      with ((d * r 0 + r 0 * d) + 2 * total (map (fun p => fst p * snd p) (combine (map (fun r => r 0) rs) ds))) by ring.
    apply (derivable_pt_lim_plus (fun t => r t * r t) (fun t => sum_of_squares (map (fun r => r t) rs))); [|exact IH].
    apply derivable_pt_lim_mult; exact D.
Qed.
Lemma chi_information : forall rs ds g dg, Forall2 (fun r d => derivable_pt_lim r 0 d) rs ds ->
  (forall t, g t = sqrt (sum_of_squares (map (fun r => r t) rs))) -> 0 < sum_of_squares (map (fun r => r 0) rs) -> derivable_pt_lim g 0 dg ->
  dg * dg <= sum_of_squares ds.
Proof.
  intros rs ds g dg H G P D.
  assert (D2 : derivable_pt_lim (fun t => sum_of_squares (map (fun r => r t) rs)) 0 (dg * g 0 + g 0 * dg)).
  { pose proof (derivable_pt_lim_mult g g 0 dg dg D D) as M. intros e E. destruct (M e E) as (delta & Q). exists delta. intros h H0 H1.
    specialize (Q h H0 H1). unfold mult_fct in Q. rewrite !G in Q. rewrite !sqrt_def in Q by apply squares_nonneg. rewrite G. exact Q. }
  pose proof (uniqueness_limite _ _ _ _ D2 (derive_squares rs ds H)) as U.
  set (z := total (map (fun p => fst p * snd p) (combine (map (fun r => r 0) rs) ds))) in *. assert (E : g 0 * dg = z) by lra.
  pose proof (cauchy (combine (map (fun r => r 0) rs) ds)) as C. fold z in C.
  assert (A1 : total (map (fun p : R * R => fst p * fst p) (combine (map (fun r => r 0) rs) ds)) = sum_of_squares (map (fun r => r 0) rs)).
  { clear - H. unfold sum_of_squares. induction H; cbn [map combine total fst]; [reflexivity|]. rewrite IHForall2. reflexivity. }
  assert (A2 : total (map (fun p : R * R => snd p * snd p) (combine (map (fun r => r 0) rs) ds)) = sum_of_squares ds).
  { clear - H. unfold sum_of_squares. induction H; cbn [map combine total snd]; [reflexivity|]. rewrite IHForall2. reflexivity. }
  rewrite A1, A2 in C. set (q := sum_of_squares (map (fun r => r 0) rs)) in *.
  assert (GG : g 0 * g 0 = q) by (rewrite G; apply sqrt_def; apply squares_nonneg).
  apply Rmult_le_reg_l with q; [exact P|]. rewrite <- GG at 1. replace (g 0 * g 0 * (dg * dg)) with ((g 0 * dg) * (g 0 * dg)) by ring. rewrite E. exact C.
Qed.
