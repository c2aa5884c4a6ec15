(* Whole runs of the Gauss method: scaling, refusals, the inputs chosen by iod. *)
From Coq Require Import Reals Lra Lia List String Field Sorted.
From Verif Require Import Base StrOrder SphModel SphSpec SphProofs KepModel KepSpec KepElem LightModel FrameModel FrameProofs OdModel GaussModel GaussSpec GaussProofs GaussVel GaussToy.
Import ListNotations.
Open Scope R_scope.

Definition at_epoch (k : R) (o : orbit) : orbit := mkorb (k * o_epoch o) (o_r o) (o_v o).
Definition map_ok {A B} (f : A -> B) (x : result A) : result B := match x with Ok a => Ok (f a) | Err e => Err e end.
Lemma each_map : forall {A B C} (h : B -> C) (f : A -> result (option B)) (g : A -> result (option C)) l,
  (forall x, g x = map_ok (option_map h) (f x)) -> each g l = map_ok (map h) (each f l).
Proof.
  intros A B C h f g l H. induction l as [|x xs IH]; [reflexivity|]. cbn. rewrite H, IH. destruct (f x) as [[b|]|]; cbn; [| |reflexivity]; destruct (each f xs); reflexivity.
Qed.

Section Scaling.
  Variables (k mu : R) (q1 q2 q3 u1 u2 u3 : vec) (t1 t2 t3 : R).
  Hypothesis K : 0 < k.
  Lemma B_scaled : calc_B q1 q3 u1 u3 (k * t3 - k * t1) (k * t3 - k * t2) (k * t2 - k * t1) (mu / k ^ 2) = k * calc_B q1 q3 u1 u3 (t3 - t1) (t3 - t2) (t2 - t1) mu.
  Proof.
    unfold calc_B. set (X := cross u1 u3). rewrite !dot_plus_r, !dot_scale_r. set (a := dot X q1). set (b := dot X q3). clearbody a b. field. lra.
  Qed.
  Lemma A_scaled : calc_A q1 q2 q3 u1 u3 (k * t3 - k * t1) (k * t3 - k * t2) (k * t2 - k * t1) = k * calc_A q1 q2 q3 u1 u3 (t3 - t1) (t3 - t2) (t2 - t1).
  Proof.
    unfold calc_A, vminus. set (X := cross u1 u3). rewrite !dot_plus_r, !dot_scale_r. ring.
  Qed.
  Hypothesis HB : calc_B q1 q3 u1 u3 (t3 - t1) (t3 - t2) (t2 - t1) mu <> 0.
  Lemma poly_scaled : gauss_poly q1 q2 q3 u1 u2 u3 (k * t1) (k * t2) (k * t3) (mu / k ^ 2) = gauss_poly q1 q2 q3 u1 u2 u3 t1 t2 t3 mu.
  Proof.
    assert (C : gauss_C0 q1 q2 q3 u1 u2 u3 (k * t1) (k * t2) (k * t3) (mu / k ^ 2) = gauss_C0 q1 q2 q3 u1 u2 u3 t1 t2 t3 mu).
    { unfold gauss_C0. rewrite B_scaled. replace (k * t3 - k * t1) with (k * (t3 - t1)) by ring. field. split; [exact HB|lra]. }
    assert (H : gauss_h0 q1 q2 q3 u1 u2 u3 (k * t1) (k * t2) (k * t3) (mu / k ^ 2) = gauss_h0 q1 q2 q3 u1 u2 u3 t1 t2 t3 mu).
    { unfold gauss_h0. rewrite B_scaled, A_scaled. field. split; [exact HB|lra]. }
    unfold gauss_poly. rewrite C, H. reflexivity.
  Qed.
End Scaling.
Lemma lambdas_scaled : forall k r t31 t32 t21 mu, 0 < k -> calc_lambdas r (k * t31) (k * t32) (k * t21) (mu / k ^ 2) = calc_lambdas r t31 t32 t21 mu.
Proof.
  intros k r t31 t32 t21 mu K. unfold calc_lambdas.
  destruct (Req_EM_T t31 0) as [E|E]; destruct (Req_EM_T (k * t31) 0) as [F|F]; try reflexivity.
  - exfalso. apply F. rewrite E. ring.
  - exfalso. apply E. apply Rmult_integral in F. destruct F; lra.
  - destruct (Req_EM_T (6 * r ^ 3) 0) as [|NZ]; [reflexivity|]. assert (r <> 0) by (intros ->; apply NZ; ring). do 2 f_equal; field; repeat split; try assumption; lra.
Qed.
Lemma root_scaled : forall k mu q1 q2 q3 u1 u2 u3 t1 t2 t3 r, 0 < k ->
  gauss_root Gibbs false (mu / k ^ 2) q1 q2 q3 u1 u2 u3 (k * t1) (k * t2) (k * t3) r =
  map_ok (option_map (at_epoch k)) (gauss_root Gibbs false mu q1 q2 q3 u1 u2 u3 t1 t2 t3 r).
Proof.
  intros k mu q1 q2 q3 u1 u2 u3 t1 t2 t3 r K. unfold gauss_root.
  replace (k * t3 - k * t1) with (k * (t3 - t1)) by ring. replace (k * t3 - k * t2) with (k * (t3 - t2)) by ring. replace (k * t2 - k * t1) with (k * (t2 - t1)) by ring.
  rewrite lambdas_scaled by exact K. destruct (calc_lambdas _ _ _ _ _) as [l|]; [|reflexivity]. cbn [bind].
  destruct (calc_rhos _ _ _ _ _ _ _ _ _) as [p|]; [|reflexivity]. cbn [bind velocity].
  destruct (Rlt_dec _ 0); [reflexivity|]. destruct (calc_gibbs _ _ _) as [v|]; [|reflexivity].
  destruct (Rle_dec light (norm v)); [reflexivity|]. destruct (Rlt_dec 300 _); [reflexivity|]. destruct (Rlt_dec 1 _); reflexivity.
Qed.
Lemma run_scaled : forall roots k mu s1 s2 s3 t1 t2 t3 q1 q2 q3, 0 < k ->
  gauss_iod roots Gibbs false (mu / k ^ 2) s1 s2 s3 (k * t1) (k * t2) (k * t3) q1 q2 q3 =
  map_ok (map (at_epoch k)) (gauss_iod roots Gibbs false mu s1 s2 s3 t1 t2 t3 q1 q2 q3).
Proof.
  intros roots k mu s1 s2 s3 t1 t2 t3 q1 q2 q3 K. unfold gauss_iod. rewrite B_scaled by exact K. set (B := calc_B _ _ _ _ _ _ _ _).
  destruct (Req_EM_T B 0) as [E|E]; destruct (Req_EM_T (k * B) 0) as [F|F]; try reflexivity.
  - exfalso. apply F. rewrite E. ring.
  - exfalso. apply E. apply Rmult_integral in F. destruct F; lra.
  - destruct (Req_EM_T (norm q2) 0); [reflexivity|]. rewrite poly_scaled by assumption. apply each_map. intro x. apply root_scaled, K.
Qed.

(* ---- when no exception is raised ---- *)
Lemma each_ok : forall {A B} (f : A -> result (option B)) l, (forall x, In x l -> exists y, f x = Ok y) -> exists ys, each f l = Ok ys.
Proof.
  intros A B f. induction l as [|x xs IH]; intro H; [eexists; reflexivity|]. cbn. destruct (H x (or_introl eq_refl)) as (y & ->).
  destruct IH as (ys & ->); [intros; apply H; right; assumption|]. eexists. reflexivity.
Qed.
Lemma poly_root_nonzero : forall q1 q2 q3 u1 u2 u3 t1 t2 t3 mu, norm q2 <> 0 -> peval (gauss_poly q1 q2 q3 u1 u2 u3 t1 t2 t3 mu) 0 <> 0.
Proof.
  intros. unfold gauss_poly, peval. cbn [fold_left]. set (q := norm q2) in *. intro E. apply (pow_nonzero q 8); [assumption|].
  match type of E with ?a * 0 + - q ^ 8 = 0 => assert (a * 0 = 0) by ring end. lra.
Qed.
Lemma lambda_pos : forall r t31 t a mu, 0 < r -> 0 < t31 -> 0 < t -> t < t31 -> 0 < mu -> a = t -> 0 < a / t31 * (1 + mu / (6 * r ^ 3) * (t31 ^ 2 - t ^ 2)).
Proof.
  intros r t31 t a mu R T P L M ->. apply Rmult_lt_0_compat; [apply Rdiv_lt_0_compat; assumption|].
  assert (0 < mu / (6 * r ^ 3)) by (apply Rdiv_lt_0_compat; [assumption|]; apply Rmult_lt_0_compat; [lra|apply pow_lt; assumption]).
  assert (0 < t31 ^ 2 - t ^ 2) by nra. assert (0 < mu / (6 * r ^ 3) * (t31 ^ 2 - t ^ 2)) by (apply Rmult_lt_0_compat; assumption). lra.
Qed.
Lemma run_ok : forall roots m lt mu s1 s2 s3 t1 t2 t3 q1 q2 q3, finds_roots roots -> m = Gibbs \/ m = HerrickGibbs ->
  t1 < t2 -> t2 < t3 -> 0 < mu -> norm q2 <> 0 -> dot (cross (sight s1) (sight s2)) (sight s3) <> 0 ->
  dot (cross (sight s1) (sight s3)) (vplus (scale (t3 - t1 + (t3 - t2)) q1) (scale (t3 - t1 + (t2 - t1)) q3)) <> 0 ->
  exists rows, gauss_iod roots m lt mu s1 s2 s3 t1 t2 t3 q1 q2 q3 = Ok rows.
Proof.
  intros roots m lt mu s1 s2 s3 t1 t2 t3 q1 q2 q3 F M H12 H23 HM HQ HV HX. unfold gauss_iod.
  destruct (Req_EM_T _ 0) as [E|_].
  { exfalso. unfold calc_B in E. repeat (apply Rmult_integral in E; destruct E as [E|E]); try lra; contradiction. }
  destruct (Req_EM_T (norm q2) 0); [contradiction|]. apply each_ok. intros r I. destruct (F _ _ I) as [R0 P].
  assert (RP : 0 < r). { destruct R0 as [R0|R0]; [exact R0|]. subst. exfalso. revert P. apply poly_root_nonzero; assumption. }
  unfold gauss_root, calc_lambdas. destruct (Req_EM_T (t3 - t1) 0); [lra|].
  destruct (Req_EM_T (6 * r ^ 3) 0) as [Z|_]. { pose proof (pow_lt r 3 RP). lra. }
  cbn [bind fst snd]. rewrite rhos_value; [|apply Rgt_not_eq, lambda_pos; lra|apply Rgt_not_eq, lambda_pos; lra|exact HV].
  cbn [bind fst snd]. destruct (Rlt_dec _ 0); [eexists; reflexivity|].
  destruct M as [-> | ->]; cbn [velocity bind].
  - destruct (calc_gibbs _ _ _) as [v|]; [|eexists; reflexivity].
    repeat match goal with |- context [if ?c then _ else _] => destruct c end; eexists; reflexivity.
  - destruct (calc_herrick_gibbs _ _ _ _ _ _) as [v|]; [|eexists; reflexivity].
    repeat match goal with |- context [if ?c then _ else _] => destruct c end; eexists; reflexivity.
Qed.
Lemma same_sight_crash : forall roots m lt mu s s2 t1 t2 t3 q1 q2 q3, gauss_iod roots m lt mu s s2 s t1 t2 t3 q1 q2 q3 = Err ZeroDivisionError.
Proof.
  intros. unfold gauss_iod. destruct (Req_EM_T _ 0) as [|N]; [reflexivity|]. exfalso. apply N. unfold calc_B. replace (cross (sight s) (sight s)) with (0, 0, 0).
  - set (w := vplus _ _). destruct w as [[? ?] ?]. cbn. ring.
  - destruct (sight s) as [[a b] c]. cbn. vring.
Qed.

(* ---- iod's inputs ---- *)
Lemma sort_of_sorted : forall {A} (leb : A -> A -> bool) l, StronglySorted (fun x y => leb x y = true) l -> sort leb l = l.
Proof.
  intros A leb. induction l as [|x xs IH]; intro H; [reflexivity|]. inversion H as [|? ? Hs Hf]; subst. cbn. rewrite IH by assumption.
  destruct xs as [|y ys]; [reflexivity|]. cbn. inversion Hf; subst. rewrite H2. reflexivity.
Qed.
Lemma masked_filter : forall {A B} (p : A -> bool) (f : A -> B) l, masked (map p l) (map f l) = map f (filter p l).
Proof. intros A B p f. unfold masked. induction l as [|x xs IH]; [reflexivity|]. cbn. destruct (p x); cbn; rewrite IH; reflexivity. Qed.
Lemma combine_map : forall {A B C} (f : A -> B) (g : A -> C) l, combine (map f l) (map g l) = map (fun x => (f x, g x)) l.
Proof. intros. induction l as [|x xs IH]; [reflexivity|]. cbn. rewrite IH. reflexivity. Qed.
Lemma inputs_sorted : forall rows ids, StronglySorted (fun a b => okey_leb a b = true) rows ->
  iod_inputs rows ids = map (fun w => (w_lonlat w, w_mjd w, w_opos w)) (filter (fun w => mem (w_id w) ids) rows).
Proof.
  intros rows ids H. unfold iod_inputs. cbv zeta. rewrite sort_of_sorted by exact H. rewrite !masked_filter, combine_map.
  rewrite combine_map. reflexivity.
Qed.
