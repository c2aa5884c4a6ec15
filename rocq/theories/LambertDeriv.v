(* The derivatives of the time of flight, and times of flight the solver meets exactly. *)
From Coq Require Import Reals ZArith Lra Lia Psatz Field Ranalysis5.
From Coquelicot Require Import Coquelicot.
From Verif Require Import SphModel KepModel KepHyp UnivFun LambertModel LambertPlane LambertTime.
Open Scope R_scope.

(* the general branch as a function of x *)
Definition Tg (l : R) (M : nat) (x : R) : R :=
  ((compute_psi x (compute_y x l) l + INR M * PI) / sqrt (Rabs (1 - x ^ 2)) - x + l * compute_y x l) / (1 - x ^ 2).
Lemma d_acos : forall x, -1 < x < 1 -> is_derive acos x (-1 / sqrt (1 - x * x)).
Proof.
  intros x H. apply is_derive_Reals. pose proof (derive_pt_acos x H) as D. unfold Rsqr in D. rewrite <- D.
  apply (proj1 (derive_pt_eq acos x _ (derivable_pt_acos x H))). reflexivity.
Qed.
Section deriv.
Variables (l : R) (l_small : l * l < 1).
Let Y (x : R) := compute_y x l.
Lemma Y_pos : forall x, 0 < Y x.
Proof. intro x. apply sqrt_lt_R0. nra. Qed.
Lemma Y_sq : forall x, Y x * Y x = 1 - l * l * (1 - x * x).
Proof. intro x. unfold Y, compute_y. rewrite sqrt_sqrt by nra. ring. Qed.
Lemma d_Y : forall x, is_derive Y x (l * l * x / Y x).
Proof.
  intro x. pose proof (Y_pos x) as P. unfold Y, compute_y in *. auto_derive.
  - nra.
  - replace (1 + - (l * (l * 1) * (1 + - (x * (x * 1))))) with (1 - l ^ 2 * (1 - x ^ 2)) by ring. field. lra.
Qed.
Let A (x : R) := x * Y x + l * (1 - x * x).
Let eta (x : R) := Y x - l * x.
Lemma d_A : forall x, is_derive A x (eta x * eta x / Y x).
Proof.
  intro x. pose proof (Y_pos x) as P. pose proof (Y_sq x) as Q. unfold A.
  replace (eta x * eta x / Y x) with ((1 * Y x + x * (l * l * x / Y x)) + l * (0 - (1 * x + x * 1))).
  - apply d_plus; [apply d_mult; [apply d_id|apply d_Y]|]. apply d_scal. apply d_minus; [apply d_const|]. apply (d_mult (fun x => x) (fun x => x)); apply d_id.
  - unfold eta. field. lra.
Qed.
Lemma d_eta : forall x, is_derive eta x (- l * eta x / Y x).
Proof.
  intro x. pose proof (Y_pos x) as P. unfold eta. replace (- l * (Y x - l * x) / Y x) with (l * l * x / Y x - l * 1) by (field; lra).
  apply d_minus; [apply d_Y|]. apply d_scal. apply d_id.
Qed.
Lemma ang' : forall x, A x * A x + (1 - x * x) * (eta x * eta x) = 1.
Proof. intro x. exact (ang l x (Y x) (Y_sq x)). Qed.
Lemma eta_p' : forall x, 0 < eta x.
Proof. intro x. exact (eta_p l x (Y x) l_small (Y_pos x) (Y_sq x)). Qed.
Lemma psi_near : forall x, -1 < x < 1 -> compute_psi x (Y x) l = acos (A x).
Proof.
  intros x X. destruct (psi_ell l x (Y x) l_small (Y_pos x) (Y_sq x) X) as (B & C & _). unfold A. rewrite <- C. symmetry. apply acos_cos. lra.
Qed.
Lemma A_in : forall x, -1 < x < 1 -> -1 < A x < 1.
Proof.
  intros x X. pose proof (ang' x) as G. pose proof (eta_p' x) as E.
  assert (0 < (1 - x * x) * (eta x * eta x)) by (apply Rmult_lt_0_compat; nra). split; nra.
Qed.
Lemma d_psi_e : forall x, -1 < x < 1 -> is_derive (fun x => compute_psi x (Y x) l) x (- eta x / (Y x * sqrt (1 - x * x))).
Proof.
  intros x X. apply (is_derive_ext_loc (fun x => acos (A x))).
  - assert (D : 0 < Rmin (x + 1) (1 - x)) by (apply Rmin_glb_lt; lra). exists (mkposreal _ D). intros t T. symmetry. apply psi_near.
    unfold ball in T. cbn in T. unfold AbsRing_ball, abs, minus, plus, opp in T. cbn in T. apply Rabs_def2 in T. pose proof (Rmin_l (x + 1) (1 - x)). pose proof (Rmin_r (x + 1) (1 - x)). lra.
  - pose proof (A_in x X) as AI. pose proof (d_comp A acos x _ _ (d_A x) (d_acos (A x) AI)) as D.
    pose proof (eta_p' x) as E. pose proof (Y_pos x) as YP. destruct (w_is x X) as [W W2].
    assert (S : sqrt (1 - A x * A x) = sqrt (1 - x * x) * eta x).
    { replace (1 - A x * A x) with ((sqrt (1 - x * x) * eta x) * (sqrt (1 - x * x) * eta x)); [apply sqrt_square; nra|].
      pose proof (ang' x) as G. replace ((sqrt (1 - x * x) * eta x) * (sqrt (1 - x * x) * eta x)) with ((sqrt (1 - x * x) * sqrt (1 - x * x)) * (eta x * eta x)) by ring. rewrite W2. lra. }
    replace (- eta x / (Y x * sqrt (1 - x * x))) with (-1 / sqrt (1 - A x * A x) * (eta x * eta x / Y x)); [exact D|]. rewrite S. field. repeat split; lra.
Qed.
Lemma d_psi_h : forall x, 1 < x -> is_derive (fun x => compute_psi x (Y x) l) x (eta x / (Y x * sqrt (x * x - 1))).
Proof.
  intros x X. apply (is_derive_ext_loc (fun x => arcsinh (eta x * sqrt (x * x - 1)))).
  - assert (D : 0 < x - 1) by lra. exists (mkposreal _ D). intros t T. unfold ball in T. cbn in T. unfold AbsRing_ball, abs, minus, plus, opp in T. cbn in T. apply Rabs_def2 in T.
    unfold compute_psi. destruct (Rlt_dec t 1); [lra|]. destruct (Rlt_dec 1 t); [|lra]. f_equal. unfold eta. replace (t ^ 2 - 1) with (t * t - 1) by ring. ring.
  - pose proof (Y_pos x) as YP. destruct (v_is x X) as [V V2]. destruct (psi_hyp l x (Y x) l_small (Y_pos x) (Y_sq x) X) as (_ & CP & _). change (cosh (compute_psi x (Y x) l) = A x) in CP.
    assert (DV : is_derive (fun x => sqrt (x * x - 1)) x (x / sqrt (x * x - 1))). { auto_derive; [nra|]. replace (x * x + - (1)) with (x * x - 1) by ring. field. lra. }
    assert (DI : is_derive (fun x => eta x * sqrt (x * x - 1)) x ((- l * eta x / Y x) * sqrt (x * x - 1) + eta x * (x / sqrt (x * x - 1)))) by (apply (d_mult eta (fun x => sqrt (x * x - 1))); [apply d_eta|exact DV]).
    assert (DS : is_derive arcsinh (eta x * sqrt (x * x - 1)) (/ sqrt ((eta x * sqrt (x * x - 1)) ^ 2 + 1))) by (apply is_derive_Reals, derivable_pt_lim_arcsinh).
    pose proof (d_comp (fun x => eta x * sqrt (x * x - 1)) arcsinh x _ _ DI DS) as D.
    assert (AP : 0 < A x) by (rewrite <- CP; apply ch_pos).
    assert (S : sqrt ((eta x * sqrt (x * x - 1)) ^ 2 + 1) = A x).
    { replace ((eta x * sqrt (x * x - 1)) ^ 2 + 1) with (A x * A x); [apply sqrt_square; lra|]. pose proof (ang' x) as G.
      replace ((eta x * sqrt (x * x - 1)) ^ 2) with ((sqrt (x * x - 1) * sqrt (x * x - 1)) * (eta x * eta x)) by ring. rewrite V2. lra. }
    rewrite S in D. set (v := sqrt (x * x - 1)) in *.
    replace (eta x / (Y x * v)) with (/ A x * (- l * eta x / Y x * v + eta x * (x / v))); [exact D|].
    assert (AX : A x = x * Y x - l * (v * v)) by (unfold A; rewrite V2; ring). rewrite AX in AP |- *. field. repeat split; lra.
Qed.
Lemma T_deriv : forall M x, (-1 < x < 1) \/ (1 < x /\ M = 0%nat) -> is_derive (Tg l M) x (tof_p x (Y x) (Tg l M x) l).
Proof.
  intros M x X. pose proof (Y_pos x) as YP. pose proof (Y_sq x) as YS.
  assert (DN : is_derive (fun x => 1 - x ^ 2) x (- (2 * x))) by (auto_derive; [exact I|ring]).
  assert (NZ : 1 - x ^ 2 <> 0) by (destruct X as [|[]]; nra).
  assert (DL : is_derive (fun x => - x + l * Y x) x (- 1 + l * (l * l * x / Y x))).
  { apply (d_plus (fun x => - x) (fun x => l * Y x)); [|apply d_scal, d_Y]. auto_derive; [exact I|reflexivity]. }
  assert (K : forall w' dpsi, is_derive (fun x => sqrt (Rabs (1 - x ^ 2))) x w' -> is_derive (fun x => compute_psi x (Y x) l) x dpsi ->
    let w := sqrt (Rabs (1 - x ^ 2)) in let p := compute_psi x (Y x) l + INR M * PI in w <> 0 ->
    is_derive (Tg l M) x ((((dpsi + 0) * w - w' * p) / w ^ 2 + (- 1 + l * (l * l * x / Y x))) * (1 - x ^ 2) / (1 - x ^ 2) ^ 2 - (- (2 * x)) * (p / w - x + l * Y x) / (1 - x ^ 2) ^ 2)).
  { intros w' dpsi DW DP w p WN.
    apply (is_derive_ext (fun x => ((compute_psi x (Y x) l + INR M * PI) / sqrt (Rabs (1 - x ^ 2)) + (- x + l * Y x)) / (1 - x ^ 2))).
    { intro t. unfold Tg. fold (Y t). apply (f_equal (fun z : R => z / (1 - t ^ 2))). ring. }
    match goal with |- is_derive _ _ ?v => replace v with (((((dpsi + 0) * w - w' * p) / w ^ 2 + (- 1 + l * (l * l * x / Y x))) * (1 - x ^ 2) - (- (2 * x)) * (p / w + (- x + l * Y x))) / (1 - x ^ 2) ^ 2) end.
    - apply (d_div (fun x => (compute_psi x (Y x) l + INR M * PI) / sqrt (Rabs (1 - x ^ 2)) + (- x + l * Y x)) (fun x => 1 - x ^ 2)); [exact NZ| |exact DN].
      apply d_plus; [|exact DL]. apply (d_div (fun x => compute_psi x (Y x) l + INR M * PI) (fun x => sqrt (Rabs (1 - x ^ 2)))); [exact WN| |exact DW].
      apply d_plus; [exact DP|apply d_const].
    - field. repeat split; try lra; assumption. }
  destruct X as [X|[X MZ]].
  - destruct (w_is x X) as [W W2]. assert (WE : sqrt (Rabs (1 - x ^ 2)) = sqrt (1 - x * x)) by (f_equal; rewrite Rabs_right; [ring|nra]).
    assert (DW : is_derive (fun x => sqrt (Rabs (1 - x ^ 2))) x (- x / sqrt (1 - x * x))).
    { apply (is_derive_ext_loc (fun x => sqrt (1 - x * x))).
      - assert (D : 0 < Rmin (x + 1) (1 - x)) by (apply Rmin_glb_lt; lra). exists (mkposreal _ D). intros t T.
        unfold ball in T. cbn in T. unfold AbsRing_ball, abs, minus, plus, opp in T. cbn in T. apply Rabs_def2 in T. pose proof (Rmin_l (x + 1) (1 - x)). pose proof (Rmin_r (x + 1) (1 - x)).
        assert (-1 < t < 1) by lra. f_equal. rewrite Rabs_right; [ring|nra].
      - auto_derive; [nra|]. replace (1 + - (x * x)) with (1 - x * x) by ring. field. lra. }
    pose proof (K _ _ DW (d_psi_e x X)) as D. cbv zeta in D. rewrite WE in D. specialize (D ltac:(lra)).
    match type of D with is_derive _ _ ?v => replace (tof_p x (Y x) (Tg l M x) l) with v; [exact D|] end.
    unfold tof_p, Tg. fold (Y x). rewrite WE. replace (x ^ 2) with (x * x) by ring. set (w := sqrt (1 - x * x)) in *. rewrite <- W2. unfold eta.
    set (p := compute_psi x (Y x) l + INR M * PI). clearbody p. clearbody w. set (y := Y x) in *. clearbody y. field_simplify_eq; [|repeat split; nra].
    assert (XX : x * x = 1 - w * w) by lra. assert (YY : y * y = 1 - l * l * (w * w)) by (rewrite YS; rewrite W2; ring).
    clear - XX YY. assert (X2 : x ^ 2 = 1 - w * w) by (rewrite <- XX; ring). ring [XX YY].
  - subst M. destruct (v_is x X) as [V V2]. assert (WE : sqrt (Rabs (1 - x ^ 2)) = sqrt (x * x - 1)) by (f_equal; rewrite Rabs_left; [ring|nra]).
    assert (DW : is_derive (fun x => sqrt (Rabs (1 - x ^ 2))) x (x / sqrt (x * x - 1))).
    { apply (is_derive_ext_loc (fun x => sqrt (x * x - 1))).
      - assert (D : 0 < x - 1) by lra. exists (mkposreal _ D). intros t T.
        unfold ball in T. cbn in T. unfold AbsRing_ball, abs, minus, plus, opp in T. cbn in T. apply Rabs_def2 in T.
        f_equal. rewrite Rabs_left; [ring|nra].
      - auto_derive; [nra|]. replace (x * x + - (1)) with (x * x - 1) by ring. field. lra. }
    pose proof (K _ _ DW (d_psi_h x X)) as D. cbv zeta in D. rewrite WE in D. specialize (D ltac:(lra)).
    match type of D with is_derive _ _ ?v => replace (tof_p x (Y x) (Tg l 0 x) l) with v; [exact D|] end.
    unfold tof_p, Tg. fold (Y x). rewrite WE. replace (x ^ 2) with (x * x) by ring. set (w := sqrt (x * x - 1)) in *. replace (1 - x * x) with (- (w * w)) by lra. unfold eta.
    set (p := compute_psi x (Y x) l + INR 0 * PI). clearbody p. clearbody w. set (y := Y x) in *. clearbody y. field_simplify_eq; [|repeat split; nra].
    assert (XX : x * x = 1 + w * w) by lra. assert (YY : y * y = 1 + l * l * (w * w)) by (rewrite YS; rewrite V2; ring).
    clear - XX YY. ring [XX YY].
Qed.
Lemma T_deriv2 : forall (T : R -> R) x, 1 - x ^ 2 <> 0 -> is_derive T x (tof_p x (Y x) (T x) l) ->
  is_derive (fun x => tof_p x (Y x) (T x) l) x (tof_p2 x (Y x) (T x) (tof_p x (Y x) (T x) l) l).
Proof.
  intros T x NZ D. pose proof (Y_pos x) as YP. pose proof (Y_sq x) as YS. set (dT := tof_p x (Y x) (T x) l) in *.
  assert (DN : is_derive (fun x => 1 - x ^ 2) x (- (2 * x))) by (auto_derive; [exact I|ring]).
  assert (D1 : is_derive (fun x => 3 * T x * x - 2 + 2 * l ^ 3 * x / Y x) x ((3 * dT * x + 3 * T x * 1 - 0) + (2 * l ^ 3 * 1 * Y x - l * l * x / Y x * (2 * l ^ 3 * x)) / Y x ^ 2)).
  { apply d_plus.
    - apply d_minus; [|apply d_const]. apply (d_mult (fun x => 3 * T x) (fun x => x)); [|apply d_id]. apply d_scal. exact D.
    - apply (d_div (fun x => 2 * l ^ 3 * x) Y); [lra| |apply d_Y]. apply d_scal. apply d_id. }
  unfold tof_p at 1. pose proof (d_div (fun x => 3 * T x * x - 2 + 2 * l ^ 3 * x / Y x) (fun x => 1 - x ^ 2) x _ _ NZ D1 DN) as DD.
  match type of DD with is_derive _ _ ?v => replace (tof_p2 x (Y x) (T x) dT l) with v; [exact DD|] end.
  assert (E : 3 * T x * x - 2 + 2 * l ^ 3 * x / Y x = dT * (1 - x ^ 2)) by (unfold dT, tof_p; field; split; lra). rewrite E.
  unfold tof_p2. set (y := Y x) in *. clearbody dT y. set (t := T x) in *. clearbody t. field_simplify_eq; [|split; lra].
  assert (Y2 : y ^ 2 = 1 - l * l * (1 - x * x)) by (rewrite <- YS; ring). assert (Y4 : y ^ 4 = (1 - l * l * (1 - x * x)) * y ^ 2) by (rewrite <- Y2; ring).
  assert (Y3 : y ^ 3 = (1 - l * l * (1 - x * x)) * y) by (rewrite <- Y2; ring). clear - YS. ring [YS].
Qed.
Lemma T_deriv3 : forall (T dT : R -> R) x, 1 - x ^ 2 <> 0 -> is_derive T x (dT x) -> is_derive dT x (tof_p2 x (Y x) (T x) (dT x) l) ->
  is_derive (fun x => tof_p2 x (Y x) (T x) (dT x) l) x (tof_p3 x (Y x) (dT x) (tof_p2 x (Y x) (T x) (dT x) l) l).
Proof.
  intros T dT x NZ D D2. pose proof (Y_pos x) as YP. pose proof (Y_sq x) as YS. set (ddT := tof_p2 x (Y x) (T x) (dT x) l) in *.
  assert (DN : is_derive (fun x => 1 - x ^ 2) x (- (2 * x))) by (auto_derive; [exact I|ring]).
  assert (DY3 : is_derive (fun x => Y x ^ 3) x (3 * Y x ^ 2 * (l * l * x / Y x))).
  { apply (d_comp Y (fun y => y ^ 3) x _ (3 * Y x ^ 2)); [apply d_Y|]. auto_derive; [exact I|ring]. }
  assert (D1 : is_derive (fun x => 3 * T x + 5 * x * dT x + 2 * (1 - l ^ 2) * l ^ 3 / Y x ^ 3) x
    ((3 * dT x + (5 * 1 * dT x + 5 * x * ddT)) + (0 * Y x ^ 3 - 3 * Y x ^ 2 * (l * l * x / Y x) * (2 * (1 - l ^ 2) * l ^ 3)) / (Y x ^ 3) ^ 2)).
  { apply d_plus.
    - apply d_plus; [apply d_scal; exact D|]. apply (d_mult (fun x => 5 * x) dT); [apply d_scal, d_id|exact D2].
    - apply (d_div (fun _ => 2 * (1 - l ^ 2) * l ^ 3) (fun x => Y x ^ 3)); [apply pow_nonzero; lra|apply d_const|exact DY3]. }
  unfold tof_p2 at 1. pose proof (d_div (fun x => 3 * T x + 5 * x * dT x + 2 * (1 - l ^ 2) * l ^ 3 / Y x ^ 3) (fun x => 1 - x ^ 2) x _ _ NZ D1 DN) as DD.
  match type of DD with is_derive _ _ ?v => replace (tof_p3 x (Y x) (dT x) ddT l) with v; [exact DD|] end.
  assert (E : 3 * T x + 5 * x * dT x + 2 * (1 - l ^ 2) * l ^ 3 / Y x ^ 3 = ddT * (1 - x ^ 2)) by (unfold ddT, tof_p2; field; split; lra). rewrite E.
  unfold tof_p3. set (y := Y x) in *. set (t := T x) in *. set (dt := dT x) in *. clearbody ddT. clearbody dt. clearbody t. clearbody y. field. split; lra.
Qed.
End deriv.
