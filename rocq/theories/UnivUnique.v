(* Conservation laws of the two-body problem and uniqueness of its solution. *)
From Coq Require Import Reals Lra Psatz.
From Coquelicot Require Import Coquelicot.
From Verif Require Import SphModel SphProofs KepModel KepElem UnivModel UnivSpec UnivFun UnivOrbit UnivTime.
Open Scope R_scope.

Lemma cauchy : forall u w, Rabs (dot u w) <= norm u * norm w.
Proof.
  intros u w. replace (norm u * norm w) with (Rabs (norm u * norm w)) by (apply Rabs_right, Rle_ge, Rmult_le_pos; apply norm_nonneg).
  apply Rsqr_le_abs_0. unfold Rsqr. replace (norm u * norm w * (norm u * norm w)) with (norm u ^ 2 * norm w ^ 2) by ring.
  rewrite !norm_sq. pose proof (lagrange_id u w) as L. pose proof (dot_nonneg (cross u w)) as N. nra.
Qed.
Lemma norm_0 : norm (0, 0, 0) = 0.
Proof. unfold norm, dot. rewrite !Rmult_0_r, !Rplus_0_r. apply sqrt_0. Qed.
Lemma norm_pos : forall u, u <> (0, 0, 0) -> 0 < norm u.
Proof. intros u N. apply sqrt_lt_R0, dot_pos, N. Qed.

Section Solution.
Variables (mu : R) (X V : R -> vec).
Hypotheses (mu_pos : 0 < mu) (sol : two_body mu X V).

Lemma dX : forall t : R, is_derive (fun t => vx (X t)) t (vx (V t)) /\ is_derive (fun t => vy (X t)) t (vy (V t)) /\ is_derive (fun t => vz (X t)) t (vz (V t)).
Proof. intro t. destruct (sol t) as (_ & (A & B & C) & _). split; [|split]; apply (proj2 (d_lim _ _ _)); assumption. Qed.
Lemma dV : forall t : R, is_derive (fun t => vx (V t)) t (- mu / norm (X t) ^ 3 * vx (X t)) /\
  is_derive (fun t => vy (V t)) t (- mu / norm (X t) ^ 3 * vy (X t)) /\ is_derive (fun t => vz (V t)) t (- mu / norm (X t) ^ 3 * vz (X t)).
Proof.
  intro t. destruct (sol t) as (_ & _ & (A & B & C)). revert A B C. generalize (- mu / norm (X t) ^ 3). intro k.
  destruct (X t) as [[x y] z]. unfold scale, vx, vy, vz. cbn [fst snd]. intros A B C. split; [|split]; apply (proj2 (d_lim _ _ _)); assumption.
Qed.
Lemma X_pos : forall t, 0 < norm (X t).
Proof. intro t. apply norm_pos, sol. Qed.
Lemma momentum_const : forall s t, cross (X s) (V s) = cross (X t) (V t).
Proof.
  assert (C : forall u w, cross u w = (vy u * vz w - vz u * vy w, vz u * vx w - vx u * vz w, vx u * vy w - vy u * vx w)).
  { intros [[a b] c] [[x y] z]. reflexivity. }
  intros s t. rewrite !C. apply f_equal2; [apply f_equal2|];
  [apply (flat (fun t => vy (X t) * vz (V t) - vz (X t) * vy (V t)))
  |apply (flat (fun t => vz (X t) * vx (V t) - vx (X t) * vz (V t)))
  |apply (flat (fun t => vx (X t) * vy (V t) - vy (X t) * vx (V t)))]; intro u;
  destruct (dX u) as (X1 & X2 & X3); destruct (dV u) as (V1 & V2 & V3).
  - refine (d_eq _ _ _ _ (d_minus _ _ _ _ _ (d_mult _ _ _ _ _ X2 V3) (d_mult _ _ _ _ _ X3 V2)) _). ring.
  - refine (d_eq _ _ _ _ (d_minus _ _ _ _ _ (d_mult _ _ _ _ _ X3 V1) (d_mult _ _ _ _ _ X1 V3)) _). ring.
  - refine (d_eq _ _ _ _ (d_minus _ _ _ _ _ (d_mult _ _ _ _ _ X1 V2) (d_mult _ _ _ _ _ X2 V1)) _). ring.
Qed.
Lemma dot_xyz : forall u w, dot u w = vx u * vx w + vy u * vy w + vz u * vz w.
Proof. intros [[a b] c] [[x y] z]. reflexivity. Qed.
Lemma d_XX : forall t, is_derive (fun t => dot (X t) (X t)) t (2 * dot (X t) (V t)).
Proof.
  intro t. destruct (dX t) as (X1 & X2 & X3).
  apply (d_ext (fun t => vx (X t) * vx (X t) + vy (X t) * vy (X t) + vz (X t) * vz (X t)) _ t
    (vx (V t) * vx (X t) + vx (X t) * vx (V t) + (vy (V t) * vy (X t) + vy (X t) * vy (V t)) + (vz (V t) * vz (X t) + vz (X t) * vz (V t)))).
  - intro y. symmetry. apply dot_xyz.
  - rewrite dot_xyz. ring.
  - exact (d_plus _ _ _ _ _ (d_plus _ _ _ _ _ (d_mult _ _ _ _ _ X1 X1) (d_mult _ _ _ _ _ X2 X2)) (d_mult _ _ _ _ _ X3 X3)).
Qed.
Lemma d_VV : forall t, is_derive (fun t => dot (V t) (V t)) t (2 * (- mu / norm (X t) ^ 3) * dot (X t) (V t)).
Proof.
  intro t. destruct (dV t) as (X1 & X2 & X3). set (k := - mu / norm (X t) ^ 3) in *.
  apply (d_ext (fun t => vx (V t) * vx (V t) + vy (V t) * vy (V t) + vz (V t) * vz (V t)) _ t
    (k * vx (X t) * vx (V t) + vx (V t) * (k * vx (X t)) + (k * vy (X t) * vy (V t) + vy (V t) * (k * vy (X t))) + (k * vz (X t) * vz (V t) + vz (V t) * (k * vz (X t))))).
  - intro y. symmetry. apply dot_xyz.
  - rewrite dot_xyz. ring.
  - exact (d_plus _ _ _ _ _ (d_plus _ _ _ _ _ (d_mult _ _ _ _ _ X1 X1) (d_mult _ _ _ _ _ X2 X2)) (d_mult _ _ _ _ _ X3 X3)).
Qed.
Lemma d_norm : forall t, is_derive (fun t => norm (X t)) t (dot (X t) (V t) / norm (X t)).
Proof.
  intro t. pose proof (X_pos t) as P. pose proof (norm_sq (X t)) as N.
  assert (Q : 0 < dot (X t) (X t)) by (rewrite <- N; apply pow_lt; exact P).
  refine (d_eq _ _ _ _ (d_comp (fun t => dot (X t) (X t)) sqrt t _ (/ (2 * sqrt (dot (X t) (X t)))) (d_XX t) _) _).
  - apply (proj2 (d_lim _ _ _)). apply derivable_pt_lim_sqrt. exact Q.
  - unfold norm. unfold norm in P. field. lra.
Qed.
Lemma energy_const : forall s t, dot (V s) (V s) / 2 - mu / norm (X s) = dot (V t) (V t) / 2 - mu / norm (X t).
Proof.
  apply (flat (fun t => dot (V t) (V t) / 2 - mu / norm (X t))). intro u. pose proof (X_pos u) as P.
  apply (d_ext (fun t => / 2 * dot (V t) (V t) - mu / norm (X t)) _ u
    (/ 2 * (2 * (- mu / norm (X u) ^ 3) * dot (X u) (V u)) - (0 * norm (X u) - dot (X u) (V u) / norm (X u) * mu) / norm (X u) ^ 2)).
  - intro y. field. pose proof (X_pos y). lra.
  - field. lra.
  - apply d_minus; [apply d_scal, d_VV|]. apply (d_div (fun _ => mu) (fun t => norm (X t))); [lra|apply d_const|apply d_norm].
Qed.
(* the distance stays above the bound that the initial state sets *)
Lemma stays_out : cross (X 0) (V 0) <> (0, 0, 0) -> forall t, low (X 0) (V 0) mu <= norm (X t).
Proof.
  intros F t. pose proof (X_pos t) as P. apply low_bound; [assumption..|].
  pose proof (r0_pos (X 0) (V 0) F) as R0.
  assert (E : 2 * norm (X 0) - alpha (X 0) (V 0) mu * norm (X 0) ^ 2 - (dot (X 0) (V 0) / sqrt mu) ^ 2 = dot (cross (X 0) (V 0)) (cross (X 0) (V 0)) / mu).
  { rewrite lagrange_id, <- !norm_sq. unfold alpha.
    replace ((dot (X 0) (V 0) / sqrt mu) ^ 2) with (dot (X 0) (V 0) ^ 2 / (sqrt mu * sqrt mu)) by (field; pose proof (sqrt_lt_R0 mu mu_pos); lra).
    rewrite sqrt_sqrt by lra. field. lra. }
  rewrite E, (momentum_const 0 t), lagrange_id.
  assert (VV : dot (V t) (V t) = mu * (2 / norm (X t) - alpha (X 0) (V 0) mu)).
  { pose proof (energy_const 0 t) as EE. unfold alpha. rewrite norm_sq.
    replace (mu * (2 / norm (X t) - (- dot (V 0) (V 0) / mu + 2 / norm (X 0)))) with (2 * (mu / norm (X t) + (dot (V 0) (V 0) / 2 - mu / norm (X 0)))) by (field; lra).
    rewrite EE. field. lra. }
  rewrite VV, <- norm_sq. pose proof (pow2_ge_0 (dot (X t) (V t))) as D.
  apply Rmult_le_reg_r with mu; [exact mu_pos|]. unfold Rdiv. rewrite Rmult_assoc, Rinv_l, Rmult_1_r by lra.
  replace (norm (X t) ^ 2 * (mu * (2 * / norm (X t) - alpha (X 0) (V 0) mu))) with ((2 * norm (X t) - alpha (X 0) (V 0) mu * norm (X t) ^ 2) * mu) by (field; lra).
  lra.
Qed.
End Solution.

(* ---- uniqueness ---- *)
Lemma force_lipschitz : forall q x y mu, 0 < q -> q <= norm x -> q <= norm y ->
  let k := - mu / norm x ^ 3 in let l := - mu / norm y ^ 3 in
  (k * vx x - l * vx y) ^ 2 + (k * vy x - l * vy y) ^ 2 + (k * vz x - l * vz y) ^ 2 <=
  4 * mu ^ 2 / q ^ 6 * ((vx x - vx y) ^ 2 + (vy x - vy y) ^ 2 + (vz x - vz y) ^ 2).
Proof.
  intros q x y mu Q A B k l. set (a := norm x) in *. set (b := norm y) in *.
  set (d := (vx x - vx y) ^ 2 + (vy x - vy y) ^ 2 + (vz x - vz y) ^ 2).
  assert (Da : a ^ 2 = vx x ^ 2 + vy x ^ 2 + vz x ^ 2) by (unfold a; rewrite norm_sq, dot_xyz; ring).
  assert (Db : b ^ 2 = vx y ^ 2 + vy y ^ 2 + vz y ^ 2) by (unfold b; rewrite norm_sq, dot_xyz; ring).
  assert (Dd : d = a ^ 2 + b ^ 2 - 2 * dot x y) by (rewrite Da, Db, dot_xyz; unfold d; ring).
  assert (T : (b - a) ^ 2 <= d).
  { rewrite Dd. pose proof (cauchy x y) as C. fold a b in C. pose proof (Rle_abs (dot x y)). nra. }
  assert (E : (k * vx x - l * vx y) ^ 2 + (k * vy x - l * vy y) ^ 2 + (k * vz x - l * vz y) ^ 2 =
    mu ^ 2 * (d * / (a ^ 3 * b ^ 3) + (b - a) ^ 2 * (/ (a ^ 2 * b ^ 4) + / (a ^ 3 * b ^ 3) + / (a ^ 4 * b ^ 2)))).
  { transitivity (k ^ 2 * a ^ 2 + l ^ 2 * b ^ 2 - k * l * (a ^ 2 + b ^ 2 - d)).
    - rewrite Dd, Da, Db, dot_xyz. ring.
    - unfold k, l. field. lra. }
  rewrite E.
  assert (I : forall n j, (n + j = 6)%nat -> 0 < / (a ^ n * b ^ j) <= / q ^ 6).
  { intros n j NJ. rewrite <- NJ, pow_add. assert (0 < a ^ n) by (apply pow_lt; lra). assert (0 < b ^ j) by (apply pow_lt; lra).
    split; [apply Rinv_0_lt_compat; nra|]. apply Rinv_le_contravar; [apply Rmult_lt_0_compat; apply pow_lt; lra|].
    apply Rmult_le_compat; try (apply pow_le; lra); apply pow_incr; lra. }
  pose proof (I 3%nat 3%nat eq_refl) as I1. pose proof (I 2%nat 4%nat eq_refl) as I2. pose proof (I 4%nat 2%nat eq_refl) as I3.
  set (i := / q ^ 6) in *. replace (4 * mu ^ 2 / q ^ 6 * d) with (mu ^ 2 * (4 * i * d)) by (unfold i; field; lra).
  apply Rmult_le_compat_l; [apply pow2_ge_0|].
  assert (Dp : 0 <= d) by (apply Rle_trans with (2 := T); apply pow2_ge_0).
  assert (S1 : d * / (a ^ 3 * b ^ 3) <= d * i) by (apply Rmult_le_compat_l; lra).
  assert (S2 : (b - a) ^ 2 * (/ (a ^ 2 * b ^ 4) + / (a ^ 3 * b ^ 3) + / (a ^ 4 * b ^ 2)) <= d * (3 * i)).
  { apply Rmult_le_compat; [apply pow2_ge_0|lra|exact T|lra]. }
  lra.
Qed.

Lemma gronwall : forall (D D' : R -> R) L, (forall t, is_derive D t (D' t)) -> (forall t, 0 <= D t) ->
  (forall t, Rabs (D' t) <= L * D t) -> D 0 = 0 -> forall t, D t = 0.
Proof.
  intros D D' L dD pos bound z t.
  assert (ex : forall k u, is_derive (fun t => exp (k * t)) u (k * exp (k * u))).
  { intros k u. auto_derive; [exact I|]. ring. }
  destruct (Rle_lt_dec 0 t) as [G|G].
  - pose proof (grows (fun t => - (D t * exp (- L * t))) (fun t => - (D' t * exp (- L * t) + D t * (- L * exp (- L * t)))) 0) as M.
    assert (K : 0 * (t - 0) <= - (D t * exp (- L * t)) - - (D 0 * exp (- L * 0))).
    { apply M; [| |exact G].
      - intro u. apply (d_ext (fun t => (-1) * (D t * exp (- L * t))) _ u ((-1) * (D' u * exp (- L * u) + D u * (- L * exp (- L * u))))); [intro; ring|ring|].
        apply d_scal. apply (d_mult D (fun t => exp (- L * t))); [apply dD|apply ex].
      - intro u. pose proof (bound u) as B. pose proof (Rle_abs (D' u)). pose proof (exp_pos (- L * u)) as P. nra. }
    rewrite z in K. pose proof (exp_pos (- L * t)). specialize (pos t). nra.
  - pose proof (grows (fun t => D t * exp (L * t)) (fun t => D' t * exp (L * t) + D t * (L * exp (L * t))) 0) as M.
    assert (K : 0 * (0 - t) <= D 0 * exp (L * 0) - D t * exp (L * t)).
    { apply M; [| |lra].
      - intro u. apply (d_mult D (fun t => exp (L * t))); [apply dD|apply ex].
      - intro u. pose proof (bound u) as B. pose proof (Rle_abs (- D' u)) as A. rewrite Rabs_Ropp in A. pose proof (exp_pos (L * u)) as P. nra. }
    rewrite z in K. pose proof (exp_pos (L * t)). specialize (pos t). nra.
Qed.

Lemma unique_motion : forall mu X V Y W, 0 < mu -> two_body mu X V -> two_body mu Y W ->
  cross (X 0) (V 0) <> (0, 0, 0) -> X 0 = Y 0 -> V 0 = W 0 -> forall t, X t = Y t /\ V t = W t.
Proof.
  intros mu X V Y W M SX SY F EX EV t. set (q := low (X 0) (V 0) mu).
  pose proof (low_pos (X 0) (V 0) mu M F) as Q. fold q in Q.
  pose proof (stays_out mu X V M SX F) as LX. fold q in LX.
  assert (LY : forall t, q <= norm (Y t)).
  { unfold q. rewrite EX, EV in *. apply (stays_out mu Y W M SY). exact F. }
  set (sq := fun f : vec -> R => fun t => (f (X t) - f (Y t)) * (f (X t) - f (Y t)) + (f (V t) - f (W t)) * (f (V t) - f (W t))).
  set (D := fun t => sq vx t + sq vy t + sq vz t).
  set (k := fun t => - mu / norm (X t) ^ 3). set (l := fun t => - mu / norm (Y t) ^ 3).
  set (sq' := fun f : vec -> R => fun t => 2 * ((f (X t) - f (Y t)) * (f (V t) - f (W t))) + 2 * ((f (V t) - f (W t)) * (k t * f (X t) - l t * f (Y t)))).
  assert (G : forall t, D t = 0).
  { apply (gronwall D (fun t => sq' vx t + sq' vy t + sq' vz t) (2 + 4 * mu ^ 2 / q ^ 6)).
    - intro u. destruct (dX mu X V SX u) as (X1 & X2 & X3). destruct (dV mu X V SX u) as (V1 & V2 & V3).
      destruct (dX mu Y W SY u) as (Y1 & Y2 & Y3). destruct (dV mu Y W SY u) as (W1 & W2 & W3).
      assert (S : forall f, is_derive (fun t => f (X t)) u (f (V u)) -> is_derive (fun t => f (Y t)) u (f (W u)) ->
        is_derive (fun t => f (V t)) u (k u * f (X u)) -> is_derive (fun t => f (W t)) u (l u * f (Y u)) -> is_derive (sq f) u (sq' f u)).
      { intros f A B C E. pose proof (d_minus _ _ _ _ _ A B) as AB. pose proof (d_minus _ _ _ _ _ C E) as CE.
        refine (d_eq _ _ _ _ (d_plus _ _ _ _ _ (d_mult _ _ _ _ _ AB AB) (d_mult _ _ _ _ _ CE CE)) _). unfold sq'. ring. }
      exact (d_plus _ _ _ _ _ (d_plus _ _ _ _ _ (S vx X1 Y1 V1 W1) (S vy X2 Y2 V2 W2)) (S vz X3 Y3 V3 W3)).
    - intro u. unfold D, sq. repeat apply Rplus_le_le_0_compat; apply Rle_0_sqr.
    - intro u. pose proof (force_lipschitz q (X u) (Y u) mu Q (LX u) (LY u)) as FL. cbv zeta in FL. fold (k u) (l u) in FL.
      set (c := 4 * mu ^ 2 / q ^ 6) in *.
      assert (C0 : 0 <= c). { unfold c. apply Rmult_le_pos; [pose proof (pow2_ge_0 mu); lra|left; apply Rinv_0_lt_compat, pow_lt, Q]. }
      unfold D, sq, sq'.
      set (a1 := vx (X u) - vx (Y u)) in *. set (a2 := vy (X u) - vy (Y u)) in *. set (a3 := vz (X u) - vz (Y u)) in *.
      set (b1 := vx (V u) - vx (W u)). set (b2 := vy (V u) - vy (W u)). set (b3 := vz (V u) - vz (W u)).
      set (g1 := k u * vx (X u) - l u * vx (Y u)) in *. set (g2 := k u * vy (X u) - l u * vy (Y u)) in *. set (g3 := k u * vz (X u) - l u * vz (Y u)) in *.
      assert (T : forall s t, Rabs (2 * (s * t)) <= s * s + t * t).
      { intros s t0. apply Rabs_le. pose proof (Rle_0_sqr (s - t0)) as P1. pose proof (Rle_0_sqr (s + t0)) as P2. unfold Rsqr in P1, P2. lra. }
      pose proof (T a1 b1) as T1. pose proof (T a2 b2) as T2. pose proof (T a3 b3) as T3.
      pose proof (T b1 g1) as T4. pose proof (T b2 g2) as T5. pose proof (T b3 g3) as T6.
      assert (Tr : Rabs (2 * (a1 * b1) + 2 * (b1 * g1) + (2 * (a2 * b2) + 2 * (b2 * g2)) + (2 * (a3 * b3) + 2 * (b3 * g3))) <=
        Rabs (2 * (a1 * b1)) + Rabs (2 * (b1 * g1)) + (Rabs (2 * (a2 * b2)) + Rabs (2 * (b2 * g2))) + (Rabs (2 * (a3 * b3)) + Rabs (2 * (b3 * g3)))).
      { eapply Rle_trans; [apply Rabs_triang|apply Rplus_le_compat; [eapply Rle_trans; [apply Rabs_triang|apply Rplus_le_compat]|]]; apply Rabs_triang. }
      apply Rle_trans with (1 := Tr).
      pose proof (Rle_0_sqr b1) as B1. pose proof (Rle_0_sqr b2) as B2. pose proof (Rle_0_sqr b3) as B3. unfold Rsqr in B1, B2, B3.
      pose proof (Rle_0_sqr a1) as A1. pose proof (Rle_0_sqr a2) as A2. pose proof (Rle_0_sqr a3) as A3. unfold Rsqr in A1, A2, A3.
      assert (CB : 0 <= c * (b1 * b1 + b2 * b2 + b3 * b3)) by (apply Rmult_le_pos; lra).
      clear Tr T. nra.
    - unfold D, sq. rewrite EX, EV. ring. }
  specialize (G t). unfold D, sq in G.
  assert (Z : forall f, 0 <= (f (X t) - f (Y t)) * (f (X t) - f (Y t)) + (f (V t) - f (W t)) * (f (V t) - f (W t))).
  { intro f. apply Rplus_le_le_0_compat; apply Rle_0_sqr. }
  pose proof (Z vx) as Zx. pose proof (Z vy) as Zy. pose proof (Z vz) as Zz.
  assert (S : forall f, (f (X t) - f (Y t)) * (f (X t) - f (Y t)) + (f (V t) - f (W t)) * (f (V t) - f (W t)) = 0 -> f (X t) = f (Y t) /\ f (V t) = f (W t)).
  { intros f E. pose proof (Rplus_sqr_eq_0_l _ _ E). rewrite Rplus_comm in E. pose proof (Rplus_sqr_eq_0_l _ _ E). lra. }
  destruct (S vx ltac:(lra)) as [P1 P2]. destruct (S vy ltac:(lra)) as [P3 P4]. destruct (S vz ltac:(lra)) as [P5 P6].
  rewrite (vec_eta (X t)), (vec_eta (Y t)), (vec_eta (V t)), (vec_eta (W t)), P1, P2, P3, P4, P5, P6. split; reflexivity.
Qed.
