(* Covariances of two-body ephemerides. *)
From Coq Require Import Reals Lra Lia String List Bool.
From Coquelicot Require Import Coquelicot.
From Verif Require Import Base ListLemmas SphModel SphSpec SphProofs KepModel KepSpec KepElem UnivModel LightModel LightProofs FrameModel PhotModel EphModel EphSpec EphProofs.
Import ListNotations.
Open Scope string_scope.
Open Scope list_scope.
Open Scope R_scope.

(* the coordinates the library gives for the orbit o with the state x, seen by the observer b *)
Definition coordinates_of rel itrf mu jac c fo fb (o : orbit) (b : observer) (x : row6) : option row6 :=
  match generate_ephemeris_2body rel itrf mu jac c fo fb
          [mkorbit (or_id o) (or_object o) (or_epoch o) (or_origin o) x (or_cov o) (or_H o) (or_G o)] [b] false false with
  | Ok (e :: nil) => Some (e_coord e)
  | _ => None
  end.

Lemma osum_some : forall f g, (forall i, (i < 6)%nat -> f i = Some (g i)) -> osum6 f = Some (total6 g).
Proof.
  intros f g H. unfold osum6. cbn [fold_right].
  rewrite (H 0%nat), (H 1%nat), (H 2%nat), (H 3%nat), (H 4%nat), (H 5%nat) by lia. f_equal. unfold total6. ring.
Qed.
Lemma sandwich_some : forall J c D C i j,
  (forall k, (k < 6)%nat -> J i k = Some (D i k) /\ J j k = Some (D j k)) -> (forall k l, (k < 6)%nat -> (l < 6)%nat -> c k l = Some (C k l)) ->
  sandwich J c i j = Some (propagated D C i j).
Proof.
  intros J c D C i j HJ HC. unfold sandwich.
  rewrite (osum_some _ (fun l => total6 (fun k => D i k * C k l) * D j l)).
  - f_equal. unfold propagated, total6. ring.
  - intros l Hl. rewrite (osum_some _ (fun k => D i k * C k l)); [|intros k Hk; rewrite (proj1 (HJ k Hk)), (HC k l) by assumption; reflexivity].
    rewrite (proj2 (HJ l Hl)). reflexivity.
Qed.
Lemma all_missing_some : forall c x, c 0%nat 0%nat = Some x -> all_missing c = false.
Proof. intros c x H. unfold all_missing. cbn [forallb]. rewrite H. reflexivity. Qed.

(* the function differentiated, for a barycentric row *)
Lemma coordinates_kernel : forall rel itrf mu jac c fb o b x y w, rest rel -> (fb = "ecliptic" \/ fb = "equatorial") ->
  or_origin o = "SOLAR_SYSTEM_BARYCENTER" -> barycentric_state rel fb (ob_origin b) (ob_epoch b) (ob_state b) w ->
  coordinates_of rel itrf mu jac c "ecliptic" fb o b x = Some y -> fst (fst (kernel c x (or_epoch o) w mu)) = Some y.
Proof.
  intros rel itrf mu jac c fb o b x y w Z FB OR BW H. unfold coordinates_of in H.
  match type of H with match ?g with _ => _ end = _ => destruct g as [[|e [|]]|] eqn:G end; try discriminate. injection H as <-.
  destruct (gen_rows rel itrf Z mu jac _ _ _ _ _ _ _ _ (or_introl eq_refl) FB G) as (_ & _ & K).
  destruct (K 0%nat e eq_refl) as (o' & b' & s & w' & NO & NB & BS & BW' & KE & _). cbn in NO, NB. injection NO as <-. injection NB as <-.
  cbn [or_origin or_epoch or_state] in *. rewrite (barycentric_unique rel _ _ _ _ _ _ BW' BW) in KE.
  assert (BX : barycentric_state rel "ecliptic" (or_origin o) (or_epoch o) x x).
  { exists (mk6 0 0 0 0 0 0). split; [rewrite OR; apply Z|]. left. split; [reflexivity|]. rewrite <- pos_add, <- vel_add, zero6_add. auto. }
  rewrite (barycentric_unique rel _ _ _ _ _ _ BS BX) in KE. rewrite KE. reflexivity.
Qed.
Lemma partial_incl : forall f g x i j d, (forall z y, f z = Some y -> g z = Some y) -> partial_derivative f x i j d -> partial_derivative g x i j d.
Proof.
  intros f g x i j d I (u & delta & D & A & B). exists u, delta. split; [exact D|]. split; [|exact B].
  intros h Hh. destruct (A h Hh) as (y & Y & E). exists y. split; [apply I; exact Y|exact E].
Qed.

(* ---- the light time switched off ---- *)
Lemma kernel_off : forall n tol x t obs mu, kernel (mkset (10 ^ 30) n tol false) x t obs mu =
  (Some (cartesian_to_spherical (rotate_ec2eq (sub6 x obs))), Some (10 ^ 30), Some x).
Proof.
  intros. unfold kernel. cbn [lt_tol max_iter kep_tol stellar]. unfold add_light_time, max_lt_iter.
  cbn [lt_loop]. destruct (Rlt_dec (10 ^ 30) (10 ^ 30)) as [E|E]; [exfalso; exact (Rlt_irrefl _ E)|]. reflexivity.
Qed.
Lemma rho_sub : forall x obs, c_0 (cartesian_to_spherical (rotate_ec2eq (sub6 x obs))) = norm (towards (pos obs) (pos x)).
Proof. intros. rewrite rho_norm. unfold rotate_ec2eq. rewrite pos_rot, mat_equatorial, equatorial_norm, pos_sub. reflexivity. Qed.

Definition gradient (v : vec) (j : nat) : R :=
  let '(x, y, z) := v in match j with 0%nat => x / norm v | 1%nat => y / norm v | 2%nat => z / norm v | _ => 0 end.
Lemma sqrt_line : forall a b, 0 < a * a + b -> is_derive (fun h => sqrt ((a + h) * (a + h) + b)) 0 (a / sqrt (a * a + b)).
Proof.
  intros a b H. auto_derive.
  - rewrite Rplus_0_r. exact H.
  - rewrite Rplus_0_r. pose proof (sqrt_lt_R0 _ H). field. lra.
Qed.
Lemma derive_ext0 : forall (f g : R -> R) d, (forall h, f h = g h) -> is_derive f 0 d -> derivable_pt_lim g 0 d.
Proof. intros f g d E H. apply is_derive_Reals. apply is_derive_ext with f; assumption. Qed.
Lemma norm_derive : forall f x b j, (j < 6)%nat ->
  (forall y, exists u, f y = Some u /\ c_0 u = norm (vplus (pos y) b)) -> 0 < norm (vplus (pos x) b) ->
  partial_derivative f x 0 j (gradient (vplus (pos x) b) j).
Proof.
  intros f x b j Hj F P. exists (fun h => norm (vplus (pos (bump x j h)) b)), 1. split; [lra|]. split.
  - intros h _. destruct (F (bump x j h)) as (u & A & B). exists u. split; [exact A|exact B].
  - destruct x as [x0 x1 x2 x3 x4 x5], b as [[b0 b1] b2]. unfold pos, vplus, gradient, norm, dot in *. cbn [c_0 c_1 c_2] in *.
    set (p := x0 + b0) in *. set (q := x1 + b1) in *. set (r := x2 + b2) in *.
    assert (S : 0 < p * p + q * q + r * r) by (apply sqrt_lt_0_alt; rewrite sqrt_0; exact P).
    assert (C : j = 0%nat \/ j = 1%nat \/ j = 2%nat \/ j = 3%nat \/ j = 4%nat \/ j = 5%nat) by lia.
    destruct C as [->|[->|[->|[->|[->| ->]]]]]; cbn [bump c_0 c_1 c_2].
    + apply derive_ext0 with (fun h => sqrt ((p + h) * (p + h) + (q * q + r * r))); [intro h; f_equal; unfold p, q, r; ring|].
      replace (p * p + q * q + r * r) with (p * p + (q * q + r * r)) in * by ring. apply sqrt_line. exact S.
    + apply derive_ext0 with (fun h => sqrt ((q + h) * (q + h) + (p * p + r * r))); [intro h; f_equal; unfold p, q, r; ring|].
      replace (p * p + q * q + r * r) with (q * q + (p * p + r * r)) in * by ring. apply sqrt_line. exact S.
    + apply derive_ext0 with (fun h => sqrt ((r + h) * (r + h) + (p * p + q * q))); [intro h; f_equal; unfold p, q, r; ring|].
      replace (p * p + q * q + r * r) with (r * r + (p * p + q * q)) in * by ring. apply sqrt_line. exact S.
    + apply derivable_pt_lim_const.
    + apply derivable_pt_lim_const.
    + apply derivable_pt_lim_const.
Qed.
