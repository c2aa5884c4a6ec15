(* A worked geometry: three positions on the unit circle seen from three observers. *)
From Coq Require Import Reals Lra Lia List String Field.
From Verif Require Import Base StrOrder SphModel SphSpec SphProofs KepModel KepSpec KepElem LightModel FrameModel FrameProofs OdModel GaussModel GaussSpec GaussProofs GaussVel.
Import ListNotations.
Open Scope R_scope.

Definition toy_q1 : vec := (4 / 5, - 3 / 5, -1).
Definition toy_q2 : vec := (1 / 2, 0, 0).
Definition toy_q3 : vec := (4 / 5, - 2 / 5, 0).
Definition toy_u1 (s : R) : vec := (0, 0, s).
Definition toy_u2 : vec := (1, 0, 0).
Definition toy_u3 : vec := (0, 1, 0).
(* a root finder that knows one candidate *)
Definition one_root (c : list R) : list R := if Req_EM_T (peval c 1) 0 then [1] else [].
Lemma one_root_finds : finds_roots one_root.
Proof. intros c x. unfold one_root. destruct (Req_EM_T (peval c 1) 0) as [E|]; intros [].
  - subst. split; [lra|exact E].
  - contradiction.
Qed.

Lemma toy_q2_norm : norm toy_q2 = 1 / 2.
Proof. apply norm_of; [lra|]. unfold toy_q2. cbn. field. Qed.
Lemma light_big : 173 < light.
Proof. unfold light, km_p_au, s_p_day. lra. Qed.
Lemma sqrt_MU : 0 < sqrt MU < 1.
Proof. pose proof MU_pos. split; [apply sqrt_lt_R0; lra|]. rewrite <- sqrt_1. apply sqrt_lt_1; lra. Qed.

Section Toy.
  Variables (s : R) (S : s = 1 \/ s = -1).
  Let u1 := toy_u1 s.
  Lemma toy_V : calc_V u1 toy_u2 toy_u3 = s.
  Proof. unfold calc_V, u1, toy_u1, toy_u2, toy_u3. cbn. ring. Qed.
  Lemma toy_B : forall mu k, calc_B toy_q1 toy_q3 u1 toy_u3 (k * 1 - k * -1) (k * 1 - k * 0) (k * 0 - k * -1) mu = - (s * mu * k ^ 3 * (4 / 5)).
  Proof. intros. unfold calc_B, toy_q1, toy_q3, u1, toy_u1, toy_u3. cbn. field. Qed.
  Lemma toy_poly : peval (gauss_poly toy_q1 toy_q2 toy_q3 u1 toy_u2 toy_u3 (-1) 0 1 (1 / 2)) 1 = 0.
  Proof.
    assert (C : gauss_C0 toy_q1 toy_q2 toy_q3 u1 toy_u2 toy_u3 (-1) 0 1 (1 / 2) = - 5 / 16).
    { unfold gauss_C0. rewrite toy_V, toy_q2_norm. unfold calc_B, toy_q1, toy_q3, u1, toy_u1, toy_u3. cbn. field. destruct S; lra. }
    assert (H : gauss_h0 toy_q1 toy_q2 toy_q3 u1 toy_u2 toy_u3 (-1) 0 1 (1 / 2) = - 3 / 16).
    { unfold gauss_h0, calc_A. rewrite toy_q2_norm. unfold calc_B, toy_q1, toy_q2, toy_q3, u1, toy_u1, toy_u3, vminus. cbn. field. destruct S; lra. }
    unfold gauss_poly. rewrite C, H, toy_q2_norm. unfold toy_q2, toy_u2, peval. cbn. field.
  Qed.
  Lemma toy_gibbs : calc_gibbs (4 / 5, - 3 / 5, 0) (1, 0, 0) (4 / 5, 3 / 5, 0) = Some (0, sqrt MU, 0).
  Proof.
    pose proof (gibbs_plane (1, 0, 0) (0, 1, 0) (4 / 5) (- 3 / 5) 1 0 (4 / 5) (3 / 5) 1 1 1 1 0) as G.
    assert (L : forall x y, lin x y (1, 0, 0) (0, 1, 0) = (x, y, 0)) by (intros; unfold lin; cbn; vring).
    rewrite !L in G. rewrite G by (cbn; lra). f_equal. replace (MU / 1) with MU by field. apply f_equal2; [apply f_equal2|]; [field|field|reflexivity].
  Qed.
  Lemma toy_lambdas : calc_lambdas 1 (1 - -1) (1 - 0) (0 - -1) (1 / 2) = Ok (5 / 8, 5 / 8).
  Proof. unfold calc_lambdas. destruct (Req_EM_T (1 - -1) 0); [lra|]. destruct (Req_EM_T (6 * 1 ^ 3) 0); [lra|]. do 2 f_equal; field. Qed.
  Lemma toy_rhos : calc_rhos (5 / 8) (5 / 8) toy_q1 toy_q2 toy_q3 u1 toy_u2 toy_u3 (calc_V u1 toy_u2 toy_u3) = Ok (scale s u1, scale (1 / 2) toy_u2, scale 1 toy_u3).
  Proof.
    assert (SS : s <> 0) by (destruct S; lra). assert (S2 : / s = s) by (destruct S; subst; [apply Rinv_1|field]).
    rewrite rhos_value; [|lra|lra|rewrite toy_V; exact SS]. rewrite toy_V.
    assert (E1 : dot (vminus (vplus (scale (- (5 / 8)) toy_q1) toy_q2) (scale (5 / 8) toy_q3)) (cross toy_u2 toy_u3) / (5 / 8 * s) = s).
    { unfold Rdiv. rewrite Rinv_mult_distr, S2 by lra. unfold toy_q1, toy_q2, toy_q3, toy_u2, toy_u3, vminus. cbn. field. }
    assert (E2 : dot (vminus (vplus (scale (- (5 / 8)) toy_q1) toy_q2) (scale (5 / 8) toy_q3)) (cross u1 toy_u3) / s = 1 / 2).
    { unfold toy_q1, toy_q2, toy_q3, u1, toy_u1, toy_u3, vminus. cbn. field. exact SS. }
    assert (E3 : dot (vminus (vplus (scale (- (5 / 8)) toy_q1) toy_q2) (scale (5 / 8) toy_q3)) (cross u1 toy_u2) / (5 / 8 * s) = 1).
    { unfold toy_q1, toy_q2, toy_q3, u1, toy_u1, toy_u2, vminus. cbn. field. exact SS. }
    rewrite E1, E2, E3. reflexivity.
  Qed.
  Lemma toy_root : forall lt, gauss_root Gibbs lt (1 / 2) toy_q1 toy_q2 toy_q3 u1 toy_u2 toy_u3 (-1) 0 1 1 =
    Ok (Some (mkorb (if lt then 0 - 1 / 2 / light else 0) (1, 0, 0) (0, sqrt MU, 0))).
  Proof.
    intro lt. unfold gauss_root. rewrite toy_lambdas. cbn [bind fst snd]. rewrite toy_rhos. cbn [bind fst snd].
    assert (D : dot (scale (1 / 2) toy_u2) toy_u2 = 1 / 2) by (unfold toy_u2; cbn; field). rewrite D. destruct (Rlt_dec (1 / 2) 0); [lra|].
    assert (R1 : vplus toy_q1 (scale s u1) = (4 / 5, - 3 / 5, 0)) by (unfold toy_q1, u1, toy_u1; cbn; destruct S; subst; apply f_equal2; [apply f_equal2| |apply f_equal2|]; field).
    assert (R2 : vplus toy_q2 (scale (1 / 2) toy_u2) = (1, 0, 0)) by (unfold toy_q2, toy_u2; cbn; apply f_equal2; [apply f_equal2|]; field).
    assert (R3 : vplus toy_q3 (scale 1 toy_u3) = (4 / 5, 3 / 5, 0)) by (unfold toy_q3, toy_u3; cbn; apply f_equal2; [apply f_equal2|]; field).
    rewrite R1, R2, R3. unfold velocity. rewrite toy_gibbs. cbn [bind].
    assert (N2 : norm (1, 0, 0) = 1) by (apply norm_of; [lra|cbn; ring]).
    assert (NV : norm (0, sqrt MU, 0) = sqrt MU) by (apply norm_of; [apply sqrt_pos|cbn; ring]).
    assert (NK : norm (vminus (1, 0, 0) toy_q2) = 1 / 2) by (apply norm_of; [lra|unfold vminus, toy_q2; cbn; field]).
    rewrite N2, NV, NK. pose proof sqrt_MU. pose proof light_big.
    destruct (Rle_dec light (sqrt MU)); [lra|]. destruct (Rlt_dec 300 1); [lra|]. destruct (Rlt_dec 1 (sqrt MU)); [lra|]. reflexivity.
  Qed.
  Lemma toy_run : forall lt s1 s2 s3, sight s1 = u1 -> sight s2 = toy_u2 -> sight s3 = toy_u3 ->
    gauss_iod one_root Gibbs lt (1 / 2) s1 s2 s3 (-1) 0 1 toy_q1 toy_q2 toy_q3 = Ok [mkorb (if lt then 0 - 1 / 2 / light else 0) (1, 0, 0) (0, sqrt MU, 0)].
  Proof.
    intros lt s1 s2 s3 E1 E2 E3. unfold gauss_iod. rewrite E1, E2, E3.
    match goal with |- context [Req_EM_T (calc_B ?a ?b ?c ?d ?e ?f ?g ?h) 0] => assert (B : calc_B a b c d e f g h <> 0) end.
    { pose proof (toy_B (1 / 2) 1) as B. rewrite !Rmult_1_l in B. rewrite B. destruct S; subst; lra. }
    destruct (Req_EM_T _ 0) as [Z|_]; [contradiction|]. rewrite toy_q2_norm. destruct (Req_EM_T (1 / 2) 0); [lra|].
    unfold one_root. destruct (Req_EM_T _ 0) as [_|N]; [|exfalso; apply N, toy_poly]. cbn [each]. rewrite toy_root. reflexivity.
  Qed.
End Toy.
Lemma toy_sights : forall s, s = 1 \/ s = -1 -> exists s1 s2 s3, sight s1 = toy_u1 s /\ sight s2 = toy_u2 /\ sight s3 = toy_u3.
Proof.
  intros s S. destruct (sight_onto (toy_u1 s)) as (s1 & E1); [unfold unit_vec, toy_u1; cbn; destruct S; subst; ring|].
  destruct (sight_onto toy_u2) as (s2 & E2); [unfold unit_vec, toy_u2; cbn; ring|]. destruct (sight_onto toy_u3) as (s3 & E3); [unfold unit_vec, toy_u3; cbn; ring|].
  exists s1, s2, s3. auto.
Qed.
