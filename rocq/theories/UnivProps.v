(* Theorems about two-body propagation. *)
From Coq Require Import Reals Lra.
From Verif Require Import SphModel KepModel KepSpec KepElem UnivModel UnivSpec UnivFun UnivOrbit UnivTime UnivUnique UnivNewton UnivProofs.
Open Scope R_scope.

(* C66: once the iteration stands at the root, f*gdot - fdot*g = 1 and the propagated state has the
   angular momentum, the energy and the eccentricity vector of the initial one. *)
Theorem C66_lagrange : forall s t0 t1 mu max_iter tol, 0 < mu -> not_radial s -> tol < 10 ^ 15 ->
  last_step s (t1 - t0) mu max_iter tol 0 ->
  exists f g fd gd s', calc_lagrange (pos s) (vel s) (t1 - t0) mu max_iter tol = Some (f, g, fd, gd) /\
    f * gd - fd * g = 1 /\ propagate s t0 t1 mu max_iter tol = Some s' /\
    momentum s' = momentum s /\ energy mu s' = energy mu s /\ eccentricity mu s' = eccentricity mu s.
Proof.
  intros s t0 t1 mu n tol M F T L. destruct (exact_run s mu M F t0 t1 n tol T L) as (x & C & P & _).
  do 5 eexists. split; [exact C|]. split; [apply (wronskian (pos s) (vel s) mu M F)|]. split; [exact P|]. exact (conserved s mu M F x).
Qed.
Print Assumptions C66_lagrange.
(* C66: stopping short of the root, f*gdot - fdot*g tends to 1 with the last correction. *)
Theorem C66_converged : forall s dt mu eps, 0 < mu -> not_radial s -> 0 < eps ->
  exists d, 0 < d /\ forall max_iter tol q, tol < 10 ^ 15 -> last_step s dt mu max_iter tol q -> Rabs q <= d ->
  exists f g fd gd, calc_lagrange (pos s) (vel s) dt mu max_iter tol = Some (f, g, fd, gd) /\ Rabs (f * gd - fd * g - 1) <= eps.
Proof.
  intros s dt mu eps M F E. destruct (run_close (pos s) (vel s) mu dt M F eps E) as (d & D & H). exists d. split; [exact D|].
  intros n tol q T L Q. destruct (H n tol q T L Q) as (f & g & fd & gd & C & W & _). exists f, g, fd, gd. split; assumption.
Qed.
Print Assumptions C66_converged.
(* the circular orbit: the first iterate is the root, whatever the elapsed time *)
Example C66_case : forall dt max_iter, not_radial circ /\ last_step circ dt 1 max_iter (/ 10 ^ 14) 0.
Proof.
  intros dt n. split; [apply circ_free|]. apply circ_exact.
  assert (P : 1 <= 10 ^ 14) by (apply pow_R1_Rle; lra). assert (Q : 1 < 10 ^ 15) by (apply Rlt_pow_R1; [lra|apply Nat.lt_0_succ]).
  split; [left; apply Rinv_0_lt_compat; lra|]. apply Rle_lt_trans with 1; [rewrite <- Rinv_1; apply Rinv_le_contravar; lra|exact Q].
Qed.

(* C131: Newton's equation of motion has exactly one solution from every state that does not move
   along the line through the centre ... *)
Theorem C131_motion : forall s mu, 0 < mu -> not_radial s ->
  exists X V, two_body mu X V /\ X 0 = pos s /\ V 0 = vel s /\
    forall Y W, two_body mu Y W -> Y 0 = pos s -> W 0 = vel s -> forall t, Y t = X t /\ W t = V t.
Proof.
  intros s mu M F. exists (motion_x (pos s) (vel s) mu M F), (motion_v (pos s) (vel s) mu M F).
  destruct (motion_start (pos s) (vel s) mu M F) as [A B].
  split; [apply motion_two_body|]. split; [exact A|]. split; [exact B|]. exact (motion_unique s mu M F).
Qed.
Print Assumptions C131_motion.
(* ... and the propagated state tends to the solution with the last correction of the iteration ... *)
Theorem C131_converges : forall s mu t0 t1 X V eps, 0 < mu -> not_radial s ->
  two_body mu X V -> X 0 = pos s -> V 0 = vel s -> 0 < eps ->
  exists d, 0 < d /\ forall max_iter tol q, tol < 10 ^ 15 -> last_step s (t1 - t0) mu max_iter tol q -> Rabs q <= d ->
  exists s', propagate s t0 t1 mu max_iter tol = Some s' /\
    distance (pos s') (X (t1 - t0)) <= eps /\ distance (vel s') (V (t1 - t0)) <= eps.
Proof.
  intros s mu t0 t1 X V eps M F H EX EV E. destruct (motion_unique s mu M F X V H EX EV (t1 - t0)) as [UX UV].
  destruct (run_close (pos s) (vel s) mu (t1 - t0) M F eps E) as (d & D & R). exists d. split; [exact D|].
  intros n tol q T L Q. destruct (R n tol q T L Q) as (f & g & fd & gd & C & _ & DX & DV).
  eexists. split; [exact (propagate_lin s mu _ _ _ _ _ _ _ _ C)|]. rewrite pos_row, vel_row, UX, UV. split; assumption.
Qed.
Print Assumptions C131_converges.
(* ... and equals it when the correction is zero. *)
Theorem C131_exact : forall s mu t0 t1 X V max_iter tol, 0 < mu -> not_radial s ->
  two_body mu X V -> X 0 = pos s -> V 0 = vel s -> tol < 10 ^ 15 -> last_step s (t1 - t0) mu max_iter tol 0 ->
  propagate s t0 t1 mu max_iter tol = Some (row_of (X (t1 - t0)) (V (t1 - t0))).
Proof.
  intros s mu t0 t1 X V n tol M F H EX EV T L. destruct (motion_unique s mu M F X V H EX EV (t1 - t0)) as [UX UV].
  destruct (exact_run s mu M F t0 t1 n tol T L) as (x & _ & P & A & B). rewrite UX, UV, <- A, <- B. exact P.
Qed.
Print Assumptions C131_exact.

(* C132 refuted: from a point of an ellipse of eccentricity 0.825 the iteration alternates for ever
   between two values; with the default settings, or any other even max_iter and tolerance below 4,
   the returned position is more than ten semi-major axes from the body, which never leaves the disc
   of radius two semi-major axes. *)
Theorem C132_cycle_refuted : exists s t, not_radial s /\ energy 1 s < 0 /\
  forall k tol, tol < 4 -> exists s', propagate s 0 t 1 (2 * k) tol = Some s' /\
    forall X V, two_body 1 X V -> X 0 = pos s -> V 0 = vel s -> 10 < distance (pos s') (X t).
Proof.
  exists cyc, (PI / 2). split; [apply cyc_free|]. split; [|apply cyc_wrong].
  destruct cyc_norms as (A & B & _). unfold energy. rewrite A, B. lra.
Qed.
Print Assumptions C132_cycle_refuted.
Example C132_default : exists s', propagate cyc 0 (PI / 2) 1 1000 (/ 10 ^ 14) = Some s'.
Proof.
  destruct (cyc_wrong 500 (/ 10 ^ 14)) as (s' & H & _); [|exists s'; exact H].
  assert (P : 1 <= 10 ^ 14) by (apply pow_R1_Rle; lra). apply Rle_lt_trans with 1; [rewrite <- Rinv_1; apply Rinv_le_contravar; lra|lra].
Qed.

(* C133 refuted: the starting value of the iteration overflows the hyperbolic cosine, so a
   hyperbolic orbit has no propagated state although its motion goes on. *)
Theorem C133_overflow_refuted : exists s t, not_radial s /\ (exists X V, two_body 1 X V /\ X 0 = pos s /\ V 0 = vel s) /\
  forall max_iter tol, tol < 10 ^ 15 -> propagate s 0 t 1 max_iter tol = None.
Proof.
  exists hyp, 2000. split; [apply hyp_free|]. split; [|apply hyp_fails].
  destruct (C131_motion hyp 1 Rlt_0_1 hyp_free) as (X & V & H & A & B & _). exists X, V. repeat split; try assumption; apply H.
Qed.
Print Assumptions C133_overflow_refuted.

(* C134: propagating in two legs gives what one leg gives. *)
Theorem C134_legs : forall s s1 s2 s3 mu t0 t1 t2 max_iter tol, 0 < mu -> not_radial s -> tol < 10 ^ 15 ->
  propagate s t0 t1 mu max_iter tol = Some s1 -> last_step s (t1 - t0) mu max_iter tol 0 ->
  propagate s1 t1 t2 mu max_iter tol = Some s2 -> last_step s1 (t2 - t1) mu max_iter tol 0 ->
  propagate s t0 t2 mu max_iter tol = Some s3 -> last_step s (t2 - t0) mu max_iter tol 0 -> s2 = s3.
Proof. exact compose. Qed.
Print Assumptions C134_legs.
(* a circular orbit out and back *)
Example C134_case : exists s1 s2 s3,
  propagate circ 2 5 1 10 0 = Some s1 /\ propagate s1 5 2 1 10 0 = Some s2 /\ propagate circ 2 2 1 10 0 = Some s3 /\
  last_step circ (5 - 2) 1 10 0 0 /\ last_step s1 (2 - 5) 1 10 0 0 /\ last_step circ (2 - 2) 1 10 0 0.
Proof. apply circ_legs. split; [lra|apply pow_lt; lra]. Qed.
