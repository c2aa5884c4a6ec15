(* The planar identities behind the reconstruction of the velocities. *)
From Coq Require Import Reals Lra Psatz Field.
Open Scope R_scope.

(* q^2 is half the semiperimeter, m^2 the gravitational parameter *)
Section plane.
Variables (q m l x y h g : R). (* h: rho, g: sigma *)
Hypothesis (q_pos : 0 < q) (m_pos : 0 < m).
Hypothesis y_sq : y * y = 1 - l * l * (1 - x * x).
Hypothesis g_sq : g * g = 1 - h * h.
Definition R1 : R := q * q * ((1 + l * l) + h * (1 - l * l)).
Definition R2 : R := q * q * ((1 + l * l) - h * (1 - l * l)).
Hypothesis (R1_pos : 0 < R1) (R2_pos : 0 < R2).
Definition Cs : R := (8 * q ^ 4 * l * l - R1 * R2) / (R1 * R2).
Definition Sn : R := 4 * q ^ 4 * l * g * (1 - l * l) / (R1 * R2).
Definition A1 : R := m * q * ((l * y - x) - h * (l * y + x)) / R1.
Definition A2 : R := - (m * q) * ((l * y - x) + h * (l * y + x)) / R2.
Definition B1 : R := m * q * g * (y + l * x) / R1.
Definition B2 : R := m * q * g * (y + l * x) / R2.
Definition U1 : R := 2 * q * (y - l * x) * (x * y + l * (1 - x * x)).
Definition U2 : R := 2 * (q * q) * ((y - l * x) * (y - l * x)).
Definition sg1 : R := q * ((l * y - x) - h * (l * y + x)).

Lemma y4 : y * y * y * y = (1 - l * l * (1 - x * x)) ^ 2.
Proof. replace (y * y * y * y) with ((y * y) * (y * y)) by ring. rewrite y_sq. ring. Qed.

Lemma cs_sn : Cs * Cs + Sn * Sn = 1.
Proof.
  unfold Cs, Sn. field_simplify_eq; [|lra]. unfold R1, R2. ring [g_sq].
Qed.
Lemma speed1 : A1 * A1 + B1 * B1 = m * m * (2 / R1 - (1 - x * x) / (q * q)).
Proof. unfold A1, B1. field_simplify_eq; [|lra]. unfold R1. ring [g_sq y_sq]. Qed.
Lemma speed2 : A2 * A2 + B2 * B2 = m * m * (2 / R2 - (1 - x * x) / (q * q)).
Proof. unfold A2, B2. field_simplify_eq; [|lra]. unfold R2. ring [g_sq y_sq]. Qed.
(* f and g of the Lagrange form *)
Definition F : R := 1 - U2 / R1.
Definition G : R := (R1 * U1 + sg1 * U2) / m.
Lemma to_r2_e : F * R1 + G * A1 = R2 * Cs.
Proof. unfold F, G, A1, Cs, sg1. field_simplify_eq; [|lra]. unfold U1, U2, R1, R2. ring [g_sq y_sq y4]. Qed.
Lemma to_r2_t : G * B1 = R2 * Sn.
Proof. unfold G, B1, Sn, sg1. field_simplify_eq; [|lra]. unfold U1, U2, R1, R2. ring [g_sq y_sq y4]. Qed.
Definition Fd : R := - (m * U1) / (R1 * R2).
Definition Gd : R := 1 - U2 / R2.
Lemma to_v2_e : Fd * R1 + Gd * A1 = A2 * Cs - B2 * Sn.
Proof. unfold Fd, Gd, A1, A2, B2, Cs, Sn. field_simplify_eq; [|lra]. unfold U1, U2, R1, R2. ring [g_sq y_sq y4]. Qed.
Lemma to_v2_t : Gd * B1 = A2 * Sn + B2 * Cs.
Proof. unfold Gd, B1, A2, B2, Cs, Sn. field_simplify_eq; [|lra]. unfold U1, U2, R1, R2. ring [g_sq y_sq y4]. Qed.
(* the distance from the universal functions *)
Lemma rho_end : R1 * (1 - (1 - x * x) / (q * q) * U2) + sg1 * U1 + U2 = R2.
Proof. unfold sg1. field_simplify_eq; [|lra]. unfold U1, U2, R1, R2. ring [y_sq y4]. Qed.
(* the time, apart from the term in psi *)
Lemma time_rest : (1 - x * x) * (R1 * U1 + sg1 * U2) = 2 * q * (q * q) * (- x + l * y + (y - l * x) * (x * y + l * (1 - x * x))).
Proof. unfold sg1, U1, U2, R1. ring [y_sq y4]. Qed.
Lemma angle : (x * y + l * (1 - x * x)) * (x * y + l * (1 - x * x)) + (1 - x * x) * ((y - l * x) * (y - l * x)) = 1.
Proof. ring [y_sq y4]. Qed.
(* the eccentricity vector; H is the angular momentum *)
Definition H : R := m * q * g * (y + l * x).
Lemma ecc_e : (B2 * H - m * m) * Cs + A2 * H * Sn = B1 * H - m * m.
Proof. unfold H, A2, B1, B2, Cs, Sn. field_simplify_eq; [|lra]. unfold R1, R2. ring [g_sq y_sq y4]. Qed.
Lemma ecc_t : (B2 * H - m * m) * Sn - A2 * H * Cs = - (A1 * H).
Proof. unfold H, A1, A2, B2, Cs, Sn. field_simplify_eq; [|lra]. unfold R1, R2. ring [g_sq y_sq y4]. Qed.
End plane.
