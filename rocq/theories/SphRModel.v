(* transform.py:338-339, 370 in binary64 (definitions only). *)
From Coq Require Import Reals.
From Flocq Require Import Core.
From Verif Require Import Base TimeModel TimeRModel.
Open Scope R_scope.

(* np.pi and 180/np.pi as binary64 numbers *)
(* np.pi as in transform.py:297-376 *)
Definition pi64 : R := 884279719003555 * bpow radix2 (-48).
(* 180/np.pi as in transform.py:297-376 *)
Definition deg64 : R := 1007958012753983 * bpow radix2 (-44).
(* jnp.where(lon < 0.0, 2 * jnp.pi + lon, lon) and jnp.degrees (a product with 180/pi), for the
   value [l] that arctan2 returned *)
(* transform.py:297-376, the longitude *)
Definition longitude64 (l : R) : R :=
  fl ((if Rlt_dec l 0 then fl (2 * pi64 + l) else l) * deg64).
