(** Specification vocabulary for C84: how far a computed number is from the real number it stands for. *)
From Coq Require Import Reals.
From Flocq Require Import Core.Core IEEE754.BinarySingleNaN.
From Verif Require Import Base.

(** [x] is a number within [relative] times the real number [r], plus [absolute], of it. *)
Definition accurate {prec emax} (relative absolute : R) (x : binary_float prec emax) (r : R) : Prop :=
  is_finite x = true /\ (Rabs (B2R x - r) <= relative * Rabs r + absolute)%R.
(** Half the distance of the numbers next to zero: what the rounding of a tiny quotient may lose. *)
Definition half_least (prec emax : Z) : R := (/ 2 * bpow radix2 (3 - emax - prec))%R.
