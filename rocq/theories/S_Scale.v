(** Specification vocabulary for the scalers (C27-C30): real arithmetic. *)
From Coq Require Import Reals.
From Flocq Require Import Core.Core IEEE754.BinarySingleNaN.
From Verif Require Import Base.

(** The nearest number with [prec] bits (ties to even), exponents unbounded above. *)
Definition rounded (prec emax : Z) (x : R) : R := round radix2 (SpecFloat.fexp prec emax) ZnearestE x.
Notation r32 := (rounded 24 128).
Notation r64 := (rounded 53 1024).
Definition not_infinite {prec emax} (x : binary_float prec emax) : Prop := match x with B754_infinity _ => False | _ => True end.
(** A result in the closed interval from [a] to [b]; NaN and infinities are in none. *)
Definition within {prec emax} (a b : R) (x : binary_float prec emax) : Prop := is_finite x = true /\ (a <= B2R x <= b)%R.
Definition equals {prec emax} (x : binary_float prec emax) (r : R) : Prop := is_finite x = true /\ B2R x = r.
