(** Specification vocabulary for the norm of tf-idf vectors (C91): exact real numbers. *)
From Coq Require Import Reals.
From Flocq Require Import Core.Core IEEE754.BinarySingleNaN.
From Verif Require Import Base M_Docs S_FloatScale.

(** The norm that the estimator was asked for. *)
Definition exact_norm (n : norm) (ws : list R) : R := match n with L1 => l1 ws | L2 => l2 ws | NoNorm => 1%R end.
(** The relative error: [k] terms and [c] more operations at 2^-23 each. *)
Definition float_error (k c : nat) : R := (INR (k + c) * bpow radix2 (-23))%R.
(** What is asked of std::log besides [log_ok]: from 1 on it errs by at most 2^-52 of the logarithm. *)
Definition accurate_log (ln : binary_float 53 1024 -> binary_float 53 1024) : Prop :=
  forall x, is_finite x = true -> (1 <= B2R x)%R -> (Rabs (B2R (ln x) - Rpower.ln (B2R x)) <= bpow radix2 (-52) * Rpower.ln (B2R x))%R.
(** The weight by the formulas: term frequency times inverse document frequency. *)
Definition exact_weight (binary sublinear use_idf smooth : bool) (n df total : Z) : R :=
  ((if binary then 1 else if sublinear then 1 + Rpower.ln (IZR n) else IZR n) *
   (if use_idf then 1 + Rpower.ln (IZR (1 + total) / IZR (if smooth then 1 + df else df)) else 1))%R.
