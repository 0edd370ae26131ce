(** Specification vocabulary for norms, deviations and standard scores (C77): exact real numbers. *)
From Coq Require Import Reals.
From Flocq Require Import Core.Core IEEE754.BinarySingleNaN.
From Verif Require Import Base.
Open Scope R_scope.

Definition rsum (l : list R) : R := fold_right Rplus 0 l.
(** The norms of a row. *)
Definition l1 (l : list R) : R := rsum (map Rabs l).
Definition l2 (l : list R) : R := sqrt (rsum (map (fun x => x ^ 2) l)).
(** The mean, the mean magnitude, and the root of the mean squared distance from [m]; the standard deviation. *)
Definition mean (l : list R) : R := rsum l / INR (length l).
Definition mean_magnitude (l : list R) : R := l1 l / INR (length l).
Definition spread (m : R) (l : list R) : R := sqrt (rsum (map (fun x => (x - m) ^ 2) l) / INR (length l)).
Definition std_dev (l : list R) : R := spread (mean l) l.
(** The numbers of a column or row of floating point numbers: what is not NaN. *)
Definition real_values {p e} (l : list (binary_float p e)) : list R := map B2R (filter (fun x => negb (is_nan x)) l).
(** What squares may lose to underflow: with exponents as in double, numbers below 2^-537 have the square 0. *)
Definition tiny (emax : Z) : R := if (emax <? 4096)%Z then bpow radix2 (-535) else bpow radix2 (-1073).
(** [x] is [y] up to a factor [g >= 1] and [a]. *)
Definition near (g a x y : R) : Prop := Rabs (x - y) <= (g - 1) * y + a.
(** A row divided by [N]: NaN stays, every other cell is its quotient up to the relative error [E] and 2^-1073. *)
Definition row_scaled {p e} (E N : R) (row : list (binary_float p e)) (out : list (binary_float 53 1024)) : Prop :=
  length out = length row /\ forall j x, nth_error row j = Some x -> exists y, nth_error out j = Some y /\ (is_nan x = true -> is_nan y = true) /\
    (is_nan x = false -> is_finite y = true /\ Rabs (B2R y - B2R x / N) <= E * Rabs (B2R x / N) + bpow radix2 (-1073)).
