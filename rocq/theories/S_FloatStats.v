(** Specification vocabulary for statistics of floating point columns (C69): exact real numbers. *)
From Coq Require Import Reals.
From Flocq Require Import Core.Core IEEE754.BinarySingleNaN.
From Verif Require Import Base S_Scale.
Open Scope R_scope.

(** The numbers of a column: what is not NaN. *)
Definition numbers {p e} (l : list (binary_float p e)) : list (binary_float p e) := filter (fun x => negb (is_nan x)) l.
(** Their sum, and the sum of their magnitudes, in exact arithmetic. *)
Definition total {p e} (l : list (binary_float p e)) : R := fold_right Rplus 0 (map B2R l).
Definition magnitude {p e} (l : list (binary_float p e)) : R := fold_right Rplus 0 (map (fun x => Rabs (B2R x)) l).
(** The relative error of one rounding to [prec] bits, and of [n] of them. *)
Definition unit_error (prec : Z) : R := bpow radix2 (- prec).
Definition errors (prec : Z) (n : nat) : R := (1 + unit_error prec) ^ n - 1.
(** Where a number that is not NaN stands among the others. *)
Definition place {p e} (x : binary_float p e) : R :=
  match x with B754_infinity s => if s then - bpow radix2 e else bpow radix2 e | _ => B2R x end.
(** [m] is the median of the numbers [l], whose places are [s] in ascending order. *)
Definition middle {p e} (interpolate : bool) (l : list (binary_float p e)) (s : list R) (m : binary_float p e) : Prop :=
  let n := length s in
  (interpolate = false \/ Nat.odd n = true -> In m l /\ place m = nth ((n - 1) / 2) s 0) /\
  (interpolate = true -> Nat.odd n = false ->
     let a := nth (n / 2 - 1) s 0 in let b := nth (n / 2) s 0 in
     Rabs a < bpow radix2 e -> Rabs b < bpow radix2 e -> Rabs (rounded 53 1024 (a + b)) < bpow radix2 1024 ->
     equals m (rounded p e (rounded 53 1024 (rounded 53 1024 (a + b) / 2))) /\ a <= B2R m <= b).
