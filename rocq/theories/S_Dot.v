(** Specification for C88: the real sums that projections stand for. *)
From Coq Require Import Reals.
From Flocq Require Import Core.Core IEEE754.BinarySingleNaN.
From Verif Require Import Base M_Scale S_FloatStats S_Accuracy S_Matrix M_Dot.
Open Scope R_scope.

(** Coordinate k of row i and of column j, as real numbers. *)
Definition row_of {p e} (m : fmat (binary_float p e)) (i : nat) : nat -> R := fun k => B2R (f_entry m i k).
Definition column_of {p e} (m : fmat (binary_float p e)) (j : nat) : nat -> R := fun k => B2R (f_entry m k j).
(** The sum of the magnitudes of the products. *)
Definition product_magnitude (n : nat) (u v : nat -> R) : R := total n (fun k => Rabs (u k * v k)).
(** What n products and their sum may lose: n roundings of relative error 2^-p each, and what tiny products lose. *)
Definition dot_error (p e : Z) (n : nat) (u v : nat -> R) : R := errors p n * product_magnitude n u v + INR n * (1 + unit_error p) ^ n * half_least p e.
Definition finite_entries {p e} (m : fmat (binary_float p e)) : Prop :=
  forall i j, (i < f_rows m)%nat -> (j < f_cols m)%nat -> is_finite (f_entry m i j) = true.
(** Every entry is a whole number. *)
Definition whole_entries {p e} (m : fmat (binary_float p e)) : Prop :=
  forall i j, (i < f_rows m)%nat -> (j < f_cols m)%nat -> is_finite (f_entry m i j) = true /\ exists z, B2R (f_entry m i j) = IZR z.
(** A matrix of one row. *)
Definition one_row {p e} (l : list (binary_float p e)) : fmat (binary_float p e) := FMat 1 (length l) (fun _ j => nth j l fzero).
(** Whole numbers as floating point numbers. *)
Definition doubles : list Z -> list (binary_float 53 1024) := map of_int.
