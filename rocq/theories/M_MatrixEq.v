(** Model of [operator==] of the PCA and the TruncatedSVD transformers, in exact real arithmetic like M_Matrix. *)
From Coq Require Import Reals.
From Verif Require Import Base M_Matrix.
Open Scope R_scope.

(** [a - b]; Eigen asserts that the dimensions agree. *)
Definition difference (a b : mat) : mat := Mat (rows a) (cols a) (fun i j => entry a i j - entry b i j).
(** [norm()]: the Frobenius norm. *)
Definition frobenius (m : mat) : R := sqrt (sum (rows m) (fun i => sum (cols m) (fun j => entry m i j * entry m i j))).
(** The float nearest to 0.000001. *)
Definition TOLERANCE : R := 8796093 / 8796093022208.
(** PCAFeaturizer.h:213-218, TruncatedSVDFeaturizer.h:352-357. *)
Definition mat_eq (a b : mat) : Prop := rows a = rows b /\ cols a = cols b /\ ~ frobenius (difference a b) > TOLERANCE.
