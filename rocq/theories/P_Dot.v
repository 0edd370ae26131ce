(** C88: accuracy of projections.  [pca_gives V input r], [svd_gives V input r]: the projection of [input] with the trained matrix [V] may end with
    [r] (M_Dot: Eigen may add the products of a cell in any order, with any partial sums, fused or not).  [row_of], [column_of]: the coordinates as
    real numbers; [dot n u v]: their inner product; [dot_error]: n roundings of the sum of the magnitudes of the products (S_Dot). *)
From Coq Require Import Reals SpecFloat.
From Flocq Require Import Core.Core IEEE754.BinarySingleNaN.
From Verif Require Import Base M_Scale S_FloatStats S_Accuracy S_Matrix M_Dot S_Dot L_Dot2 L_Dot3.
Open Scope R_scope.

(** A projection of PCA, in either floating point type: every cell that is a number is within [dot_error] of the inner product of the row and the
    component; it is a number unless the products are near the largest number; and it is exact for whole numbers that are not too large. *)
Theorem C88_projection : forall (p e : Z) (Hp : Prec_gt_0 p) (Hm : Prec_lt_emax p e) (components input : fmat (binary_float p e)) r,
  pca_gives components input r -> (f_rows input * f_cols input <> 0)%nat -> f_cols input = f_cols components ->
  exists c, r = Ok c /\ f_rows c = f_rows input /\ f_cols c = f_rows components /\
  forall i j, (i < f_rows input)%nat -> (j < f_rows components)%nat -> let n := f_cols input in
    (is_finite (f_entry c i j) = true ->
     Rabs (B2R (f_entry c i j) - dot n (row_of input i) (row_of components j)) <= dot_error p e n (row_of input i) (row_of components j)) /\
    (finite_entries components -> finite_entries input ->
     product_magnitude n (row_of input i) (row_of components j) + dot_error p e n (row_of input i) (row_of components j) < bpow radix2 e ->
     is_finite (f_entry c i j) = true) /\
    (whole_entries components -> whole_entries input -> product_magnitude n (row_of input i) (row_of components j) <= bpow radix2 p ->
     is_finite (f_entry c i j) = true /\ B2R (f_entry c i j) = dot n (row_of input i) (row_of components j)).
Proof. exact (fun p e Hp Hm => @projection_close p e Hp Hm). Qed.

(** A projection of truncated SVD: the same up to the sign of each column. *)
Theorem C88_svd : forall (p e : Z) (Hp : Prec_gt_0 p) (Hm : Prec_lt_emax p e) (vectors input : fmat (binary_float p e)) r,
  svd_gives vectors input r -> (f_rows input * f_cols input <> 0)%nat -> f_cols input = f_rows vectors ->
  exists c, r = Ok c /\ f_rows c = f_rows input /\ f_cols c = f_cols vectors /\
  forall j, (j < f_cols vectors)%nat -> exists s, (s = 1 \/ s = -1) /\ forall i, (i < f_rows input)%nat -> let n := f_cols input in
    (is_finite (f_entry c i j) = true ->
     Rabs (B2R (f_entry c i j) - s * dot n (row_of input i) (column_of vectors j)) <= dot_error p e n (row_of input i) (column_of vectors j)) /\
    (finite_entries vectors -> finite_entries input ->
     product_magnitude n (row_of input i) (column_of vectors j) + dot_error p e n (row_of input i) (column_of vectors j) < bpow radix2 e ->
     is_finite (f_entry c i j) = true) /\
    (whole_entries vectors -> whole_entries input -> product_magnitude n (row_of input i) (column_of vectors j) <= bpow radix2 p ->
     is_finite (f_entry c i j) = true /\ B2R (f_entry c i j) = s * dot n (row_of input i) (column_of vectors j)).
Proof. exact (fun p e Hp Hm => @svd_close p e Hp Hm). Qed.

(** ... which is such that some entry of greatest magnitude is not negative. *)
Theorem C88_sign : forall (p e : Z) (Hp : Prec_gt_0 p) (Hm : Prec_lt_emax p e) (vectors input c : fmat (binary_float p e)) j,
  svd_gives vectors input (Ok c) -> (j < f_cols vectors)%nat -> (forall i, (i < f_rows input)%nat -> is_finite (f_entry c i j) = true) ->
  exists q, (q < f_rows input)%nat /\ forall i, (i < f_rows input)%nat -> Rabs (B2R (f_entry c i j)) <= B2R (f_entry c q j).
Proof. exact (fun p e Hp Hm => @svd_positive p e Hp Hm). Qed.

(** A matrix that is empty or has another number of columns than the ones of the training is refused. *)
Theorem C88_refused : forall (p e : Z) (Hp : Prec_gt_0 p) (Hm : Prec_lt_emax p e) (v input : fmat (binary_float p e)) r,
  ((f_rows input * f_cols input = 0)%nat \/ f_cols input <> f_cols v -> pca_gives v input r -> r = Throw InvalidArgument) /\
  ((f_rows input * f_cols input = 0)%nat \/ f_cols input <> f_rows v -> svd_gives v input r -> r = Throw InvalidArgument).
Proof. exact (fun p e Hp Hm v input r => conj (@projections_refuse p e Hp Hm v input r) (@svd_refuses p e Hp Hm v input r)). Qed.

(** Two machines may give different numbers for one projection: 2^53 + 1 + 1 is 2^53 from left to right, and 2^53 + 2 from right to left. *)
Theorem C88_order_refuted : exists (v input c c' : fmat (binary_float 53 1024)),
  pca_gives v input (Ok c) /\ pca_gives v input (Ok c') /\ f_rows c = 1%nat /\ f_cols c = 1%nat /\
  B2SF (f_entry c 0%nat 0%nat) = S754_finite false 4503599627370496 1 /\ B2SF (f_entry c' 0%nat 0%nat) = S754_finite false 4503599627370497 1.
Proof. exact two_orders. Qed.

(** Example: the projection of (3, 4) on (1, 2) is 11. *)
Example C88_projection_case : forall c, pca_gives (one_row (doubles [1; 2]%Z)) (one_row (doubles [3; 4]%Z)) (Ok c) ->
  is_finite (f_entry c 0%nat 0%nat) = true /\ B2R (f_entry c 0%nat 0%nat) = 11.
Proof. exact projection_case. Qed.
Example C88_projection_gives : exists c, pca_gives (one_row (doubles [1; 2]%Z)) (one_row (doubles [3; 4]%Z)) (Ok c).
Proof. exact projection_gives. Qed.
