(** C73: principal components; C74: truncated singular value decomposition (exact real arithmetic). *)
From Coq Require Import Reals.
From Verif Require Import Base M_Estimator S_Estimator M_Matrix S_Matrix L_Matrix2 L_Matrix3 L_Matrix5 L_Matrix6 L_Matrix7.
Open Scope R_scope.

(* ------------------------------------------------------------------ *)
(** * C73 *)

(** Training with one matrix: the transformer holds what the eigensolver returns for the covariances of the columns. *)
Theorem C73_training : forall (eig : mat -> mat) (x : mat), (rows x > 0)%nat -> (cols x > 0)%nat ->
  exists c, rows c = cols x /\ cols c = cols x /\ (forall j k, entry c j k = covariance x j k) /\
    (rows (eig c) > 0 -> cols (eig c) > 0 ->
     map snd (erun (pca_impl eig) (est_new no_matrix) [OBegin; OFit (Some [x]); OComplete; OCreate])
     = [EUnit; EFit FitComplete; EUnit; ETransformer (eig c)])%nat.
Proof. exact pca_trained. Qed.
Print Assumptions C73_training.

(** Anything but exactly one matrix per call is refused and changes nothing; without a matrix there is no transformer. *)
Theorem C73_one_matrix : forall (eig : mat -> mat) (s : mat) (items : list mat), length items <> 1%nat ->
  estep (pca_impl eig) (mkEst Training false s) (OFit (Some items))
  = (mkEst Training false s, EThrow (if Nat.eqb (length items) 0 then InvalidArgument else RuntimeError)).
Proof. exact pca_one_matrix. Qed.
Print Assumptions C73_one_matrix.

Theorem C73_untrained : forall (eig : mat -> mat),
  map snd (erun (pca_impl eig) (est_new no_matrix) [OBegin; OComplete; OCreate]) = [EUnit; EUnit; EThrow InvalidArgument].
Proof. exact pca_untrained. Qed.
Print Assumptions C73_untrained.

Theorem C73_refused : forall (v x : mat),
  pca_execute v x = Throw InvalidArgument <-> (rows x = 0 \/ cols x = 0 \/ cols x <> cols v)%nat.
Proof. exact pca_refuses. Qed.
Print Assumptions C73_refused.

(** Entry (i, j) of the result is the inner product of row i of the input with row j of the trained matrix. *)
Theorem C73_result : forall (v x : mat), (rows x > 0)%nat -> (cols x > 0)%nat -> cols x = cols v ->
  exists y, pca_execute v x = Ok y /\ rows y = rows x /\ cols y = rows v /\
    forall i j, entry y i j = dot (cols v) (row x i) (row v j).
Proof. exact pca_accepts. Qed.
Print Assumptions C73_result.

(** What a row becomes does not depend on the other rows it is presented with. *)
Theorem C73_rows_independent : forall (v x x' y y' : mat), pca_execute v x = Ok y -> pca_execute v x' = Ok y' ->
  forall i i', (forall k, (k < cols v)%nat -> entry x i k = entry x' i' k) -> forall j, entry y i j = entry y' i' j.
Proof. exact pca_rows. Qed.
Print Assumptions C73_rows_independent.

(** Inner products (hence lengths, distances, angles) of rows are preserved, the input can be recovered, the total variance
    is preserved. *)
Theorem C73_geometry : forall (v x x' y y' : mat), orthonormal v -> pca_execute v x = Ok y -> pca_execute v x' = Ok y' ->
  forall i i', dot (cols y) (row y i) (row y' i') = dot (cols x) (row x i) (row x' i').
Proof. exact pca_dots. Qed.
Print Assumptions C73_geometry.

Theorem C73_recoverable : forall (v x y : mat), orthonormal v -> pca_execute v x = Ok y ->
  forall i k, (k < cols x)%nat -> dot (cols y) (row y i) (column v k) = entry x i k.
Proof. exact pca_recover. Qed.
Print Assumptions C73_recoverable.

Theorem C73_total_variance : forall (v x y : mat), orthonormal v -> pca_execute v x = Ok y ->
  total (cols y) (fun j => covariance y j j) = total (cols x) (fun j => covariance x j j).
Proof. exact pca_variance. Qed.
Print Assumptions C73_total_variance.

(** The covariances of the result, for any input and any trained matrix. *)
Theorem C73_covariance : forall (v x y : mat), pca_execute v x = Ok y -> forall j k,
  covariance y j k = total (cols x) (fun a => total (cols x) (fun b => entry v j a * covariance x a b * entry v k b)).
Proof. exact pca_covariance. Qed.
Print Assumptions C73_covariance.

(** The columns of the transformed training data are uncorrelated and their variances are the eigenvalues, when the matrix
    of the eigenvectors happens to be symmetric.  Missing: the same without [Hsym]; it is false, see below. *)
Theorem C73_components_partial : forall (x v y : mat) (d : nat -> R), eigen_solution (cols x) (covariance x) v d ->
  (forall i j, (i < cols x)%nat -> (j < cols x)%nat -> entry v i j = entry v j i) ->
  pca_execute v x = Ok y ->
  forall j k, (j < cols x)%nat -> (k < cols x)%nat -> covariance y j k = if Nat.eqb j k then d j else 0.
Proof. exact pca_symmetric. Qed.
Print Assumptions C73_components_partial.

(** In general the projection on the eigenvectors (the columns of the matrix) is uncorrelated ... *)
Theorem C73_eigenvector_projection : forall (n : nat) (x v : mat) (d : nat -> R) (c : nat), eigen_solution n (covariance x) v d ->
  forall j k, (j < n)%nat -> (k < n)%nat ->
  covariance (Mat (rows x) c (fun i j => total n (fun l => entry x i l * entry v l j))) j k = if Nat.eqb j k then d j else 0.
Proof. exact cov_eigen_total. Qed.
Print Assumptions C73_eigenvector_projection.

(** ... but the code multiplies with the rows instead: training data and true eigenvectors for which the columns of the
    result are correlated. *)
Theorem C73_components_refuted : exists (x v y : mat) (d : nat -> R),
  eigen_solution (cols x) (covariance x) v d /\ pca_execute v x = Ok y /\ covariance y 0 1 = 1008 / 25.
Proof. exact pca_correlated_full. Qed.
Print Assumptions C73_components_refuted.

(** The case behind it, trained through the estimator; it also satisfies the hypotheses of the other theorems. *)
Example C73_case : eigen_solution (cols pca_points) (covariance pca_points) pca_vectors pca_values /\ exists y,
  map snd (erun (pca_impl (fun _ => pca_vectors)) (est_new no_matrix) [OBegin; OFit (Some [pca_points]); OComplete; OCreate])
  = [EUnit; EFit FitComplete; EUnit; ETransformer pca_vectors] /\
  pca_execute pca_vectors pca_points = Ok y /\ entry y 0%nat 0%nat = 7 / 5 /\ entry y 2%nat 1%nat = 14 / 5.
Proof. exact (conj pca_solution pca_points_trained). Qed.
Example C73_symmetric_case : exists x v d y, eigen_solution (cols x) (covariance x) v d /\ cols x = 2%nat /\
  (forall i j, (i < cols x)%nat -> (j < cols x)%nat -> entry v i j = entry v j i) /\ pca_execute v x = Ok y /\ entry v 0%nat 1%nat <> 0.
Proof. exact pca_symmetric_case. Qed.

(* ------------------------------------------------------------------ *)
(** * C74 *)

Theorem C74_refused : forall (v x : mat),
  svd_execute v x = Throw InvalidArgument <-> (rows x = 0 \/ cols x = 0 \/ cols x <> rows v)%nat.
Proof. exact svd_refuses. Qed.
Print Assumptions C74_refused.

(** The result is the input projected on the trained vectors, up to the sign of each column; in each column the first entry
    of greatest absolute value is not negative. *)
Theorem C74_result : forall (v x : mat), (rows x > 0)%nat -> (cols x > 0)%nat -> cols x = rows v ->
  exists y, svd_execute v x = Ok y /\ rows y = rows x /\ cols y = cols v /\
    forall j, exists s p, (s = 1 \/ s = -1) /\ (p < rows x)%nat /\
      (forall i, entry y i j = s * dot (cols x) (row x i) (column v j)) /\
      (forall i, (i < rows x)%nat -> Rabs (entry y i j) <= entry y p j) /\
      (forall i, (i < p)%nat -> Rabs (entry y i j) < entry y p j).
Proof. exact svd_accepts. Qed.
Print Assumptions C74_result.

(** The result does not depend on the signs the decomposition chose (the stated purpose of the convention). *)
Theorem C74_sign_free : forall (v v' x y y' : mat) (s : nat -> R), rows v' = rows v -> cols v' = cols v ->
  (forall j, s j = 1 \/ s j = -1) ->
  (forall i j, (i < rows v)%nat -> (j < cols v)%nat -> entry v' i j = s j * entry v i j) ->
  svd_execute v x = Ok y -> svd_execute v' x = Ok y' -> same y' y.
Proof. exact svd_sign_free. Qed.
Print Assumptions C74_sign_free.

(** Gram-Schmidt returns some orthonormal columns followed by zero columns; if the last is not zero, all are orthonormal and
    the given columns are combinations of them. *)
Theorem C74_gram_schmidt : forall (m : mat), exists k, (k <= cols m)%nat /\
  rows (gram_schmidt m) = rows m /\ cols (gram_schmidt m) = cols m /\
  (forall j l, (j < k)%nat -> (l < k)%nat -> dot (rows m) (column (gram_schmidt m) j) (column (gram_schmidt m) l) = if Nat.eqb j l then 1 else 0) /\
  (forall j, (k <= j < cols m)%nat -> zero_vector (rows m) (column (gram_schmidt m) j)) /\
  (k = cols m -> forall j, (j < cols m)%nat -> combination (gram_schmidt m) (column m j)).
Proof. exact gs_theorem. Qed.
Print Assumptions C74_gram_schmidt.

(** The pairs of random numbers are always defined and lie on the circle the method prescribes. *)
Theorem C74_gaussian : forall (rand_max r1 r2 : R), 0 <= r1 <= rand_max -> 0 <= r2 <= rand_max ->
  let v1 := (r1 + 1) / (rand_max + 2) in
  0 < v1 < 1 /\ 0 < -2 * ln v1 /\
  fst (gaussian_pair rand_max r1 r2) * fst (gaussian_pair rand_max r1 r2)
  + snd (gaussian_pair rand_max r1 r2) * snd (gaussian_pair rand_max r1 r2) = -2 * ln v1.
Proof. exact gaussian_circle. Qed.
Print Assumptions C74_gaussian.

(** Which calls of std::rand become which entries of the two random matrices of a training. *)
Theorem C74_draws : forall (rand_max : R) (rand : nat -> R) (a : mat),
  let o := fst (random_matrices rand_max rand a) in
  let p := snd (random_matrices rand_max rand a) in
  let r := Nat.min (rows a) (cols a) in
  rows o = rows a /\ cols o = r /\ rows p = r /\ cols p = r /\
  (forall i j, (i < rows a)%nat -> (j < r)%nat -> entry o i j = normal_entry rand_max rand 0 r i j) /\
  (forall i j, (i < r)%nat -> (j < r)%nat -> entry p i j = normal_entry rand_max rand (2 * (rows a * ((r + 1) / 2))) r i j).
Proof. exact random_spec. Qed.
Print Assumptions C74_draws.

(** Training through the estimator: the transformer holds [svd_state] for the two matrices drawn. *)
Theorem C74_training : forall (matrixV : mat -> mat) (rand_max : R) (rand : nat -> R) (a : mat), (rows a > 0)%nat -> (cols a > 0)%nat ->
  let o := fst (random_matrices rand_max rand a) in
  let p := snd (random_matrices rand_max rand a) in
  cols (matrixV (svd_C a o p)) = Nat.min (rows a) (cols a) ->
  rows o = rows a /\ cols o = Nat.min (rows a) (cols a) /\ rows p = Nat.min (rows a) (cols a) /\ cols p = Nat.min (rows a) (cols a) /\
  map snd (erun (svd_impl matrixV rand_max rand) (est_new no_matrix) [OBegin; OFit (Some [a]); OComplete; OCreate])
  = [EUnit; EFit FitComplete; EUnit; ETransformer (svd_state matrixV a o p)].
Proof. exact svd_trained. Qed.
Print Assumptions C74_training.

Theorem C74_one_matrix : forall (matrixV : mat -> mat) (rand_max : R) (rand : nat -> R) (s : mat) (items : list mat), length items <> 1%nat ->
  estep (svd_impl matrixV rand_max rand) (mkEst Training false s) (OFit (Some items))
  = (mkEst Training false s, EThrow (if Nat.eqb (length items) 0 then InvalidArgument else RuntimeError)).
Proof. exact svd_one_matrix. Qed.
Print Assumptions C74_one_matrix.

(** The trained vectors are the right singular vectors of the training matrix, whatever was drawn, as long as the columns
    kept span what they were made from (the rows of the matrix; the columns of B) ... *)
Theorem C74_components : forall (matrixV : mat -> mat) (a o p : mat) (sigma : nat -> R),
  rows o = rows a -> cols o = Nat.min (rows a) (cols a) ->
  rows p = Nat.min (rows a) (cols a) -> cols p = Nat.min (rows a) (cols a) ->
  right_singular (Nat.min (rows a) (cols a)) (svd_C a o p) (matrixV (svd_C a o p)) sigma ->
  (forall i, (i < rows a)%nat -> combination (svd_Y a o) (row a i)) ->
  (forall j, (j < cols (svd_B a o))%nat -> combination (svd_Z a o p) (column (svd_B a o) j)) ->
  singular_components a (svd_state matrixV a o p) sigma.
Proof. exact svd_main. Qed.
Print Assumptions C74_components.

(** ... and they do when the random matrices are invertible and no column is dropped as too short. *)
Theorem C74_nothing_dropped : forall (matrixV : mat -> mat) (a o p o' p' : mat) (sigma : nat -> R),
  (rows a > 0)%nat -> (cols a > 0)%nat ->
  rows o = rows a -> cols o = Nat.min (rows a) (cols a) ->
  rows p = Nat.min (rows a) (cols a) -> cols p = Nat.min (rows a) (cols a) ->
  right_singular (Nat.min (rows a) (cols a)) (svd_C a o p) (matrixV (svd_C a o p)) sigma ->
  ((rows a <= cols a)%nat -> inverse o o') -> inverse p p' ->
  ~ zero_vector (cols a) (column (svd_Y a o) (cols (svd_Y a o) - 1)) ->
  ~ zero_vector (rows a) (column (svd_Z a o p) (cols (svd_Z a o p) - 1)) ->
  singular_components a (svd_state matrixV a o p) sigma.
Proof. exact svd_full. Qed.
Print Assumptions C74_nothing_dropped.

(** Then the transformed training data has orthogonal columns whose lengths are the singular values. *)
Theorem C74_training_rows : forall (a s y : mat) (sigma : nat -> R), singular_components a s sigma -> svd_execute s a = Ok y ->
  forall j k, (j < cols s)%nat -> (k < cols s)%nat ->
  total (rows a) (fun i => entry y i j * entry y i k) = if Nat.eqb j k then sigma j * sigma j else 0.
Proof. exact svd_training_rows. Qed.
Print Assumptions C74_training_rows.

(** Hypotheses met: the matrix diag(3, 4), whose singular values 4, 3 come out in decreasing order; and a matrix trained
    through the estimator with actual draws. *)
Example C74_case : singular_components svd_a (svd_state (fun _ => svd_v) svd_a svd_1 svd_1) svd_sigma.
Proof. exact svd_case. Qed.
Example C74_random_case :
  let o := fst (random_matrices 2147483647 (fun _ => 0) svd_b) in
  let p := snd (random_matrices 2147483647 (fun _ => 0) svd_b) in
  right_singular 1 (svd_C svd_b o p) one (fun _ => 1 / g1) /\
  inverse o (table 1 1 [[1 / g1]]) /\ inverse p (table 1 1 [[1 / g1]]) /\
  ~ zero_vector (cols svd_b) (column (svd_Y svd_b o) (cols (svd_Y svd_b o) - 1)) /\
  ~ zero_vector (rows svd_b) (column (svd_Z svd_b o p) (cols (svd_Z svd_b o p) - 1)).
Proof. exact svd_random_case. Qed.

(** A row presented alone: every coordinate comes out as an absolute value. *)
Theorem C74_single_row : forall (v x y : mat), svd_execute v x = Ok y -> rows x = 1%nat ->
  forall j, entry y 0%nat j = Rabs (dot (cols x) (row x 0%nat) (column v j)).
Proof. exact svd_single_row. Qed.
Print Assumptions C74_single_row.

(** So what a row becomes depends on the rows it is presented with: the first row of (1), (-2) is mapped to -1, the same row
    alone to 1. *)
Theorem C74_rows_refuted : exists v x x1 y y1 : mat, entry x 0%nat 0%nat = entry x1 0%nat 0%nat /\ cols x = 1%nat /\ cols x1 = 1%nat /\
  svd_execute v x = Ok y /\ svd_execute v x1 = Ok y1 /\ entry y 0%nat 0%nat = -1 /\ entry y1 0%nat 0%nat = 1.
Proof. exact svd_batch_full. Qed.
Print Assumptions C74_rows_refuted.

(** The threshold on lengths is absolute: any training matrix, multiplied by a small enough number, trains a transformer
    that maps everything to zero, whatever the decomposition and the draws. *)
Theorem C74_small_data_refuted : forall (matrixV : mat -> mat) (a o p : mat), (cols o > 0)%nat ->
  exists c, 0 < c /\ forall i j, entry (svd_state matrixV (Mat (rows a) (cols a) (fun i j => c * entry a i j)) o p) i j = 0.
Proof. exact svd_small. Qed.
Print Assumptions C74_small_data_refuted.
