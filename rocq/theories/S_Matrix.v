(** Vocabulary for C73 and C74.  Apart from the record [mat] (dimensions and entries) nothing of the model is used. *)
From Coq Require Import Reals.
From Verif Require Import Base M_Matrix.
Open Scope R_scope.

(** The sum of f 0, ..., f (n-1). *)
Definition total (n : nat) (f : nat -> R) : R := fold_right Rplus 0 (map f (seq 0 n)).
(** Inner product of two vectors with n coordinates. *)
Definition dot (n : nat) (u v : nat -> R) : R := total n (fun k => u k * v k).
Definition row (m : mat) (i : nat) : nat -> R := fun j => entry m i j.
Definition column (m : mat) (j : nat) : nat -> R := fun i => entry m i j.

(** Mean of a column and (unnormalised) covariance of two columns of a table. *)
Definition mean (m : mat) (j : nat) : R := total (rows m) (column m j) / INR (rows m).
Definition covariance (m : mat) (j k : nat) : R :=
  total (rows m) (fun i => (entry m i j - mean m j) * (entry m i k - mean m k)).

(** The columns of [v] are unit vectors orthogonal to each other. *)
Definition orthonormal (v : mat) : Prop :=
  forall j k, (j < cols v)%nat -> (k < cols v)%nat -> dot (rows v) (column v j) (column v k) = if Nat.eqb j k then 1 else 0.

(** Column [j] of [v] is an eigenvector of the symmetric n x n matrix [a], with eigenvalue [d j]. *)
Definition eigencolumns (n : nat) (a : nat -> nat -> R) (v : mat) (d : nat -> R) : Prop :=
  forall j i, (j < cols v)%nat -> (i < n)%nat -> dot n (a i) (column v j) = d j * entry v i j.

(** What Eigen documents of [SelfAdjointEigenSolver]: for an n x n symmetric matrix, n orthonormal eigenvectors, one per
    column, in increasing order of their eigenvalues. *)
Record eigen_solution (n : nat) (a : nat -> nat -> R) (v : mat) (d : nat -> R) : Prop := {
  es_rows : rows v = n;
  es_cols : cols v = n;
  es_orthonormal : orthonormal v;
  es_eigen : eigencolumns n a v d;
  es_order : forall j k, (j <= k)%nat -> (k < n)%nat -> d j <= d k
}.

(** What Eigen documents of [JacobiSVD::matrixV] for an n x n matrix [c] with singular values [sigma]: orthonormal columns,
    eigenvectors of c^T c for the squares of the singular values, which are in decreasing order and not negative. *)
Record right_singular (n : nat) (c v : mat) (sigma : nat -> R) : Prop := {
  rs_rows : rows v = n;
  rs_cols : cols v = n;
  rs_orthonormal : orthonormal v;
  rs_eigen : eigencolumns n (fun i j => dot (rows c) (column c i) (column c j)) v (fun j => sigma j * sigma j);
  rs_positive : forall j, (j < n)%nat -> 0 <= sigma j;
  rs_order : forall j k, (j <= k)%nat -> (k < n)%nat -> sigma k <= sigma j
}.

(** Two matrices with the same dimensions and entries. *)
Definition same (a b : mat) : Prop :=
  rows a = rows b /\ cols a = cols b /\ forall i j, (i < rows a)%nat -> (j < cols a)%nat -> entry a i j = entry b i j.

(** [u], a vector with n coordinates, is a combination of the columns of [m]. *)
Definition combination (m : mat) (u : nat -> R) : Prop :=
  exists w : nat -> R, forall i, (i < rows m)%nat -> u i = total (cols m) (fun c => w c * entry m i c).

(** [q] is an inverse of the square matrix [p]. *)
Definition inverse (p q : mat) : Prop :=
  rows q = cols p /\ cols q = rows p /\
  forall i j, (i < rows p)%nat -> (j < rows p)%nat -> total (cols p) (fun k => entry p i k * entry q k j) = if Nat.eqb i j then 1 else 0.

(** Only the zero vector is zero everywhere. *)
Definition zero_vector (n : nat) (u : nat -> R) : Prop := forall i, (i < n)%nat -> u i = 0.

(** The columns of [s] are the right singular vectors of [a] with singular values [sigma]: the projections of the rows of
    [a] on different columns are orthogonal to each other and [sigma j] long; the columns are eigenvectors of a^T a; those
    with a singular value that is not zero are unit vectors, orthogonal to all others; nothing of [a] is lost by
    projecting; and among the directions orthogonal to columns 0 .. q-1 none is stretched by [a] more than by [sigma q],
    what column q attains. *)
Record singular_components (a s : mat) (sigma : nat -> R) : Prop := {
  sc_rows : rows s = cols a;
  sc_cols : cols s = Nat.min (rows a) (cols a);
  sc_positive : forall j, (j < cols s)%nat -> 0 <= sigma j;
  sc_order : forall j k, (j <= k)%nat -> (k < cols s)%nat -> sigma k <= sigma j;
  sc_orthogonal : forall j k, (j < cols s)%nat -> (k < cols s)%nat ->
    total (rows a) (fun i => dot (cols a) (row a i) (column s j) * dot (cols a) (row a i) (column s k))
    = if Nat.eqb j k then sigma j * sigma j else 0;
  sc_eigen : forall i j, (i < cols a)%nat -> (j < cols s)%nat ->
    total (rows a) (fun k => entry a k i * dot (cols a) (row a k) (column s j)) = sigma j * sigma j * entry s i j;
  sc_unit : forall j k, (j < cols s)%nat -> (k < cols s)%nat -> sigma k <> 0 ->
    dot (cols a) (column s j) (column s k) = if Nat.eqb j k then 1 else 0;
  sc_complete : forall i j, (i < rows a)%nat -> (j < cols a)%nat ->
    total (cols s) (fun k => dot (cols a) (row a i) (column s k) * entry s j k) = entry a i j;
  sc_best : forall q u, (q < cols s)%nat -> (forall j, (j < q)%nat -> dot (cols a) (column s j) u = 0) ->
    total (rows a) (fun i => dot (cols a) (row a i) u * dot (cols a) (row a i) u) <= sigma q * sigma q * dot (cols a) u u
}.

(** Entry (i, j) of a matrix of normally distributed numbers with c columns, made by the method of Box and Muller from the
    calls of [std::rand] from number [first] on: two calls for each pair of columns, rows one after the other; the last
    column of an odd number takes the sine. *)
Definition normal_entry (rand_max : R) (rand : nat -> R) (first c i j : nat) : R :=
  let q := (first + 2 * (i * ((c + 1) / 2) + j / 2))%nat in
  let v1 := (rand q + 1) / (rand_max + 2) in
  let v2 := (rand (q + 1)%nat + 1) / (rand_max + 2) in
  let angle := 2 * (13176795 / 4194304) * v2 in
  sqrt (-2 * ln v1) * (if Nat.even j && Nat.ltb (j + 1) c then cos angle else sin angle).
