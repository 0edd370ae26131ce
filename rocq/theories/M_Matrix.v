(** Model of Featurizers/PCAFeaturizer.h and Featurizers/TruncatedSVDFeaturizer.h, in exact real arithmetic.

    Simplifications.
    - Scalars (float, double) are real numbers: no rounding, no infinities, no NaN.
    - The two decompositions of Eigen ([Eigen::SelfAdjointEigenSolver], [Eigen::JacobiSVD]) are parameters; the
      theorems assume of them what Eigen documents (S_Matrix.v), and only for the matrix they are called with.
    - A matrix is its dimensions and a function giving its entries; storage order and sparsity are not modelled here (the
      bytes of a saved matrix are, in M_Codec.v and M_Save.v).  Entries outside the dimensions have no meaning.
    - [std::rand] is an arbitrary sequence of numbers.  *)
From Coq Require Import Reals.
From Verif Require Import Base M_Estimator.
Open Scope R_scope.

Record mat := Mat { rows : nat; cols : nat; entry : nat -> nat -> R }.

(** [size()] of an Eigen matrix. *)
Definition size (m : mat) : nat := (rows m * cols m)%nat.
(** A default constructed matrix (PCAFeaturizer.h:129, TruncatedSVDFeaturizer.h:251). *)
Definition no_matrix : mat := Mat 0 0 (fun _ _ => 0).

Fixpoint sum (n : nat) (f : nat -> R) {struct n} : R :=
  match n with O => 0 | S k => sum k f + f k end.

(** [a * b], [a.transpose()], [a.adjoint()] (real scalars). *)
Definition product (a b : mat) : mat := Mat (rows a) (cols b) (fun i j => sum (cols a) (fun k => entry a i k * entry b k j)).
Definition transpose (a : mat) : mat := Mat (cols a) (rows a) (fun i j => entry a j i).

(* ------------------------------------------------------------------ *)
(** * PCA *)

(** PCAFeaturizer.h:148: [matrix.rowwise() - matrix.colwise().mean()]. *)
Definition column_mean (m : mat) (j : nat) : R := sum (rows m) (fun i => entry m i j) / INR (rows m).
Definition centered (m : mat) : mat := Mat (rows m) (cols m) (fun i j => entry m i j - column_mean m j).
(** PCAFeaturizer.h:151. *)
Definition scatter (m : mat) : mat := product (transpose (centered m)) (centered m).

(** PCAFeaturizer.h:69-80. *)
Definition pca_execute (eigenvectors input : mat) : res mat :=
  if Nat.eqb (size input) 0 then Throw InvalidArgument
  else if negb (Nat.eqb (cols input) (cols eigenvectors)) then Throw InvalidArgument
  else Ok (product input (transpose eigenvectors)).

Section Pca.
  (** [eig.eigenvectors()] (PCAFeaturizer.h:145,158). *)
  Variable eigenvectors_of : mat -> mat.

  (** PCAFeaturizer.h:139-161.  Eigen asserts that the matrix it averages and decomposes is not empty. *)
  Definition pca_fit (s : mat) (items : list mat) : mat * res fit_result :=
    match items with
    | [m] => if Nat.eqb (size m) 0 then (s, UB) else (eigenvectors_of (scatter m), Ok FitComplete)
    | _ => (s, Throw RuntimeError)
    end.

  (** PCAFeaturizer.h:166-168 and 187-191: the eigenvectors are moved into the transformer, which refuses an empty matrix. *)
  Definition matrix_create (s : mat) : mat * res (option mat) :=
    (no_matrix, if Nat.eqb (size s) 0 then Throw InvalidArgument else Ok (Some s)).

  (** PCAFeaturizer.h:136,163,264-271; the default [on_data_completed_impl] (Featurizer.h:826-829) ends the training. *)
  Definition pca_impl : impl mat mat mat :=
    mkImpl (fun s => (s, Ok true)) pca_fit (fun s => (s, Ok true)) (fun s => (s, Ok tt)) matrix_create.
End Pca.


(* ------------------------------------------------------------------ *)
(** * Truncated SVD *)

(** TruncatedSVDFeaturizer.h:25-28: [largest] after rows 0 .. k of a column. *)
Fixpoint largest (f : nat -> R) (k : nat) {struct k} : R :=
  match k with
  | O => f 0%nat
  | S k' => let l := largest f k' in if Rlt_dec (Rabs l) (Rabs (f k)) then f k else l
  end.

(** TruncatedSVDFeaturizer.h:17-36.  [mat(0,col)] exists because the caller refuses an empty input. *)
Definition svd_flip (m : mat) : mat :=
  Mat (rows m) (cols m) (fun i j =>
    if Rlt_dec (largest (fun r => entry m r j) (rows m - 1)) 0 then - entry m i j else entry m i j).

(** TruncatedSVDFeaturizer.h:91-101. *)
Definition svd_execute (singularvectors input : mat) : res mat :=
  if Nat.eqb (size input) 0 then Throw InvalidArgument
  else if negb (Nat.eqb (cols input) (rows singularvectors)) then Throw InvalidArgument
  else Ok (svd_flip (product input singularvectors)).

(** TruncatedSVDFeaturizer.h:144-154: one call of the scalar [sample_gaussian] with the two numbers [std::rand] returns
    ([r1], [r2], in 0 .. RAND_MAX).  PI is the float nearest to pi (144). *)
Definition PI_f : R := 13176795 / 4194304.
Definition gaussian_pair (rand_max : R) (r1 r2 : R) : R * R :=
  let v1 := (r1 + 1) / (rand_max + 2) in
  let v2 := (r2 + 1) / (rand_max + 2) in
  let len := sqrt (-2 * ln v1) in
  (len * cos (2 * PI_f * v2), len * sin (2 * PI_f * v2)).

(** TruncatedSVDFeaturizer.h:158-169.  [rand k] is what call number k of [std::rand] returns; each function starts at call
    [k] and returns the number of the next call.  164-165: [n] pairs of columns. *)
Fixpoint gaussian_pairs (rand_max : R) (rand : nat -> R) (k n : nat) {struct n} : list R * nat :=
  match n with
  | O => ([], k)
  | S n' =>
      let p := gaussian_pair rand_max (rand k) (rand (k + 1)%nat) in
      let (l, k') := gaussian_pairs rand_max rand (k + 2)%nat n' in
      (fst p :: snd p :: l, k')
  end.
(** 164-167: one row; the last column of an odd number of columns receives both results of a call, the second stays (154). *)
Definition gaussian_row (rand_max : R) (rand : nat -> R) (k c : nat) : list R * nat :=
  let (l, k') := gaussian_pairs rand_max rand k (Nat.div2 c) in
  if Nat.odd c then (l ++ [snd (gaussian_pair rand_max (rand k') (rand (k' + 1)%nat))], (k' + 2)%nat) else (l, k').
(** 162-168: [r] rows. *)
Fixpoint gaussian_rows (rand_max : R) (rand : nat -> R) (k r c : nat) {struct r} : list (list R) * nat :=
  match r with
  | O => ([], k)
  | S r' =>
      let (l, k') := gaussian_row rand_max rand k c in
      let (ls, k'') := gaussian_rows rand_max rand k' r' c in
      (l :: ls, k'')
  end.
Definition gaussian_matrix (rand_max : R) (rand : nat -> R) (k r c : nat) : mat * nat :=
  let (ls, k') := gaussian_rows rand_max rand k r c in
  (Mat r c (fun i j => nth j (nth i ls []) 0), k').

(** TruncatedSVDFeaturizer.h:182: the float nearest to 1E-4. *)
Definition EPS : R := 13743895 / 137438953472.

(** TruncatedSVDFeaturizer.h:189-192: column [i] after its loop has run for 0 .. j-1; [n] is the number of rows. *)
Fixpoint subtract (n : nat) (a : nat -> nat -> R) (i j : nat) {struct j} : nat -> nat -> R :=
  match j with
  | O => a
  | S k =>
      let b := subtract n a i k in
      let r := sum n (fun l => b l i * b l k) in
      fun l c => if Nat.eqb c i then b l i - r * b l k else b l c
  end.
(** TruncatedSVDFeaturizer.h:194. *)
Definition norm (n : nat) (u : nat -> R) : R := sqrt (sum n (fun l => u l * u l)).
(** TruncatedSVDFeaturizer.h:188-202, from column [i] on, with [left] columns left. *)
Fixpoint schmidt (n : nat) (left i : nat) (a : nat -> nat -> R) {struct left} : nat -> nat -> R :=
  match left with
  | O => a
  | S left' =>
      let b := subtract n a i i in
      let w := norm n (fun l => b l i) in
      if Rlt_dec w EPS then (fun l c => if Nat.leb i c then 0 else b l c)
      else schmidt n left' (S i) (fun l c => if Nat.eqb c i then b l i / w else b l c)
  end.
(** TruncatedSVDFeaturizer.h:172-203. *)
Definition gram_schmidt (m : mat) : mat := Mat (rows m) (cols m) (schmidt (rows m) (cols m) 0 (entry m)).

(** TruncatedSVDFeaturizer.h:266. *)
Definition rank_of (a : mat) : nat := if Nat.ltb (rows a) (cols a) then rows a else cols a.
(** TruncatedSVDFeaturizer.h:273-276, 279, 287-290 and 293, for the two random matrices [o] and [p]. *)
Definition svd_Y (a o : mat) : mat := gram_schmidt (product (transpose a) o).
Definition svd_B (a o : mat) : mat := product a (svd_Y a o).
Definition svd_Z (a o p : mat) : mat := gram_schmidt (product (svd_B a o) p).
Definition svd_C (a o p : mat) : mat := product (transpose (svd_Z a o p)) (svd_B a o).

(** TruncatedSVDFeaturizer.h:269-270 and 282-284: the two matrices of random numbers, drawn one after the other. *)
Definition random_matrices (rand_max : R) (rand : nat -> R) (a : mat) : mat * mat :=
  let (o, k) := gaussian_matrix rand_max rand 0 (rows a) (rank_of a) in
  let (p, _) := gaussian_matrix rand_max rand k (cols (svd_B a o)) (rank_of a) in
  (o, p).

Section Svd.
  (** [svdOfC.matrixV()] (TruncatedSVDFeaturizer.h:295,297). *)
  Variable matrixV : mat -> mat.

  (** TruncatedSVDFeaturizer.h:297. *)
  Definition svd_state (a o p : mat) : mat := product (svd_Y a o) (matrixV (svd_C a o p)).

  (** TruncatedSVDFeaturizer.h:261-300.  Eigen asserts that the
      matrix it decomposes is not empty. *)
  Definition svd_fit (rand_max : R) (rand : nat -> R) (s : mat) (items : list mat) : mat * res fit_result :=
    match items with
    | [a] =>
        if Nat.eqb (size a) 0 then (s, UB)
        else let (o, p) := random_matrices rand_max rand a in (svd_state a o p, Ok FitComplete)
    | _ => (s, Throw RuntimeError)
    end.

  (** TruncatedSVDFeaturizer.h:258,302-307,326-330,405-411. *)
  Definition svd_impl (rand_max : R) (rand : nat -> R) : impl mat mat mat :=
    mkImpl (fun s => (s, Ok true)) (svd_fit rand_max rand) (fun s => (s, Ok true)) (fun s => (s, Ok tt)) matrix_create.
End Svd.

