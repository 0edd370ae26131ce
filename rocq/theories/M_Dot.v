(** Model of the projections of PCAFeaturizer.h and TruncatedSVDFeaturizer.h in floating point arithmetic: [execute_impl], for trained matrices.
    M_Matrix.v models the same functions, and their training, in exact arithmetic. *)
From Flocq Require Import Core.Core IEEE754.BinarySingleNaN.
From Verif Require Import Base M_Scale.

(** A matrix of floating point numbers: its dimensions and its entries. *)
Record fmat (F : Type) := FMat { f_rows : nat; f_cols : nat; f_entry : nat -> nat -> F }.
Arguments FMat {F}. Arguments f_rows {F}. Arguments f_cols {F}. Arguments f_entry {F}.
Definition f_transpose {F} (m : fmat F) : fmat F := FMat (f_cols m) (f_rows m) (fun i j => f_entry m j i).

Section Dot.
  Context {p e : Z} {Hp : Prec_gt_0 p} {Hm : Prec_lt_emax p e}.
  Notation F := (binary_float p e).
  (** Eigen's product of two matrices (PCAFeaturizer.h:79, TruncatedSVDFeaturizer.h:98): a cell is a sum of products of numbers of the scalar type.
      Eigen does not say in which order the products are added, whether it starts from zero, how many partial sums it keeps (blocks, vector
      registers), nor whether a product and a sum are fused (FMA): each of these is allowed here. *)
  Inductive evaluates : list (F * F) -> F -> Prop :=
  | ev_zero s : evaluates [] (B754_zero s)
  | ev_product x y : evaluates [(x, y)] (fmul x y)
  | ev_add l l' a b : evaluates l a -> evaluates l' b -> evaluates (l ++ l') (fadd a b)
  | ev_fused x y l a : evaluates l a -> evaluates ((x, y) :: l) (Bfma mode_NE x y a)
  | ev_order l l' a : evaluates l a -> Permutation l l' -> evaluates l' a.
  Definition factors (a b : fmat F) (i j : nat) : list (F * F) := map (fun k => (f_entry a i k, f_entry b k j)) (seq 0 (f_cols a)).
  Definition is_product (a b c : fmat F) : Prop :=
    f_rows c = f_rows a /\ f_cols c = f_cols b /\ forall i j, (i < f_rows a)%nat -> (j < f_cols b)%nat -> evaluates (factors a b i j) (f_entry c i j).

  (** PCAFeaturizer.h:69-80. *)
  Definition pca_gives (eigenvectors input : fmat F) (r : res (fmat F)) : Prop :=
    if Nat.eqb (f_rows input * f_cols input) 0 then r = Throw InvalidArgument
    else if negb (Nat.eqb (f_cols input) (f_cols eigenvectors)) then r = Throw InvalidArgument
    else exists c, r = Ok c /\ is_product input (f_transpose eigenvectors) c.

  (** TruncatedSVDFeaturizer.h:25-28: [largest] after rows 0 .. k of a column. *)
  Fixpoint f_largest (f : nat -> F) (k : nat) {struct k} : F :=
    match k with
    | O => f 0%nat
    | S k' => let l := f_largest f k' in if Bltb (Babs l) (Babs (f k)) then f k else l
    end.
  (** TruncatedSVDFeaturizer.h:17-36. *)
  Definition f_flip (m : fmat F) : fmat F :=
    FMat (f_rows m) (f_cols m) (fun i j => if Bltb (f_largest (fun r => f_entry m r j) (f_rows m - 1)) fzero then Bopp (f_entry m i j) else f_entry m i j).
  (** TruncatedSVDFeaturizer.h:91-101. *)
  Definition svd_gives (singularvectors input : fmat F) (r : res (fmat F)) : Prop :=
    if Nat.eqb (f_rows input * f_cols input) 0 then r = Throw InvalidArgument
    else if negb (Nat.eqb (f_cols input) (f_rows singularvectors)) then r = Throw InvalidArgument
    else exists c, is_product input singularvectors c /\ r = Ok (f_flip c).
End Dot.
