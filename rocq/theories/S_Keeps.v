(** Specification vocabulary for C83: scaling keeps the order of the values.  [Bleb] is the operator <= of floating point numbers: it is false if
    one of the two is NaN. *)
From Flocq Require Import Core.Core IEEE754.BinarySingleNaN.
From Verif Require Import Base M_Scale.

(** What is not above is not sent above. *)
Definition keeps_order {p e : Z} {I : Type} (le_in : I -> I -> Prop) (f : I -> binary_float p e) : Prop := forall x y, le_in x y -> Bleb (f x) (f y) = true.
Definition not_above {p e : Z} (x y : binary_float p e) : Prop := Bleb x y = true.
(** Columns of a type whose values are compared by [le_in]; null values are not compared. *)
Definition column_order {p e : Z} {I : Type} (t : numty p e I) (le_in : I -> I -> Prop) : Prop :=
  keeps_order le_in (n_cv t) /\ forall x y, le_in x y -> n_null t x = false /\ n_null t y = false.
