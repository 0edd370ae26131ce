(** Specification vocabulary for C85. *)
From Verif Require Import Base.
Definition sum_of (l : list Z) : Z := fold_right Z.add 0 l.
