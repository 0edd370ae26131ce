(** Trainings that differ in the order of the rows (C81). *)
From Flocq Require Import Core.Core IEEE754.BinarySingleNaN.
From Verif Require Import Base M_Estimator M_Scale M_Pipeline M_Featurizer S_Stats S_Featurizer.
Close Scope R_scope.

(** Two trainings, each of at least one non-empty batch, whose rows (the first [mx] of each) are the same up to their order. *)
Definition shuffled {V} (mx : nat) (bs bs' : list (list V)) : Prop :=
  proper_training mx bs /\ proper_training mx bs' /\ bs <> [] /\ bs' <> [] /\ Permutation (items mx bs) (items mx bs').
(** They end alike: with the same error, undefined, or with the same number of transformers, related by [same]. *)
Definition same_end {A Tr} (same : Tr -> Tr -> Prop) (r r' : res (A * list Tr)) : Prop :=
  match r, r' with
  | Ok (_, l), Ok (_, l') => Forall2 same l l'
  | Throw e, Throw e' => e = e'
  | UB, UB => True
  | _, _ => False
  end.
Definition trains_alike {V Ann Tr} (same : Tr -> Tr -> Prop) (col : nat) (steps : list (fstep V Ann Tr)) (a : ann_maps Ann) (bs bs' : list (list V)) : Prop :=
  forall apply, exists r r', trains_to apply col steps a bs r /\ trains_to apply col steps a bs' r' /\ same_end same r r'.
(** Transformers with the same output for the same rows. *)
Definition same_output {I O} (t t' : transformer I O) : Prop := forall rows, delivered t rows = delivered t' rows.
(** The same number; zeros may differ in their sign. *)
Definition same_number {p e} (x y : binary_float p e) : Prop := x = y \/ is_zero x = true /\ is_zero y = true.
(** The most frequent value of a column with nulls. *)
Definition most_frequent {T} (eqb : option T -> option T -> bool) (l : list (option T)) (v : T) : Prop :=
  In (Some v) l /\ forall w, In (Some w) l -> occ eqb (Some w) l <= occ eqb (Some v) l.
