(** Model of [operator==] of pipelines, of the transformers that keep values between calls, of the min-max scaler and of the sparse vectors. *)
From Flocq Require Import IEEE754.BinarySingleNaN.
From Verif Require Import Base M_Encoders M_Pipeline M_Impute M_Scale.

(** A class of transformers: the members of its objects, its [operator==] and what an object does. *)
Record class (A B : Type) := mkClass { c_members : Type; c_eq : c_members -> c_members -> bool; c_make : c_members -> transformer A B }.
Arguments mkClass {A B}. Arguments c_members {A B}. Arguments c_eq {A B}. Arguments c_make {A B}.
(** The type of a pipeline: the specializations of [TransformerChainElement] (PipelineExecutionEstimatorImpl_details.h:797-839, 845-911, 917-967, 973-1059),
    as in M_Pipeline.chain, with classes for transformers. *)
Inductive line : Type -> Type -> Type :=
| EndOther {A} : line A A
| EndTr {A B} (c : class A B) : line A B
| ThenOther {A B} (l : line A B) : line A B
| ThenTr {A B C} (c : class A B) (l : line B C) : line A C.
(** The transformers that an object of it holds. *)
Fixpoint members {A B} (l : line A B) {struct l} : Type :=
  match l with EndOther => unit | EndTr c => c_members c | ThenOther l => members l | ThenTr c l => c_members c * members l end.
(** PipelineExecutionEstimatorImpl_details.h:824-826, 879-885, 950-952, 1010-1013, and PipelineExecutionEstimatorImpl.h:259-261. *)
Fixpoint line_eq {A B} (l : line A B) {struct l} : members l -> members l -> bool :=
  match l return members l -> members l -> bool with
  | EndOther => fun _ _ => true
  | EndTr c => c_eq c
  | ThenOther l => line_eq l
  | ThenTr c l => fun v w => line_eq l (snd v) (snd w) && c_eq c (fst v) (fst w)
  end.
(** The pipeline itself. *)
Fixpoint line_chain {A B} (l : line A B) {struct l} : members l -> chain A B :=
  match l in line A B return members l -> chain A B with
  | EndOther => fun _ => TerminalOther
  | EndTr c => fun v => TerminalTr (c_make c v)
  | ThenOther l => fun v => InnerOther (line_chain l v)
  | ThenTr c l => fun v => InnerTr (c_make c (fst v)) (line_chain l (snd v))
  end.

(** ForwardFillImputerFeaturizer.h:192-211: the default values only; an object also holds the last value. *)
Definition opt_eq {T} (eqb : T -> T -> bool) (a b : option T) : bool :=
  match a, b with None, None => true | Some x, Some y => eqb x y | _, _ => false end.
Definition forward_fill {T} (eqb : T -> T -> bool) : class (option T) T :=
  mkClass (option T * option T) (fun v w => opt_eq eqb (fst v) (fst w)) (fun v => ffill (snd v)).
(** MinMaxScalerFeaturizer.h:222-236, for a floating point type and for an integer type. *)
Definition mm_eq {p e} (s s' : binary_float p e * binary_float p e) : bool := Beqb (fst s) (fst s') && Beqb (snd s) (snd s').
Definition mm_int_eq (s s' : Z * Z) : bool := (fst s =? fst s') && (snd s =? snd s').

(** Structs.h:145-148 and 217-220 ([==] of std::vector: the same length and equal elements), and 262-266. *)
Fixpoint values_eq {V} (veq : V -> V -> bool) (l l' : list (V * Z)) {struct l} : bool :=
  match l, l' with
  | [], [] => true
  | p :: r, q :: r' => veq (fst p) (fst q) && (snd p =? snd q) && values_eq veq r r'
  | _, _ => false
  end.
Definition sparse_eq {V} (veq : V -> V -> bool) (s s' : sparse V) : bool :=
  (sp_elements s =? sp_elements s') && values_eq veq (sp_values s) (sp_values s').
Definition single_eq {V} (veq : V -> V -> bool) (s s' : single V) : bool :=
  (si_elements s =? si_elements s') && veq (si_value s) (si_value s') && (si_index s =? si_index s').
