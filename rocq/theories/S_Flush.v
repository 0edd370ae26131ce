(** What a flush promises (C90). *)
From Verif Require Import Base M_Pipeline S_CompareTr.

(** A transformer that has come to the state [x]. *)
Definition at_state {A B} (t : transformer A B) (x : t_state t) : transformer A B := mkTr (t_state t) x (t_exec t) (t_flush t).
(** The states it comes to by any sequence of calls that end without an exception. *)
Inductive reached {A B} (t : transformer A B) : t_state t -> Prop :=
| r_new : reached t (t_cur t)
| r_row x a o y : reached t x -> t_exec t x a = (o, Ok y) -> reached t y
| r_flush x o y : reached t x -> t_flush t x = (o, Ok y) -> reached t y.
(** After whatever calls, a flush without an exception makes it behave as when it was new. *)
Definition resets {A B} (t : transformer A B) : Prop :=
  forall x o y, reached t x -> t_flush t x = (o, Ok y) -> same_behaviour (at_state t y) t.
(** Something holds of each transformer of a pipeline. *)
Fixpoint each_stage (P : forall A B, transformer A B -> Prop) {A B} (c : chain A B) {struct c} : Prop :=
  match c with
  | TerminalOther => True
  | TerminalTr t => P _ _ t
  | InnerOther c => each_stage P c
  | InnerTr t c => P _ _ t /\ each_stage P c
  end.
(** A new one delivers nothing when it is flushed, without an exception. *)
Definition quiet {A B} (t : transformer A B) : Prop := exists y, t_flush t (t_cur t) = ([], Ok y).
