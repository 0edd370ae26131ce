(** Specification vocabulary: the documented life cycle. *)
From Verif Require Import Base M_Estimator.

(** Featurizer.h:325-334 (documentation): in which states a call is allowed. *)
Definition allowed {In} (o : eop In) (st : tstate) : bool :=
  match o, st with
  | OBegin, Pending => true
  | OFit _, Training => true
  | OOnData, (Training | Finished) => true
  | OComplete, (Training | Finished) => true
  | OCreate, Completed => true
  | _, _ => false
  end.
Definition rank (st : tstate) : nat :=
  match st with Pending => 0 | Training => 1 | Finished => 2 | Completed => 3 end.
(** The moves a call may make when it succeeds. *)
Definition may_move {In} (o : eop In) (a b : tstate) : bool :=
  match o, a, b with
  | OBegin, Pending, (Training | Finished) => true
  | OFit _, Training, (Training | Finished) => true
  | OOnData, Training, (Training | Finished) => true
  | OOnData, Finished, Finished => true
  | OComplete, (Training | Finished), Completed => true
  | OCreate, Completed, Completed => true
  | _, _, _ => false
  end.
Definition failed {Tr} (x : eout Tr) : Prop := (exists e, x = EThrow e) \/ x = EUB.
