(** Specification: what it means that concurrent calls behave like calls made one after the other. *)
From Verif Require Import Base M_PointerTable S_PointerTable M_PtConc.
Open Scope Z_scope.

(** The observed calls and returns, with moments at which calls take effect in between. *)
Inductive xevent := Seen (e : tevent) | Effect (i : nat) (o : pt_op) (x : pt_out).
Fixpoint seen (l : list xevent) : list tevent :=
  match l with [] => [] | Seen e :: r => e :: seen r | Effect _ _ _ :: r => seen r end.
Fixpoint effects (l : list xevent) : list (pt_op * pt_out) :=
  match l with [] => [] | Seen _ :: r => effects r | Effect _ o x :: r => (o, x) :: effects r end.

(** Every thread calls, its call takes effect once, and then it returns with the result of that moment. *)
Definition same_call (o : tcall) (p : pt_op) : Prop :=
  match o, p with TAdd a, PAdd b _ => a = b | TGet h, PGet k => h = k | TRemove h, PRemove k => h = k | _, _ => False end.
Definition result (x : pt_out) : res Z := match x with PHandle h => Ok h | PPtr p => Ok p | PDone => Ok 0 | PThrow e => Throw e end.
Inductive phase := Out | Begun (o : tcall) | Effective (r : res Z).
Fixpoint orderly (st : nat -> phase) (l : list xevent) {struct l} : Prop :=
  match l with
  | [] => True
  | Seen (Call i o) :: r => st i = Out /\ orderly (put st i (Begun o)) r
  | Effect i p x :: r => (exists o, st i = Begun o /\ same_call o p) /\ orderly (put st i (Effective (result x))) r
  | Seen (Return i v) :: r => st i = Effective v /\ orderly (put st i Out) r
  end.
(** The calls in the order in which they take effect are a history of calls that are made one after the other, which ends with [t]. *)
Definition one_after_the_other (hist : list tevent) (t : ptable) : Prop :=
  exists ext, seen ext = hist /\ orderly (fun _ => Out) ext /\
    Forall op_draws_ok (map fst (effects ext)) /\ pt_run [] (map fst (effects ext)) = Some (t, map snd (effects ext)).
(** The thread is about to read or change the table, or to release the mutex. *)
Definition section (q : tpc) : bool := match q with Inside _ | Chosen _ _ | Erasing _ | Leaving _ => true | _ => false end.
