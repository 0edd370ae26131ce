(** Specification: what a caller knows from the history of calls and answers alone. *)
From Verif Require Import Base M_PointerTable.

(** The pointer a handle stands for after a history (oldest call first): the one of the latest Add that returned it,
    unless it was successfully removed since. *)
Fixpoint live_after (hist : list (pt_op * pt_out)) (cur : option Z) (h : Z) : option Z :=
  match hist with
  | [] => cur
  | (PAdd p _, PHandle h') :: r => live_after r (if h' =? h then Some p else cur) h
  | (PRemove h', PDone) :: r => live_after r (if h' =? h then None else cur) h
  | _ :: r => live_after r cur h
  end.
Definition live (hist : list (pt_op * pt_out)) (h : Z) : option Z := live_after hist None h.

(** Draws of the random engine: uniform_int_distribution over [1, 2^64-1]. *)
Definition op_draws_ok (o : pt_op) : Prop :=
  match o with PAdd _ draws => Forall (fun d => 1 <= d < 18446744073709551616) draws | _ => True end.

(** The answer the caller must get in the situation described by [l]. *)
Definition answer_ok (l : Z -> option Z) (o : pt_op) (x : pt_out) : Prop :=
  match o with
  | PAdd p _ => if p =? 0 then x = PThrow InvalidArgument
                else exists h, x = PHandle h /\ 1 <= h < 18446744073709551616 /\ l h = None
  | PGet h => match l h with Some p => x = PPtr p | None => x = PThrow InvalidArgument end
  | PRemove h => match l h with Some _ => x = PDone | None => x = PThrow InvalidArgument end
  end.
