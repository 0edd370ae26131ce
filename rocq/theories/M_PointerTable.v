(** Model of src/SharedLibrary/PointerTable.h.  Every method does all its work on the table inside one critical section,
    so concurrent executions are interleavings of whole calls; a history is a list of calls. *)
From Verif Require Import Base.

(** [m_un]: handle -> pointer (non-null). *)
Definition ptable := list (Z * Z).

Fixpoint pt_find (t : ptable) (h : Z) : option Z :=
  match t with
  | [] => None
  | (k, p) :: r => if k =? h then Some p else pt_find r h
  end.
(** [erase] removes the entry; keys are unique. *)
Fixpoint pt_erase (t : ptable) (h : Z) : ptable :=
  match t with
  | [] => []
  | (k, p) :: r => if k =? h then r else (k, p) :: pt_erase r h
  end.

(** PointerTable.h:102-108: draw until the handle is unused.  [draws] is what [dist(m_mt)] returns, call after call; a
    list with no unused handle stands for a loop that has not ended yet. *)
Fixpoint pt_draw (t : ptable) (draws : list Z) : option Z :=
  match draws with
  | [] => None
  | d :: r => match pt_find t d with None => Some d | Some _ => pt_draw t r end
  end.

(** PointerTable.h:72-114; pointer 0 is null. [None] in the result: still drawing. *)
Definition pt_add (t : ptable) (p : Z) (draws : list Z) : option (ptable * res Z) :=
  if p =? 0 then Some (t, Throw InvalidArgument)
  else match pt_draw t draws with
       | None => None
       | Some h => Some ((h, p) :: t, Ok h)
       end.
(** PointerTable.h:116-133. *)
Definition pt_get (t : ptable) (h : Z) : res Z :=
  if h =? 0 then Throw InvalidArgument
  else match pt_find t h with None => Throw InvalidArgument | Some p => Ok p end.
(** PointerTable.h:136-152. *)
Definition pt_remove (t : ptable) (h : Z) : ptable * res unit :=
  if h =? 0 then (t, Throw InvalidArgument)
  else match pt_find t h with
       | None => (t, Throw InvalidArgument)
       | Some _ => (pt_erase t h, Ok tt)
       end.

Inductive pt_op := PAdd (p : Z) (draws : list Z) | PGet (h : Z) | PRemove (h : Z).
Inductive pt_out := PHandle (h : Z) | PPtr (p : Z) | PDone | PThrow (e : exn).

(** One call of some thread; [None]: the call has not returned (endless drawing). *)
Definition pt_step (t : ptable) (o : pt_op) : option (ptable * pt_out) :=
  match o with
  | PAdd p draws => match pt_add t p draws with
                    | None => None
                    | Some (t', Ok h) => Some (t', PHandle h)
                    | Some (t', Throw e) => Some (t', PThrow e)
                    | Some (t', UB) => None
                    end
  | PGet h => match pt_get t h with Ok p => Some (t, PPtr p) | Throw e => Some (t, PThrow e) | UB => None end
  | PRemove h => match pt_remove t h with
                 | (t', Ok _) => Some (t', PDone) | (t', Throw e) => Some (t', PThrow e) | (_, UB) => None
                 end
  end.
Fixpoint pt_run (t : ptable) (ops : list pt_op) : option (ptable * list pt_out) :=
  match ops with
  | [] => Some (t, [])
  | o :: r => match pt_step t o with
              | None => None
              | Some (t', x) => match pt_run t' r with None => None | Some (t2, xs) => Some (t2, x :: xs) end
              end
  end.
