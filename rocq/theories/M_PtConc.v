(** Model of src/SharedLibrary/PointerTable.h when several threads call it: the statements of the methods one by one, with the mutex.
    (M_PointerTable takes a whole method call as one step; C17 shows that this is right.) *)
From Verif Require Import Base M_PointerTable.
Open Scope Z_scope.

(** A call of a method. *)
Inductive tcall := TAdd (p : Z) | TGet (h : Z) | TRemove (h : Z).

(** Where a thread is in its call; the value of Remove is 0. *)
Inductive tpc :=
| Entered (o : tcall)          (* before the check of the argument: 74-76, 119-121, 139-141 *)
| Waiting (o : tcall)          (* at the LockGuard: 83, 123, 143 *)
| Inside (o : tcall)           (* it owns the mutex; before the loop iteration 102-108, or the find: 127, 147 *)
| Chosen (p d : Z)             (* Add: an unused index was found; before 110 *)
| Erasing (h : Z)              (* Remove: the entry was found; before 152 *)
| Leaving (r : res Z)          (* before the LockGuard is destroyed, by a return or by an exception *)
| Left (r : res Z).            (* the value is about to be returned, the exception is about to reach the caller *)

Definition bad_argument (o : tcall) : bool := match o with TAdd p => p =? 0 | TGet h => h =? 0 | TRemove h => h =? 0 end.

(** One statement of thread [i]: the owner of the mutex, the table, the place of the thread; before and after. *)
Inductive table_move (i : nat) : option nat * ptable * tpc -> option nat * ptable * tpc -> Prop :=
| move_refuse (k : option nat) (t : ptable) (o : tcall) : bad_argument o = true ->
    table_move i (k, t, Entered o) (k, t, Left (Throw InvalidArgument))
| move_enter (k : option nat) (t : ptable) (o : tcall) : bad_argument o = false ->
    table_move i (k, t, Entered o) (k, t, Waiting o)
| move_lock (t : ptable) (o : tcall) :                                              (* std::mutex *)
    table_move i (None, t, Waiting o) (Some i, t, Inside o)
| move_redraw (k : option nat) (t : ptable) (p d q : Z) : 1 <= d < 18446744073709551616 -> pt_find t d = Some q ->     (* 100-108: dist(m_mt), used *)
    table_move i (k, t, Inside (TAdd p)) (k, t, Inside (TAdd p))
| move_draw (k : option nat) (t : ptable) (p d : Z) : 1 <= d < 18446744073709551616 -> pt_find t d = None ->           (* 100-108: unused *)
    table_move i (k, t, Inside (TAdd p)) (k, t, Chosen p d)
| move_insert (k : option nat) (t : ptable) (p d : Z) :                             (* 110 *)
    table_move i (k, t, Chosen p d) (k, (d, p) :: t, Leaving (Ok d))
| move_get (k : option nat) (t : ptable) (h : Z) :                                  (* 127-132 *)
    table_move i (k, t, Inside (TGet h)) (k, t, Leaving (match pt_find t h with None => Throw InvalidArgument | Some p => Ok p end))
| move_miss (k : option nat) (t : ptable) (h : Z) : pt_find t h = None ->           (* 147-150 *)
    table_move i (k, t, Inside (TRemove h)) (k, t, Leaving (Throw InvalidArgument))
| move_hit (k : option nat) (t : ptable) (h p : Z) : pt_find t h = Some p ->
    table_move i (k, t, Inside (TRemove h)) (k, t, Erasing h)
| move_erase (k : option nat) (t : ptable) (h : Z) :                                (* 152 *)
    table_move i (k, t, Erasing h) (k, pt_erase t h, Leaving (Ok 0))
| move_unlock (k : option nat) (t : ptable) (r : res Z) :                           (* ~LockGuard *)
    table_move i (k, t, Leaving r) (None, t, Left r).

(** Any number of threads, each in a call or not; what can be observed: calls and returns. *)
Record tconf := mkTconf { tc_lock : option nat; tc_table : ptable; tc_threads : nat -> option tpc }.
Definition tc_start : tconf := mkTconf None [] (fun _ => None).
Definition put {A} (f : nat -> A) (i : nat) (x : A) : nat -> A := fun j => if Nat.eqb j i then x else f j.
Inductive tevent := Call (i : nat) (o : tcall) | Return (i : nat) (r : res Z).
Inductive tstep : tconf -> list tevent -> tconf -> Prop :=
| t_call (c : tconf) (i : nat) (o : tcall) : tc_threads c i = None ->
    tstep c [Call i o] (mkTconf (tc_lock c) (tc_table c) (put (tc_threads c) i (Some (Entered o))))
| t_inner (c : tconf) (i : nat) (q q' : tpc) (k' : option nat) (t' : ptable) : tc_threads c i = Some q ->
    table_move i (tc_lock c, tc_table c, q) (k', t', q') ->
    tstep c [] (mkTconf k' t' (put (tc_threads c) i (Some q')))
| t_return (c : tconf) (i : nat) (r : res Z) : tc_threads c i = Some (Left r) ->
    tstep c [Return i r] (mkTconf (tc_lock c) (tc_table c) (put (tc_threads c) i None)).
(** Executions, and what is observed in them. *)
Inductive truns : tconf -> list tevent -> tconf -> Prop :=
| truns_none (c : tconf) : truns c [] c
| truns_more (c : tconf) (es es' : list tevent) (c' c2 : tconf) : truns c es c' -> tstep c' es' c2 -> truns c (es ++ es') c2.
