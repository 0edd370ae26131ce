(** What it means that a call that ended with an exception leaves no trace, and the other promises made about errors (C78). *)
From Verif Require Import Base M_Pipeline M_Keyed M_Errors.

(** A consumer that accepts every value and keeps it. *)
Definition keep {B} (l : list B) (b : B) : list B * res unit := (l ++ [b], Ok tt).
(** Any consumer, and the list of everything it was offered. *)
Definition watched {C B} (put : C -> B -> C * res unit) (x : C * list B) (b : B) : (C * list B) * res unit :=
  let (c, r) := put (fst x) b in ((c, snd x ++ [b]), r).
(** Any consumer, and the list of the values it accepted. *)
Definition accepting {C B} (put : C -> B -> C * res unit) (x : C * list B) (b : B) : (C * list B) * res unit :=
  let (c, r) := put (fst x) b in ((c, match r with Ok _ => snd x ++ [b] | _ => snd x end), r).

Definition succeeds (r : res unit) : bool := match r with Ok _ => true | _ => false end.
(** The calls of a session that ended normally. *)
Fixpoint succeeded {U} (us : list U) (rs : list (res unit)) : list U :=
  match us, rs with
  | u :: us', r :: rs' => if succeeds r then u :: succeeded us' rs' else succeeded us' rs'
  | _, _ => []
  end.

Definition is_row {A} (u : use A) : Prop := match u with Row _ => True | Flush => False end.

(** Whatever the consumer does and whatever is thrown: after a session the object is the one that has seen only the calls
    that ended normally (and these calls, made alone with a consumer that accepts everything, all end normally). *)
Definition leaves_no_trace {A B} (o : object A B) (allowed : use A -> Prop) : Prop :=
  forall C (put : C -> B -> C * res unit) c s us, Forall allowed us ->
  let '(_, s', rs) := session o put c s us in
  exists out, session o keep [] s (succeeded us rs) = (out, s', map (fun _ => Ok tt) (succeeded us rs)).

(** The opposite discipline: every call counts, whether its results were accepted or not; what is offered to the consumer, and the
    object afterwards, never depend on the consumer. *)
Definition counts_every_call {A B} (o : object A B) (allowed : use A -> Prop) : Prop :=
  forall C (put : C -> B -> C * res unit) c s us, Forall allowed us ->
  let '(c', s', _) := session o (watched put) (c, []) s us in
  let '(out, s'', _) := session o keep [] s us in
  snd c' = out /\ s' = s''.

(** One result at most, and nothing is remembered before it has been accepted. *)
Fixpoint only_assigns {S B} (p : call S B) : Prop :=
  match p with Return => True | Assign _ k => only_assigns k | _ => False end.
Definition careful_call {S B} (p : call S B) : Prop :=
  match p with
  | Raise _ | Undefined => True
  | Emit _ k => only_assigns k
  | p => only_assigns p
  end.
Definition careful {A B} (o : object A B) : Prop := forall s a, careful_call (o_exec o s a).

(** What M_Pipeline records of a call: the delivered values (to a consumer that accepts them) and how it ends. *)
Definition recorded {S B} (s : S) (p : call S B) : list B * res S :=
  let '(l, s', r) := perform keep [] s p in (l, match r with Ok _ => Ok s' | Throw e => Throw e | UB => UB end).

(** How a grain would be treated next: its own object, or the one that would be created for it. *)
Definition view {K S} (keqb : K -> K -> bool) (create : option (res S)) (m : list (K * S)) (k : K) : option (res S) :=
  match k_find keqb m k with Some s => Some (Ok s) | None => create end.

(** The last value among rows, or [d]. *)
Fixpoint last_value {T} (d : option T) (us : list (use (option T))) : option T :=
  match us with
  | [] => d
  | Row (Some v) :: r => last_value (Some v) r
  | _ :: r => last_value d r
  end.
