(** Specification vocabulary for the imputers (C35-C37). *)
From Verif Require Import Base S_Stats.

(** The value that stands at position [i] after filling forward: the last non-null input up to and including [i], or the
    default. *)
Definition filled_forward {T} (default : option T) (l : list (option T)) (i : nat) : option T :=
  match rev (somes (firstn (S i) l)) with v :: _ => Some v | [] => default end.
(** ... filling backward: the first non-null input from [i] on, or the default. *)
Definition filled_backward {T} (default : option T) (l : list (option T)) (i : nat) : option T :=
  match somes (skipn i l) with v :: _ => Some v | [] => default end.
(** [out] has one value per input, at each position the given one. *)
Definition pointwise {A B} (out : list B) (l : list A) (f : nat -> option B) : Prop :=
  length out = length l /\ forall i, (i < length l)%nat -> nth_error out i = f i.

(** Number of nulls before the first value, and the longest run of consecutive nulls. *)
Fixpoint null_run {T} (l : list (option T)) : nat := match l with None :: r => S (null_run r) | _ => O end.
Fixpoint longest_null_run {T} (l : list (option T)) : nat :=
  match l with [] => O | _ :: r => Nat.max (null_run l) (longest_null_run r) end.

(** A null replaced, anything else kept. *)
Definition replace_null {T} (v : T) (x : option T) : T := match x with None => v | Some y => y end.
Definition oeqb {T} (eqb : T -> T -> bool) (a b : option T) : bool :=
  match a, b with Some x, Some y => eqb x y | None, None => true | _, _ => false end.
(** operator== of a floating point type whose NaN is None. *)
Definition feqb {T} (eqb : T -> T -> bool) (a b : option T) : bool := match a, b with Some x, Some y => eqb x y | _, _ => false end.
