(** Specification vocabulary for keyed data (C45-C49). *)
From Verif Require Import Base M_Pipeline.

(** The values of one key, in order. *)
Definition of_key {K A} (keqb : K -> K -> bool) (k : K) (l : list (K * A)) : list A := map snd (filter (fun x => keqb (fst x) k) l).
(** The rows of one key, with the key. *)
Definition only {K A} (keqb : K -> K -> bool) (k : K) (l : list (K * A)) : list (K * A) := filter (fun x => keqb (fst x) k) l.
(** Failing in the same way. *)
Definition same_failure {X Y} (r : res X) (q : res Y) : Prop :=
  match r, q with Throw e, Throw e' => e = e' | UB, UB => True | _, _ => False end.
(** [klt] is a strict total order and [keqb] equality. *)
Definition key_order {K} (keqb klt : K -> K -> bool) : Prop :=
  (forall x y, keqb x y = true <-> x = y) /\ (forall x, klt x x = false) /\
  (forall x y z, klt x y = true -> klt y z = true -> klt x z = true) /\ (forall x y, klt x y = false -> klt y x = false -> x = y).
(** A machine for one key alone, on the values of that key. *)
Definition alone {S A B} (step : option S -> A -> list B * res S) (s : option S) (l : list A) : list B * res (option S) :=
  feed (fun s a => let (o, r) := step s a in (o, do s' <- r; Ok (Some s'))) s l.
