(** Specification for C87: what it means that two transformers do the same. *)
From Verif Require Import Base M_Archive M_Codec M_Encoders M_Pipeline M_CompareTr.

(** Two calls that deliver the same and end the same way. *)
Definition answer_alike {X X' O} (R : X -> X' -> Prop) (r : list O * res X) (r' : list O * res X') : Prop :=
  fst r = fst r' /\ match snd r, snd r' with Ok x, Ok x' => R x x' | Throw e, Throw e' => e = e' | UB, UB => True | _, _ => False end.
(** Whatever calls are made, in whatever order, both answer alike. *)
Definition same_behaviour {A B} (t t' : transformer A B) : Prop :=
  exists R, R (t_cur t) (t_cur t') /\
    forall x x', R x x' -> (forall a, answer_alike R (t_exec t x a) (t_exec t' x' a)) /\ answer_alike R (t_flush t x) (t_flush t' x').
(** Something holds of each class of a pipeline. *)
Fixpoint each_class (P : forall A B, class A B -> Prop) {A B} (l : line A B) {struct l} : Prop :=
  match l with EndOther => True | EndTr c => P _ _ c | ThenOther l => each_class P l | ThenTr c l => P _ _ c /\ each_class P l end.
(** Objects that compare equal do the same; [==] is an equivalence relation. *)
Definition eq_sound A B (c : class A B) : Prop := forall v w, c_eq c v w = true -> same_behaviour (c_make c v) (c_make c w).
Definition equivalence {X} (eqb : X -> X -> bool) : Prop :=
  (forall v, eqb v v = true) /\ (forall v w, eqb v w = eqb w v) /\ (forall u v w, eqb u v = true -> eqb v w = true -> eqb u w = true).
Definition eq_equivalence A B (c : class A B) : Prop := equivalence (c_eq c).
(** The value that a sparse vector has at an index, if it has one. *)
Definition value_at {V} (s : sparse V) (i : Z) : option V := option_map fst (find (fun p => snd p =? i) (sp_values s)).
(** The members of encoders, as C86 and C87 write them: labels (keys of the type's values, [val]) with their numbers, and whether missing values are allowed. *)
Definition table_of (l : list (val * Z)) : val := VMap (map (fun p => (fst p, VInt (snd p))) l).
Definition members_of (e : encoder) : val := VPair (table_of (e_labels e)) (VBool (e_missing e)).
(** The transformers of two pipelines are equal one by one. *)
Fixpoint one_by_one {A B} (l : line A B) {struct l} : members l -> members l -> Prop :=
  match l return members l -> members l -> Prop with
  | EndOther => fun _ _ => True
  | EndTr c => fun v w => c_eq c v w = true
  | ThenOther l => one_by_one l
  | ThenTr c l => fun v w => c_eq c (fst v) (fst w) = true /\ one_by_one l (snd v) (snd w)
  end.
