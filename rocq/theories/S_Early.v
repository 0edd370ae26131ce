(** What a featurizer makes of rows that are handed over once (C89). *)
From Verif Require Import Base M_Estimator M_Featurizer M_Early S_Featurizer.

Section Spec.
  Context {V Ann Tr : Type}.
  Notation store := (ann_maps Ann).
  (** The first estimator that wants rows gets them all; the ones behind it get none. *)
  Fixpoint one_pass (col : nat) (steps : list (fstep V Ann Tr)) (a : store) (xs : list V) : res (store * list Tr) :=
    match steps with
    | [] => Ok (a, [])
    | Note required nm is_t mx pol :: r =>
        if required && present is_t a col nm then one_pass col r a xs
        else do s <- (if required then sp_begin pol a (sp_init pol) else Ok (sp_init pol, false));
             do p <- (if snd s then foldM (sp_fit pol) (fst s) xs else Ok (fst s));
             do n <- sp_complete pol a p;
             do a' <- add_annotation a (Some n) col nm;
             one_pass col r a' (if snd s then [] else xs)
    | Make mk :: _ => do t <- mk a; Ok (a, [t])
    end.
  (** A featurizer: estimators that learn, then the one that makes the transformer; none of the limits on the number of rows is reached. *)
  Definition room (xs : list V) (f : fstep V Ann Tr) : Prop :=
    match f with Note required nm _ mx _ => nm <> [] /\ (1 <= mx)%nat /\ (required = true -> (length xs < mx)%nat) | Make _ => False end.
  Definition one_maker (xs : list V) (steps : list (fstep V Ann Tr)) : Prop := exists notes mk, steps = notes ++ [Make mk] /\ Forall (room xs) notes.
  (** The estimators that no longer want rows once what comes before them is known. *)
  Definition wants_none (f : fstep V Ann Tr) : Prop :=
    match f with Note required _ _ _ pol => required = true -> forall a, exists p, sp_begin pol a (sp_init pol) = Ok (p, false) | Make _ => True end.
  Definition single_pass (steps : list (fstep V Ann Tr)) : Prop := exists f rest, steps = f :: rest /\ Forall wants_none rest.
End Spec.
(** Completing the training at the end of the rows, and training to the end, end in the same: the same transformer, or the same exception. *)
Definition same_early {V Ann Tr} (apply : Tr -> V -> list V) (col : nat) (steps : list (fstep V Ann Tr)) (a : ann_maps Ann) (bs : list (list V)) : Prop :=
  forall r, trains_to apply col steps a bs r <-> cut_short apply col steps a bs = r.
