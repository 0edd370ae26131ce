(** What a chain of estimators with shared annotations is meant to do (C80): one after the other, each on all of the data. *)
From Verif Require Import Base M_Estimator S_Stats M_Featurizer.

Section Spec.
  Context {V Ann Tr : Type}.
  Variable apply : Tr -> V -> list V.
  Notation store := (ann_maps Ann).
  (** What an estimator learns from the data: begin, every item in order, complete. *)
  Definition taught {P} (pol : spolicy V Ann P) (mx : nat) (a : store) (bs : list (list V)) : res Ann :=
    do s <- sp_begin pol a (sp_init pol);
    do p <- (if snd s then foldM (sp_fit pol) (fst s) (items mx bs) else Ok (fst s));
    sp_complete pol a p.
  Definition present (is_t : Ann -> bool) (a : store) (col : nat) (nm : name) : bool :=
    match get_annotation is_t a col nm with Ok (Some _) => true | _ => false end.
  (** The data behind a transformer; batches of which nothing is left are not handed on. *)
  Definition behind (t : Tr) (bs : list (list V)) : list (list V) :=
    filter (fun b => match b with [] => false | _ => true end) (map (flat_map (apply t)) bs).
  Fixpoint learnt (col : nat) (steps : list (fstep V Ann Tr)) (a : store) (bs : list (list V)) : res (store * list Tr) :=
    match steps with
    | [] => Ok (a, [])
    | Note required nm is_t mx pol :: r =>
        if required && present is_t a col nm then learnt col r a bs
        else do n <- (if required then taught pol mx a bs else sp_complete pol a (sp_init pol));
             do a' <- add_annotation a (Some n) col nm;
             learnt col r a' bs
    | Make mk :: r => do t <- mk a; do p <- learnt col r a (behind t bs); Ok (fst p, t :: snd p)
    end.
  (** A chain the library can be asked to build: it ends in an estimator that makes a transformer, names are not empty, and every
      training estimator may take at least one item. *)
  Definition sound_step (f : fstep V Ann Tr) : Prop :=
    match f with Note _ nm _ mx _ => nm <> [] /\ (1 <= mx)%nat | Make _ => True end.
  Definition sound_chain (steps : list (fstep V Ann Tr)) : Prop :=
    Forall sound_step steps /\ exists init mk, steps = init ++ [Make mk].
End Spec.

(** Training ends, however large the bound on the rounds of the loop, with this result. *)
Definition trains_to {V Ann Tr} (apply : Tr -> V -> list V) (col : nat) (steps : list (fstep V Ann Tr)) (a : ann_maps Ann) (bs : list (list V))
  (r : res (ann_maps Ann * list Tr)) : Prop :=
  exists n, forall fuel, (n <= fuel)%nat -> featurize apply fuel col steps a bs = Some r.
(** A column without annotations, as every column is for a new featurizer. *)
Definition bare {Ann} (a : ann_maps Ann) (col : nat) : Prop := nth_error a col = Some [].
(** Only the column has changed. *)
Definition others_kept {Ann} (col : nat) (a a' : ann_maps Ann) : Prop :=
  length a' = length a /\ forall c, c <> col -> nth_error a' c = nth_error a c.
(** What the featurizer is trained to: one transformer, and annotations in no other column. *)
Definition trains_one {V Ann Tr} (col : nat) (steps : list (fstep V Ann Tr)) (a : ann_maps Ann) (bs : list (list V)) (t : Tr) : Prop :=
  exists a', others_kept col a a' /\ forall apply, trains_to apply col steps a bs (Ok (a', [t])).
Definition trains_throwing {V Ann Tr} (col : nat) (steps : list (fstep V Ann Tr)) (a : ann_maps Ann) (bs : list (list V)) (e : exn) : Prop :=
  forall apply, trains_to apply col steps a bs (Throw e).
