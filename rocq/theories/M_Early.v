(** A client that does not wait for the end of the training: it feeds the rows it has while the estimator is Training, then completes the training and
    asks for the transformer, without [on_data_completed].  The functions of the C interface allow it in this order (SharedLibrary_*.cpp: _Fit,
    _CompleteTraining, _CreateTransformerFromEstimator); Featurizer.h:823-844 accepts [complete_training] while Training. *)
From Verif Require Import Base M_Estimator M_Pipeline M_Featurizer.

Section Feed.
  Context {S V Tr : Type}.
  Variable I : impl S V Tr.
  Fixpoint feed_while (e : est S) (bs : list (list V)) {struct bs} : res (est S) :=
    match bs with
    | [] => Ok e
    | b :: r => match e_state e with Training => do p <- ok1 (fit I e (Some b)); feed_while (fst p) r | _ => Ok e end
    end.
End Feed.
Section Early.
  Context {V Ann Tr : Type}.
  Variable apply : Tr -> V -> list V.
  Definition finish_now (e : est (ann_maps Ann * list (selem V Ann Tr))) : res (ann_maps Ann * list Tr) :=
    do p <- ok1 (complete_training (featurizer_impl apply) e);
    let (e', r) := create_transformer (featurizer_impl apply) (fst p) in do t <- r; Ok (fst (e_impl e'), t).
  Definition cut_short (col : nat) (steps : list (fstep V Ann Tr)) (a : ann_maps Ann) (bs : list (list V)) : res (ann_maps Ann * list Tr) :=
    do p <- ok1 (begin_training (featurizer_impl apply) (est_new (a, map (fresh col) steps)));
    do e <- feed_while (featurizer_impl apply) (fst p) bs;
    finish_now e.
End Early.
