(** Model of src/Featurizers/Components/FilterFeaturizerImpl.h and Details/FilterTraits.h.  Tuples are lists of values of one type
    [V] (the C++ element types are erased); an inner output that is not a tuple is a one-element list (FilterTraits.h:203-212). *)
From Verif Require Import Base M_Archive M_Estimator M_Pipeline.

Section Filter.
  Context {V : Type}.
  Variable idx : list nat.               (* FilterInputTupleIndexVs...; below the tuple size (FilterTraits.h:180, std::get) *)
  Variable d : V.                        (* never used when the indexes are in range *)
  (** FilterTraits.h:155-183. *)
  Definition to_filtered (x : list V) : list V := map (fun i => nth i x d) idx.
  (** FilterTraits.h:190-212: tuple_cat. *)
  Definition to_transformed (x o : list V) : list V := x ++ o.
  (** FilterFeaturizerImpl.h:86-93 and 95-107. *)
  Definition filter_tr (t : transformer (list V) (list V)) : transformer (list V) (list V) :=
    mkTr (t_state t) (t_cur t)
      (fun s x => let (o, r) := t_exec t s (to_filtered x) in (map (to_transformed x) o, r))
      (fun s => match t_flush t s with
                | ([], r) => ([], r)
                | (_ :: _, _) => ([], Throw RuntimeError)
                end).
  (** 396-398 and 410-413: the bytes are the inner transformer's. *)
  Definition filter_save {T} (save : T -> list Z) (t : T) : list Z := save t.
  Definition filter_load {T} (load : parser T) : parser T := load.

  (** The estimator: 455-493 and 314-316.  Its state is the inner estimator object. *)
  Section Estimator.
    Context {S Tr : Type}.
    Variable I : impl S (list V) Tr.
    Fixpoint filter_fit_items (e : est S) (xs : list (list V)) : est S * res fit_result :=
      match xs with
      | [] => (e, Ok FitContinue)
      | x :: r => match fit I e (Some [to_filtered x]) with
                  | (e', Ok FitContinue) => filter_fit_items e' r
                  | (e', q) => (e', q)
                  end
      end.
    Definition filter_impl : impl (est S) (list V) Tr :=
      mkImpl
        (fun e => let (e', r) := begin_training I e in (e', do _ <- r; Ok (match e_state e' with Training => true | _ => false end)))
        filter_fit_items
        (fun e => (e, Ok true))
        (fun e => let (e', r) := complete_training I e in (e', r))
        (fun e => let (e', r) := create_transformer I e in (e', do t <- r; Ok (Some t))).
  End Estimator.
End Filter.
