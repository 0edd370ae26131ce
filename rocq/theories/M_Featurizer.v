(** Pipelines of estimators that share the annotation maps, as the library's own featurizers are
    (LabelEncoderFeaturizer.h:154-174, ModeImputerFeaturizer.h:108-128, StandardScaleWrapperFeaturizer.h:169-185, ...): an earlier
    estimator leaves an annotation in the maps, a later one reads it.  The chain is the one of M_Pipeline
    (Components/Details/PipelineExecutionEstimatorImpl_details.h), with the shared maps handed from call to call. *)
From Verif Require Import Base M_Archive M_Estimator M_Pipeline.

Section Shared.
  Context {V Ann Tr : Type}.
  (** What a created transformer makes of one value: the values it hands to its callback.  Transformers in the middle of a chain
      keep no state and do not throw here (M_Pipeline and C16 have the general ones, without shared annotations). *)
  Variable apply : Tr -> V -> list V.
  Notation store := (ann_maps Ann).

  (** One estimator: the virtual methods, which read and write the shared maps (Featurizer.h:600-701: every estimator of the chain
      is constructed with the same [AnnotationMapsPtr]). *)
  Record sstage := mkSS { ss_S : Type; ss_impl : impl (store * ss_S) V Tr; ss_is_tr : bool }.
  (** [EstimatorChainElementBase::_estimator] and [EstimatorChainElement_TransformerMixin::_pTransformer]. *)
  Record selem := mkSE { se_stage : sstage; se_est : est (ss_S se_stage); se_tr : option Tr }.
  Definition se_state (e : selem) : tstate := e_state (se_est e).
  Definition shared {S} (a : store) (e : est S) : est (store * S) := mkEst (e_state e) (e_created e) (a, e_impl e).
  Definition unshared {S} (e : est (store * S)) : est S := mkEst (e_state e) (e_created e) (snd (e_impl e)).
  (** The outcome of a call: the maps, the element, the value returned; an exception ends the training. *)
  Definition slift {A} (e : selem) (p : est (store * ss_S (se_stage e)) * res A) : res (store * selem * A) :=
    do x <- snd p; Ok (fst (e_impl (fst p)), mkSE (se_stage e) (unshared (fst p)) (se_tr e), x).
  Definition se_begin (a : store) (e : selem) : res (store * selem) :=
    do p <- slift e (begin_training (ss_impl (se_stage e)) (shared a (se_est e))); Ok (fst p).
  Definition se_fit (a : store) (e : selem) (xs : list V) : res (store * selem * fit_result) :=
    slift e (fit (ss_impl (se_stage e)) (shared a (se_est e)) (Some xs)).
  Definition se_on_data (a : store) (e : selem) : res (store * selem) :=
    do p <- slift e (on_data_completed (ss_impl (se_stage e)) (shared a (se_est e))); Ok (fst p).
  (** PipelineExecutionEstimatorImpl_details.h:210-216, 333-337, 530-535, 740-745. *)
  Definition se_complete (a : store) (e : selem) : res (store * selem) :=
    do p <- slift e (complete_training (ss_impl (se_stage e)) (shared a (se_est e)));
    let a1 := fst (fst p) in
    let e1 := snd (fst p) in
    if ss_is_tr (se_stage e1) && negb (e_created (se_est e1)) then
      let (x, r) := create_transformer (ss_impl (se_stage e1)) (shared a1 (se_est e1)) in
      do t <- r; Ok (fst (e_impl x), mkSE (se_stage e1) (unshared x) (Some t))
    else Ok (a1, e1).
  (** 612-615, 710-732. *)
  Definition se_transform (e : selem) (xs : list V) : res (list V) :=
    if ss_is_tr (se_stage e) then match se_tr e with None => UB | Some t => Ok (flat_map (apply t) xs) end else Ok xs.

  (** 218-223, 315-320. *)
  Fixpoint s_all_finished (c : list selem) : bool :=
    match c with
    | [] => true
    | [e] => match se_state e with Finished => true | _ => false end
    | _ :: r => s_all_finished r
    end.
  Definition s_training (e : selem) : bool := match se_state e with Training => true | _ => false end.
  Definition s_pending (e : selem) : bool := match se_state e with Pending => true | _ => false end.
  Definition s_completed (e : selem) : bool := match se_state e with Completed => true | _ => false end.

  (** 168-183 and 248-263 with 328-340 inlined. *)
  Fixpoint s_begin (a : store) (c : list selem) : res (store * list selem * bool) :=
    match c with
    | [] => UB
    | [e] => do p <- se_begin a e; Ok (fst p, [snd p], s_training (snd p))
    | e :: r =>
        if s_pending e then
          do p <- se_begin a e;
          do q <- (if s_training (snd p) then Ok (fst p, snd p :: r)
                   else do x <- se_complete (fst p) (snd p); do y <- s_begin (fst x) r; Ok (fst (fst y), snd x :: snd (fst y)));
          Ok (fst q, snd q, negb (s_all_finished (snd q)))
        else do y <- s_begin a r; Ok (fst (fst y), e :: snd (fst y), snd y)
    end.
  (** 328-340. *)
  Definition s_complete_chained (a : store) (e : selem) (r : list selem) : res (store * list selem) :=
    do x <- se_complete a e; do y <- s_begin (fst x) r; Ok (fst (fst y), snd x :: snd (fst y)).
  (** 185-191, 265-282, 612-615, 710-738. *)
  Fixpoint s_fit (a : store) (c : list selem) (xs : list V) : res (store * list selem * fit_result) :=
    match c with
    | [] => UB
    | [e] => do p <- se_fit a e xs; Ok (fst (fst p), [snd (fst p)], snd p)
    | e :: r =>
        if s_training e then
          do p <- se_fit a e xs;
          match snd p with
          | FitContinue => Ok (fst (fst p), snd (fst p) :: r, FitContinue)
          | _ => do q <- s_complete_chained (fst (fst p)) (snd (fst p)) r;
                 Ok (fst q, snd q, if s_all_finished (snd q) then FitComplete else FitReset)
          end
        else
          do ys <- se_transform e xs;
          match ys with
          | [] => Ok (a, e :: r, FitContinue)
          | _ => do q <- s_fit a r ys; Ok (fst (fst q), e :: snd (fst q), snd q)
          end
    end.
  (** 193-208, 284-300, 747-764; nothing is flushed (see [apply]). *)
  Fixpoint s_on_data (a : store) (c : list selem) : res (store * list selem * bool) :=
    match c with
    | [] => UB
    | [e] => do p <- se_on_data a e; Ok (fst p, [snd p], negb (s_training (snd p)))
    | e :: r =>
        if s_training e then
          do p <- se_on_data a e;
          do q <- (if s_training (snd p) then Ok (fst p, snd p :: r) else s_complete_chained (fst p) (snd p) r);
          Ok (fst q, snd q, s_all_finished (snd q))
        else
          do q <- s_on_data a r; Ok (fst (fst q), e :: snd (fst q), snd q)
    end.
  (** 210-216, 302-313. *)
  Fixpoint s_complete_n (n : nat) (a : store) (c : list selem) : res (store * list selem) :=
    match n, c with
    | O, _ => UB
    | _, [] => UB
    | _, [e] => do p <- se_complete a e; Ok (fst p, [snd p])
    | S n', e :: r =>
        do p <- (if s_completed e then Ok (a, e :: r) else s_complete_chained a e r);
        match snd p with
        | [] => UB
        | e1 :: r1 => do q <- s_complete_n n' (fst p) r1; Ok (fst q, e1 :: snd q)
        end
    end.
  (** PipelineExecutionEstimatorImpl.h:217-230, 291-304; the transformer of the pipeline is made of the transformers of its
      elements, in order (867-869, 1000-1003). *)
  Definition s_imp {A} (s : store * list selem) (r : res (store * list selem * A)) : store * list selem * res A :=
    match r with Ok (s', x) => (s', Ok x) | Throw e => (s, Throw e) | UB => (s, UB) end.
  Definition made (c : list selem) : list Tr := flat_map (fun e => match se_tr e with Some t => [t] | None => [] end) c.
  Definition featurizer_impl : impl (store * list selem) V (list Tr) :=
    mkImpl (fun s => s_imp s (s_begin (fst s) (snd s))) (fun s xs => s_imp s (s_fit (fst s) (snd s) xs))
           (fun s => s_imp s (s_on_data (fst s) (snd s)))
           (fun s => s_imp s (rmap (fun p => (p, tt)) (s_complete_n (length (snd s)) (fst s) (snd s))))
           (fun s => ((fst s, map (fun e => mkSE (se_stage e) (se_est e) None) (snd s)), Ok (Some (made (snd s))))).

  (** ** The estimators of these chains.
      TrainingOnlyEstimatorImpl.h over a policy that may read the maps: in [begin_training] (StandardDeviationEstimator.h:206-220) or in
      [complete_training] (IndexMapEstimator.h:235-250, ModeEstimator.h:140-190). *)
  Record spolicy (P : Type) := mkSP {
    sp_init : P;
    sp_begin : store -> P -> res (P * bool);
    sp_fit : P -> V -> res P;
    sp_complete : store -> P -> res Ann }.
  Arguments mkSP {P}. Arguments sp_init {P}. Arguments sp_begin {P}. Arguments sp_fit {P}. Arguments sp_complete {P}.
  Definition at_store {P} (pol : spolicy P) (a : store) : policy P V Ann :=
    mkPolicy (sp_init pol) (sp_begin pol a) (sp_fit pol) (sp_complete pol a).
  Record own (P : Type) := mkOwn { ow_pol : P; ow_has : bool; ow_remaining : nat }.
  Arguments mkOwn {P}. Arguments ow_pol {P}. Arguments ow_has {P}. Arguments ow_remaining {P}.
  Section Note.
    Context {P : Type}.
    Variables (col : nat) (required : bool) (nm : name) (is_t : Ann -> bool) (pol : spolicy P).
    (** TrainingOnlyEstimatorImpl.h:343-368. *)
    Definition n_begin (s : store * own P) : store * own P * res bool :=
      if negb required then (s, Ok false)
      else match get_annotation is_t (fst s) col nm with
           | Ok (Some _) => ((fst s, mkOwn (ow_pol (snd s)) true (ow_remaining (snd s))), Ok false)
           | Ok None => match sp_begin pol (fst s) (ow_pol (snd s)) with
                        | Ok (p, b) => ((fst s, mkOwn p false (ow_remaining (snd s))), Ok b)
                        | Throw x => ((fst s, mkOwn (ow_pol (snd s)) false (ow_remaining (snd s))), Throw x)
                        | UB => (s, UB)
                        end
           | Throw x => (s, Throw x)
           | UB => (s, UB)
           end.
    (** 370-405. *)
    Definition n_fit (s : store * own P) (xs : list V) : store * own P * res fit_result :=
      let n := Nat.min (ow_remaining (snd s)) (length xs) in
      match fit_items (at_store pol (fst s)) (ow_pol (snd s)) (firstn n xs) with
      | (p, Ok _) => let rem := (ow_remaining (snd s) - n)%nat in
                     ((fst s, mkOwn p (ow_has (snd s)) rem), Ok (if Nat.eqb rem 0 then FitComplete else FitContinue))
      | (p, Throw x) => ((fst s, mkOwn p (ow_has (snd s)) (ow_remaining (snd s))), Throw x)
      | (p, UB) => ((fst s, mkOwn p (ow_has (snd s)) (ow_remaining (snd s))), UB)
      end.
    (** 411-416 with Featurizer.h:640-671. *)
    Definition n_complete (s : store * own P) : store * own P * res unit :=
      if ow_has (snd s) then (s, Ok tt)
      else match sp_complete pol (fst s) (ow_pol (snd s)) with
           | Ok n => match add_annotation (fst s) (Some n) col nm with
                     | Ok a => ((a, snd s), Ok tt)
                     | Throw x => (s, Throw x)
                     | UB => (s, UB)
                     end
           | Throw x => (s, Throw x)
           | UB => (s, UB)
           end.
    Definition note_impl : impl (store * own P) V Tr :=
      mkImpl n_begin n_fit (fun s => (s, Ok true)) n_complete (fun s => (s, Ok None)).
  End Note.
  (** The last estimator of such a featurizer: it wants no data (LabelEncoderFeaturizer.h:320-330, ...) and makes its transformer from
      the annotations (LabelEncoderFeaturizer.h:120-140, ...). *)
  Definition make_impl (mk : store -> res Tr) : impl (store * unit) V Tr :=
    mkImpl (fun s => (s, Ok false)) (fun s _ => (s, Throw RuntimeError)) (fun s => (s, Ok true)) (fun s => (s, Ok tt))
           (fun s => (s, rmap Some (mk (fst s)))).

  (** A chain is written down as a list of these. *)
  Inductive fstep :=
  | Note {P : Type} (required : bool) (nm : name) (is_t : Ann -> bool) (mx : nat) (pol : spolicy P)
  | Make (mk : store -> res Tr).
  Definition fresh (col : nat) (f : fstep) : selem :=
    match f with
    | Note required nm is_t mx pol =>
        mkSE (mkSS (own _) (note_impl col required nm is_t pol) false) (est_new (mkOwn (sp_init pol) false mx)) None
    | Make mk => mkSE (mkSS unit (make_impl mk) true) (est_new tt) None
    end.
  (** Train as in TestHelpers.h:43-75, then ask for the transformer: the maps and the transformers, or the exception.  [None]: not
      done within [fuel] rounds of the loop. *)
  Definition featurize (fuel : nat) (col : nat) (steps : list fstep) (a : store) (bs : list (list V)) : option (res (store * list Tr)) :=
    match train featurizer_impl bs fuel (est_new (a, map (fresh col) steps)) with
    | None => None
    | Some (Ok e) => let (e', r) := create_transformer featurizer_impl e in Some (do t <- r; Ok (fst (e_impl e'), t))
    | Some (Throw x) => Some (Throw x)
    | Some UB => Some UB
    end.
End Shared.
Arguments sstage : clear implicits. Arguments selem : clear implicits. Arguments fstep : clear implicits. Arguments spolicy : clear implicits.
Arguments mkSP {V Ann P}. Arguments sp_init {V Ann P}. Arguments sp_begin {V Ann P}. Arguments sp_fit {V Ann P}. Arguments sp_complete {V Ann P}.
Arguments mkOwn {P}. Arguments ow_pol {P}. Arguments ow_has {P}. Arguments ow_remaining {P}.
