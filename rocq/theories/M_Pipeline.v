(** Model of src/Featurizers/Components/Details/PipelineExecutionEstimatorImpl_details.h and of
    src/Featurizers/Components/PipelineExecutionEstimatorImpl.h. *)
From Verif Require Import Base M_Archive M_Estimator.

(** ** Inference.
    A transformer object: its state and what [execute] and [flush] do.  A call hands values to its callback, in order, and
    then returns with a new state or throws; values delivered before an exception stay delivered. *)
Record transformer (A B : Type) := mkTr {
  t_state : Type;
  t_cur : t_state;
  t_exec : t_state -> A -> list B * res t_state;
  t_flush : t_state -> list B * res t_state
}.
Arguments mkTr {A B}. Arguments t_state {A B}. Arguments t_cur {A B}. Arguments t_exec {A B}. Arguments t_flush {A B}.

(** [TransformerChainElement]: the four specializations (797-839, 845-911, 917-967, 973-1059). *)
Inductive chain : Type -> Type -> Type :=
| TerminalOther {A} : chain A A                                  (* last, not a transformer *)
| TerminalTr {A B} (t : transformer A B) : chain A B             (* last *)
| InnerOther {A B} (c : chain A B) : chain A B
| InnerTr {A B C} (t : transformer A B) (c : chain B C) : chain A C.

(** Feed a list of values one after the other, stopping at the first exception. *)
Section Feed.
  Context {X A B : Type}.
  Variable step : X -> A -> list B * res X.
  Fixpoint feed (x : X) (l : list A) : list B * res X :=
    match l with
    | [] => ([], Ok x)
    | a :: r => match step x a with
                | (o, Ok x') => let (o', rx') := feed x' r in (o ++ o', rx')
                | (o, rx) => (o, rx)
                end
    end.
End Feed.

(** What happens when the callback given to an upstream call is the downstream element: the values go through [step] as
    they are delivered; if that throws, the exception leaves through the upstream call. *)
Definition through {X A B U} (step : X -> A -> list B * res X) (x : X) (up : list A * res U) : list B * res (U * X) :=
  let (o, rx) := feed step x (fst up) in
  (o, do x' <- rx; do u <- snd up; Ok (u, x')).

(** The chain as one transformer object (PipelineExecutionTransformer): its state is the states of its elements. *)
Fixpoint compile {A B} (c : chain A B) : transformer A B :=
  match c in chain A B return transformer A B with
  | TerminalOther => mkTr unit tt (fun s a => ([a], Ok s)) (fun s => ([], Ok s))        (* 831-838 *)
  | TerminalTr t => t                                                                   (* 887-895 *)
  | InnerOther c => compile c                                                           (* 958-966 *)
  | InnerTr t c =>
      let n := compile c in
      mkTr (t_state t * t_state n) (t_cur t, t_cur n)
        (fun s a => through (t_exec n) (snd s) (t_exec t (fst s) a))                    (* 1020-1030 *)
        (fun s =>                                                                       (* 1032-1043 *)
           match through (t_exec n) (snd s) (t_flush t (fst s)) with
           | (o, Ok (u, x)) => let (o', rx) := t_flush n x in (o ++ o', do x' <- rx; Ok (u, x'))
           | (o, rx) => (o, rx)
           end)
  end.

(** Using a transformer: execute on every input, then flush (the pattern of TestHelpers.h:82-101 [Predict]). *)
Definition run_exec {A B} (t : transformer A B) (s : t_state t) (l : list A) : list B * res (t_state t) := feed (t_exec t) s l.
Definition run_all {A B} (t : transformer A B) (s : t_state t) (l : list A) : list B * res (t_state t) :=
  match run_exec t s l with
  | (o, Ok s') => let (o', r) := t_flush t s' in (o ++ o', r)
  | (o, r) => (o, r)
  end.
Definition delivered {A B} (t : transformer A B) (l : list A) : list B * res unit :=
  let (o, r) := run_all t (t_cur t) l in (o, rmap (fun _ => tt) r).

(** PipelineExecutionEstimatorImpl.h:59-81: the single-result convenience [execute]. *)
Definition execute_one {A B} (t : transformer A B) (s : t_state t) (a : A) : res (B * t_state t) :=
  let (o, r) := t_exec t s a in
  do s' <- r; match o with [b] => Ok (b, s') | _ => Throw RuntimeError end.

(** ** Saving and loading: 1015-1018 and 1005-1008: the rest of the chain first, then this element.
    One codec per transformer stage; estimators that are not transformers contribute nothing. *)
Record codec := mkCodec { k_type : Type; k_save : k_type -> list Z; k_load : parser k_type }.
Fixpoint params (cs : list codec) : Type := match cs with [] => unit | c :: r => k_type c * params r end.
Fixpoint p_save (cs : list codec) : params cs -> list Z :=
  match cs with
  | [] => fun _ => []
  | c :: r => fun p => p_save r (snd p) ++ k_save c (fst p)
  end.
Fixpoint p_load (cs : list codec) : parser (params cs) :=
  match cs with
  | [] => fun bs => Ok (tt, bs)
  | c :: r => fun bs => do p <- p_load r bs; do q <- k_load c (snd p); Ok ((fst q, fst p), snd q)
  end.

(** ** Training.  Values of all stages are drawn from one type [V] (the C++ types are erased); an exception ends the
    training, so the objects left behind by one are not modelled. *)
Section Training.
  Context {V : Type}.
  Record pstage := mkStage {
    ps_S : Type; ps_T : Type;
    ps_impl : impl ps_S V ps_T;
    ps_is_tr : bool;                               (* IsTransformerEstimator *)
    ps_exec : ps_T -> V -> list V * res ps_T;      (* the created transformer's execute and flush *)
    ps_flush : ps_T -> list V * res ps_T
  }.
  (** [EstimatorChainElementBase::_estimator] and [EstimatorChainElement_TransformerMixin::_pTransformer]. *)
  Record elem := mkElem { el_stage : pstage; el_est : est (ps_S el_stage); el_tr : option (ps_T el_stage) }.
  Definition el_state (e : elem) : tstate := e_state (el_est e).
  Definition el_new (s : pstage) (x : ps_S s) : elem := mkElem s (est_new x) None.
  Definition with_est (e : elem) (x : est (ps_S (el_stage e))) : elem := mkElem (el_stage e) x (el_tr e).

  Definition lift1 {A} (e : elem) (p : est (ps_S (el_stage e)) * res A) : res (elem * A) :=
    do a <- snd p; Ok (with_est e (fst p), a).
  Definition el_begin (e : elem) : res elem := do p <- lift1 e (begin_training (ps_impl (el_stage e)) (el_est e)); Ok (fst p).
  Definition el_fit (e : elem) (xs : list V) : res (elem * fit_result) := lift1 e (fit (ps_impl (el_stage e)) (el_est e) (Some xs)).
  Definition el_on_data (e : elem) : res elem := do p <- lift1 e (on_data_completed (ps_impl (el_stage e)) (el_est e)); Ok (fst p).
  (** [estimator.complete_training()] followed by [create_transformer_if_necessary]: 210-216, 333-337, 530-535, 740-745. *)
  Definition el_complete (e : elem) : res elem :=
    do p <- lift1 e (complete_training (ps_impl (el_stage e)) (el_est e));
    let e1 := fst p in
    if ps_is_tr (el_stage e1) && negb (e_created (el_est e1)) then
      let (x, r) := create_transformer (ps_impl (el_stage e1)) (el_est e1) in
      do t <- r; Ok (mkElem (el_stage e1) x (Some t))
    else Ok e1.

  (** The stage's transformer applied to values, results collected: 710-732, 747-760. *)
  Definition el_transform (e : elem) (xs : list V) : res (elem * list V) :=
    if ps_is_tr (el_stage e) then
      match el_tr e with
      | None => UB
      | Some t => let (o, r) := feed (ps_exec (el_stage e)) t xs in
                  do t' <- r; Ok (mkElem (el_stage e) (el_est e) (Some t'), o)
      end
    else Ok (e, xs).
  Definition el_flush (e : elem) : res (elem * list V) :=
    if ps_is_tr (el_stage e) then
      match el_tr e with
      | None => UB
      | Some t => let (o, r) := ps_flush (el_stage e) t in
                  do t' <- r; Ok (mkElem (el_stage e) (el_est e) (Some t'), o)
      end
    else Ok (e, []).

  (** 218-223, 315-320: only the last estimator is asked. *)
  Fixpoint all_finished (c : list elem) : bool :=
    match c with
    | [] => true
    | [e] => match el_state e with Finished => true | _ => false end
    | _ :: r => all_finished r
    end.
  Definition is_training (e : elem) : bool := match el_state e with Training => true | _ => false end.
  Definition is_pending (e : elem) : bool := match el_state e with Pending => true | _ => false end.
  Definition is_completed (e : elem) : bool := match el_state e with Completed => true | _ => false end.

  (** 168-183 and 248-263 with 328-340 inlined. *)
  Fixpoint begin_chain (c : list elem) : res (list elem * bool) :=
    match c with
    | [] => UB
    | [e] => do e1 <- el_begin e; Ok ([e1], is_training e1)
    | e :: r =>
        if is_pending e then
          do e1 <- el_begin e;
          do c1 <- (if is_training e1 then Ok (e1 :: r)
                    else do e2 <- el_complete e1; do p <- begin_chain r; Ok (e2 :: fst p));
          Ok (c1, negb (all_finished c1))
        else do p <- begin_chain r; Ok (e :: fst p, snd p)
    end.
  (** 328-340 [complete_chained_estimator]. *)
  Definition complete_chained (e : elem) (r : list elem) : res (list elem) :=
    do e1 <- el_complete e; do p <- begin_chain r; Ok (e1 :: fst p).

  (** 185-191, 265-282, 612-615, 710-738. *)
  Fixpoint fit_chain (c : list elem) (xs : list V) : res (list elem * fit_result) :=
    match c with
    | [] => UB
    | [e] => do p <- el_fit e xs; Ok ([fst p], snd p)
    | e :: r =>
        if is_training e then
          do p <- el_fit e xs;
          match snd p with
          | FitContinue => Ok (fst p :: r, FitContinue)
          | _ => do c1 <- complete_chained (fst p) r; Ok (c1, if all_finished c1 then FitComplete else FitReset)
          end
        else
          do p <- el_transform e xs;
          match snd p with
          | [] => Ok (fst p :: r, FitContinue)
          | ys => do q <- fit_chain r ys; Ok (fst p :: fst q, snd q)
          end
    end.
  (** 193-208, 284-300, 747-764; note that the result of [fit] on flushed values is dropped.  [n] is the length of the
      chain (the template recursion over N). *)
  Fixpoint on_data_n (n : nat) (c : list elem) : res (list elem * bool) :=
    match n, c with
    | O, _ => UB
    | _, [] => UB
    | _, [e] => do e1 <- el_on_data e; Ok ([e1], negb (is_training e1))
    | S n', e :: r =>
        if is_training e then
          do e1 <- el_on_data e;
          do c1 <- (if is_training e1 then Ok (e1 :: r) else complete_chained e1 r);
          Ok (c1, all_finished c1)
        else
          do p <- el_flush e;
          do r1 <- match snd p with [] => Ok r | ys => do q <- fit_chain r ys; Ok (fst q) end;
          do q <- on_data_n n' r1;
          Ok (fst p :: fst q, snd q)
    end.
  Definition on_data_chain (c : list elem) : res (list elem * bool) := on_data_n (length c) c.
  (** 210-216, 302-313. *)
  Fixpoint complete_n (n : nat) (c : list elem) : res (list elem) :=
    match n, c with
    | O, _ => UB
    | _, [] => UB
    | _, [e] => do e1 <- el_complete e; Ok [e1]
    | S n', e :: r =>
        do c1 <- (if is_completed e then Ok (e :: r) else complete_chained e r);
        match c1 with
        | [] => UB
        | e1 :: r1 => do r' <- complete_n n' r1; Ok (e1 :: r')
        end
    end.
  Definition complete_chain (c : list elem) : res (list elem) := complete_n (length c) c.

  (** PipelineExecutionEstimatorImpl.h:217-230, 291-304: the pipeline as an estimator; creating its transformer takes the
      transformers out of the elements (867-869, 1000-1003). *)
  Definition imp {A B} (s : B) (r : res (B * A)) : B * res A := match r with Ok (s', a) => (s', Ok a) | Throw e => (s, Throw e) | UB => (s, UB) end.
  Definition pipeline_impl : impl (list elem) V (list elem) :=
    mkImpl (fun c => imp c (begin_chain c)) (fun c xs => imp c (fit_chain c xs)) (fun c => imp c (on_data_chain c))
           (fun c => imp c (rmap (fun c' => (c', tt)) (complete_chain c)))
           (fun c => (map (fun e => mkElem (el_stage e) (el_est e) None) c, Ok (Some c))).
End Training.
Arguments pstage : clear implicits. Arguments elem : clear implicits.

(** The training loop of the documentation and of TestHelpers.h:43-75 ([Train]), for any estimator: fit the batches in order,
    start over on Reset, call on_data_completed after the last batch, until the estimator no longer wants data, then
    complete.  [None]: not done within [fuel] steps. *)
Section Train.
  Context {S V Tr : Type}.
  Variable I : impl S V Tr.
  Variable batches : list (list V).
  Definition ok1 {X A} (p : X * res A) : res (X * A) := do a <- snd p; Ok (fst p, a).
  Fixpoint train_loop (fuel : nat) (iter : list (list V)) (e : est S) : option (res (est S)) :=
    match fuel with
    | O => None
    | Datatypes.S n =>
        match e_state e with
        | Training =>
            match iter with
            | [] => Some UB
            | b :: rest =>
                match ok1 (fit I e (Some b)) with
                | Throw x => Some (Throw x)
                | UB => Some UB
                | Ok (e1, FitReset) => train_loop n batches e1
                | Ok (e1, _) =>
                    match rest with
                    | [] => match ok1 (on_data_completed I e1) with
                            | Ok (e2, _) => train_loop n batches e2
                            | Throw x => Some (Throw x)
                            | UB => Some UB
                            end
                    | _ => train_loop n rest e1
                    end
                end
            end
        | _ => Some (Ok e)
        end
    end.
  Definition train (fuel : nat) (e : est S) : option (res (est S)) :=
    match ok1 (begin_training I e) with
    | Throw x => Some (Throw x)
    | UB => Some UB
    | Ok (e1, _) =>
        match train_loop fuel batches e1 with
        | Some (Ok e2) => Some (do p <- ok1 (complete_training I e2); Ok (fst p))
        | r => r
        end
    end.
End Train.
