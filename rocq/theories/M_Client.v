(** The client programs of the C interface that the repository ships: the generated tests
    (src/SharedLibrary/IntegrationTests/GeneratedCode/SharedLibraryTests_MeanImputerFeaturizer.h:28-122; every generated file repeats this
    program for its featurizer).  A program is what it does next, given the answer to its last call. *)
From Verif Require Import Base M_Estimator M_Pipeline M_CApi.
Open Scope Z_scope.

Section Client.
  Context {Arg Val : Type}.
  Notation call := (@call Arg).
  Notation answer := (@answer Val).
  (** [Ends r]: it has come to its end with [r]; [Fails x]: a REQUIRE does not hold because a call was answered [x]; [Tired]: the bound on
      the rounds of its loop is reached, which the program itself does not have. *)
  Inductive client (R : Type) :=
  | Ends (r : R) | Calls (c : call) (k : cres answer -> client R) | Fails (x : cres answer) | Tired.
  Arguments Ends {R}. Arguments Calls {R}. Arguments Fails {R}. Arguments Tired {R}.

  (** REQUIRE(f(...)); REQUIRE(pErrorInfo == nullptr). *)
  Definition demand {R} (c : call) (k : answer -> client R) : client R :=
    Calls c (fun x => match x with CTrue a => k a | _ => Fails x end).
  Section Program.
    Context {R : Type}.
    (** 44-76; [iter]: what is left of [rows].  The loop reads *iter unguarded. *)
    Fixpoint train_rows (fuel : nat) (h : Z) (rows iter : list Arg) (k : client R) {struct fuel} : client R :=
      match fuel with
      | O => Tired
      | S n =>
          demand (GetState h true) (fun a =>
            match a with
            | ACode s =>
                if s =? 2 then
                  match iter with
                  | [] => Fails CUB
                  | x :: rest =>
                      demand (Fit h x true) (fun b =>
                        match b with
                        | ACode f =>
                            if f =? 3 then train_rows n h rows rows k
                            else match rest with
                                 | [] => demand (OnDataCompleted h) (fun _ => train_rows n h rows rows k)
                                 | _ => train_rows n h rows rest k
                                 end
                        | _ => Fails (CTrue b)
                        end)
                  end
                else k
            | _ => Fails (CTrue a)
            end)
      end.
    (** 35-96: create, train, complete, ask for the transformer, destroy the estimator. *)
    Definition trainer (fuel : nat) (rows : list Arg) (k : Z -> client R) : client R :=
      demand (CreateEstimator true) (fun a =>
        match a with
        | AHandle h =>
            let completing := demand (CompleteTraining h) (fun _ =>
              demand (IsTrainingComplete h true) (fun f =>
                match f with
                | AFlag true =>
                    demand (CreateTransformer h true) (fun t =>
                      match t with AHandle ht => demand (DestroyEstimator h) (fun _ => k ht) | _ => Fails (CTrue t) end)
                | _ => Fails (CTrue f)
                end)) in
            match rows with [] => completing | _ => train_rows fuel h rows rows completing end
        | _ => Fails (CTrue a)
        end).
    (** 98-113 *)
    Fixpoint transform_rows (h : Z) (xs : list Arg) (k : list Val -> client R) {struct xs} : client R :=
      match xs with
      | [] => k []
      | x :: rest => demand (Transform h x true) (fun a =>
                       match a with AValue v => transform_rows h rest (fun vs => k (v :: vs)) | _ => Fails (CTrue a) end)
      end.
  End Program.
  (** The whole program; it ends with the results that are handed to [verify_func]. *)
  Definition tester (fuel : nat) (rows xs : list Arg) : client (list Val) :=
    trainer fuel rows (fun h => transform_rows h xs (fun vs => demand (DestroyTransformer h) (fun _ => Ends vs))).
  (** Not in the tests: a program that trains and saves, and another one, in another process perhaps, that loads what was saved and
      transforms (the use that the functions CreateTransformerSaveData and CreateTransformerFromSavedData are for). *)
  Definition saver (fuel : nat) (rows : list Arg) : client (Z * Z) :=
    trainer fuel rows (fun h => demand (SaveTransformer h true) (fun a =>
      match a with ABlock p n => demand (DestroyTransformer h) (fun _ => Ends (p, n)) | _ => Fails (CTrue a) end)).
  Definition loader (bytes : list Z) (xs : list Arg) : client (list Val) :=
    demand (LoadTransformer (Some bytes) true) (fun a =>
      match a with
      | AHandle h => transform_rows h xs (fun vs => demand (DestroyTransformer h) (fun _ => Ends vs))
      | _ => Fails (CTrue a)
      end).
End Client.
Arguments Ends {Arg Val R}. Arguments Calls {Arg Val R}. Arguments Fails {Arg Val R}. Arguments Tired {Arg Val R}.

(** The transformer of a pipeline of one: the single-result execute of PipelineExecutionEstimatorImpl.h:59-86 and Featurizer.h:580-610 (the
    chain of Components/Details/PipelineExecutionEstimatorImpl_details.h:845-911 has one element). *)
Definition exec_single {Tr In Val : Type} (exec : Tr -> In -> Tr * res Val) (ts : list Tr) (v : In) : list Tr * res Val :=
  match ts with [t] => let (t', r) := exec t v in ([t'], r) | _ => (ts, UB) end.
(** A transformer object (M_Pipeline) that is asked for one result. *)
Definition exec_object {A B : Type} (t : transformer A B) (v : A) : transformer A B * res B :=
  let (o, r) := t_exec t (t_cur t) v in
  match r with
  | Ok s => (mkTr (t_state t) s (t_exec t) (t_flush t), match o with [b] => Ok b | _ => Throw RuntimeError end)
  | Throw e => (t, Throw e)
  | UB => (t, UB)
  end.
