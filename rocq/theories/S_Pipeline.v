(** Specification vocabulary for pipelines (C14-C16). *)
From Verif Require Import Base M_Archive M_Estimator M_Pipeline.

(** What a stage delivers for a complete input sequence: everything [execute] emits, then everything [flush] emits. *)
Definition stage_outputs {A B} (t : transformer A B) (l : list A) : option (list B) :=
  match delivered t l with (o, Ok _) => Some o | _ => None end.
(** Stage after stage, each on the complete output of the one before. *)
Fixpoint staged {A B} (c : chain A B) : list A -> option (list B) :=
  match c in chain A B return list A -> option (list B) with
  | TerminalOther => fun l => Some l
  | TerminalTr t => stage_outputs t
  | InnerOther c => staged c
  | InnerTr t c => fun l => match stage_outputs t l with Some m => staged c m | None => None end
  end.
(** The same without the flush at the end. *)
Definition stage_streamed {A B} (t : transformer A B) (l : list A) : option (list B) :=
  match run_exec t (t_cur t) l with (o, Ok _) => Some o | _ => None end.
Fixpoint streamed {A B} (c : chain A B) : list A -> option (list B) :=
  match c in chain A B return list A -> option (list B) with
  | TerminalOther => fun l => Some l
  | TerminalTr t => stage_streamed t
  | InnerOther c => streamed c
  | InnerTr t c => fun l => match stage_streamed t l with Some m => streamed c m | None => None end
  end.

(** A codec that reads back what it wrote and leaves the rest. *)
Definition round_trips (k : codec) : Prop := forall x rest, k_load k (k_save k x ++ rest) = Ok (x, rest).
(** Bytes of the stages in the order they are written. *)
Fixpoint stage_bytes (cs : list codec) : params cs -> list (list Z) :=
  match cs with
  | [] => fun _ => []
  | c :: r => fun p => k_save c (fst p) :: stage_bytes r (snd p)
  end.

(** ** Training stages one by one. *)
Section Training.
  Context {V : Type}.
  (** Give the batches to one estimator until it reports Complete ([true]) or they are used up ([false]). *)
  Fixpoint give (e : elem V) (bs : list (list V)) : option (elem V * bool) :=
    match bs with
    | [] => Some (e, false)
    | b :: r => match el_fit e b with
                | Ok (e1, FitComplete) => Some (e1, true)
                | Ok (e1, FitContinue) => give e1 r
                | _ => None
                end
    end.
  (** [e] wants data ([Training]) or not ([Finished]); it is given the data as often as it wants, then completed and asked for
      its transformer. *)
  Inductive trained_on (bs : list (list V)) : elem V -> elem V -> Prop :=
  | on_done : forall e e', el_state e = Finished -> el_complete e = Ok e' -> trained_on bs e e'
  | on_early : forall e e1 e', el_state e = Training -> give e bs = Some (e1, true) -> el_state e1 = Finished ->
      el_complete e1 = Ok e' -> trained_on bs e e'
  | on_pass : forall e e1 e2 e', el_state e = Training -> give e bs = Some (e1, false) -> el_on_data e1 = Ok e2 ->
      trained_on bs e2 e' -> trained_on bs e e'.
  Definition trained_alone (bs : list (list V)) (e e' : elem V) : Prop :=
    exists e1, el_begin e = Ok e1 /\ trained_on bs e1 e'.

  (** The trained transformer is a function of its input, without memory: the same object after every call, nothing on flush. *)
  Definition memoryless (e : elem V) : Prop :=
    ps_is_tr (el_stage e) = true ->
    exists t, el_tr e = Some t /\ (forall v, snd (ps_exec (el_stage e) t v) = Ok t) /\ ps_flush (el_stage e) t = ([], Ok t).
  Definition outputs_of (e : elem V) (v : V) : list V :=
    if ps_is_tr (el_stage e) then match el_tr e with Some t => fst (ps_exec (el_stage e) t v) | None => [] end else [v].
  Definition non_empty (l : list V) : bool := match l with [] => false | _ => true end.
  (** The data as transformed by a trained stage, batch by batch. *)
  Definition transformed (e : elem V) (bs : list (list V)) : list (list V) :=
    filter non_empty (map (flat_map (outputs_of e)) bs).

  Inductive stage_by_stage : list (elem V) -> list (list V) -> list (elem V) -> Prop :=
  | sbs_last : forall e e' bs, trained_alone bs e e' -> stage_by_stage [e] bs [e']
  | sbs_cons : forall e e' bs r r', trained_alone bs e e' -> memoryless e' ->
      stage_by_stage r (transformed e' bs) r' -> stage_by_stage (e :: r) bs (e' :: r').
End Training.

(** Stages are trained in order: one that has begun has only completed ones before it. *)
Definition in_order {V} (c : list (elem V)) : Prop :=
  forall a e b, c = a ++ e :: b -> el_state e <> Pending -> Forall (fun x => el_state x = Completed) a.
