(** Exceptions in the middle of a call.  The models in M_Pipeline say what a call delivers and how it ends; here the order of what a call
    does is kept as well, so that the object an exception leaves behind is known, whoever threw it: the transformer itself, or the callback
    it was given (in a pipeline, the next stage).  Models of the [execute_impl] and [flush_impl] of the transformers that keep state
    (ForwardFillImputerFeaturizer.h, BackwardFillImputerFeaturizer.h, Base/RollingWindowTransformerBase.h, LagLeadOperatorFeaturizer.h,
    Base/NormalizeFeaturizer.h, Components/GrainFeaturizerImpl.h), of the wrappers (Components/FilterFeaturizerImpl.h) and of the
    transformer chain (Components/Details/PipelineExecutionEstimatorImpl_details.h). *)
From Verif Require Import Base M_Archive M_Estimator M_Pipeline M_Keyed M_Grain M_Impute M_Window M_Filter.

(** What a call does, in order.  A callback returns nothing, so what follows it does not depend on it. *)
Inductive call (S B : Type) : Type :=
| Return
| Raise (e : exn)
| Undefined
| Emit (b : B) (k : call S B)          (* callback(b); *)
| Assign (s : S) (k : call S B).       (* assignments to the fields, which then are [s] *)
Arguments Return {S B}. Arguments Raise {S B}. Arguments Undefined {S B}. Arguments Emit {S B}. Arguments Assign {S B}.

(** Making a call with a callback: [put] is what the callback does with a value, [C] what it keeps; [Throw]: the callback throws, and the
    exception goes through the call (there is no [catch] in any of these functions). *)
Fixpoint perform {S B C} (put : C -> B -> C * res unit) (c : C) (s : S) (p : call S B) : C * S * res unit :=
  match p with
  | Return => (c, s, Ok tt)
  | Raise e => (c, s, Throw e)
  | Undefined => (c, s, UB)
  | Emit b k => match put c b with
                | (c', Ok _) => perform put c' s k
                | (c', r) => (c', s, r)
                end
  | Assign s' k => perform put c s' k
  end.

Record object (A B : Type) := mkObj {
  o_state : Type;
  o_cur : o_state;
  o_exec : o_state -> A -> call o_state B;
  o_flush : o_state -> call o_state B
}.
Arguments mkObj {A B}. Arguments o_state {A B}. Arguments o_cur {A B}. Arguments o_exec {A B}. Arguments o_flush {A B}.

(** A caller that catches the exceptions and goes on: the outcome of every call. *)
Inductive use (A : Type) := Row (a : A) | Flush.
Arguments Row {A}. Arguments Flush {A}.
Definition use_call {A B} (o : object A B) (s : o_state o) (u : use A) : call (o_state o) B :=
  match u with Row a => o_exec o s a | Flush => o_flush o s end.
Fixpoint session {A B C} (o : object A B) (put : C -> B -> C * res unit) (c : C) (s : o_state o) (us : list (use A))
  : C * o_state o * list (res unit) :=
  match us with
  | [] => (c, s, [])
  | u :: r => let '(c1, s1, q) := perform put c s (use_call o s u) in
              let '(c2, s2, qs) := session o put c1 s1 r in (c2, s2, q :: qs)
  end.

(** One call inside another: [f] is where its state lives, [g] what the callback makes of its values, [k] what comes afterwards. *)
Fixpoint embed {S B T D} (f : S -> T) (g : B -> call T D -> call T D) (s : S) (p : call S B) (k : S -> call T D) : call T D :=
  match p with
  | Return => k s
  | Raise e => Raise e
  | Undefined => Undefined
  | Emit b r => g b (embed f g s r k)
  | Assign s' r => Assign (f s') (embed f g s' r k)
  end.
Fixpoint emits {S B} (l : list B) (k : call S B) : call S B := match l with [] => k | b :: r => Emit b (emits r k) end.
Definition ends {S B A} (r : res A) (k : A -> call S B) : call S B :=
  match r with Ok a => k a | Throw e => Raise e | UB => Undefined end.

(** Transformers without state of their own: per-value ones (encoders, scalers, imputers with a fixed value, string conversion, the
    decorator of FilterDecoratorFeaturizer.h:56-58, ...) and the pivot (ForecastingPivotFeaturizer.h:97-146), whose values
    are handed over as they are found.  [flush_impl] is the empty one of StandardTransformer (Featurizer.h:615-618), InferenceOnlyTransformerImpl
    or InferenceOnlyFeaturizerImpl. *)
Definition stateless_o {A B} (f : A -> list B * res unit) : object A B :=
  mkObj unit tt (fun _ a => let (l, r) := f a in emits l (ends r (fun _ => Return))) (fun _ => Return).

(** ForwardFillImputerFeaturizer.h:88-115: the value is remembered after the callback. *)
Definition ffill_o {T} (default : option T) : object (option T) T :=
  mkObj (option T) default
    (fun last x => match x with
                   | None => match last with None => Raise RuntimeError | Some v => Emit v Return end
                   | Some v => Emit v (Assign (Some v) Return)
                   end)
    (fun _ => Return).

(** BackwardFillImputerFeaturizer.h:87-104: [_numPending] is set to 0 after the last callback. *)
Definition bfill_call {T} (pending : Z) (x : option T) : call Z T :=
  match x with
  | None => Assign (u32 (pending + 1)) Return
  | Some v => emits (repeat v (Z.to_nat (u32 (pending + 1)))) (Assign 0 Return)
  end.
(** 121-126: the loop counts down after each callback. *)
Fixpoint bfill_drain {T} (d : T) (n : nat) : call Z T :=
  match n with
  | O => Return
  | S m => Emit d (Assign (Z.of_nat m) (bfill_drain d m))
  end.
(** 106-128. *)
Definition bfill_o {T} (default : option T) : object (option T) T :=
  mkObj Z 0 bfill_call
    (fun pending =>
       if pending =? 0 then Return
       else match default with None => Raise RuntimeError | Some d => bfill_drain d (Z.to_nat pending) end).

(** RollingWindowTransformerBase.h:83-119: the row is put in the buffer first; 188-192. *)
Definition rolling_o {I O} (calc : list I -> res O) (null : O) (horizon mx mn : nat) (b0 : cbuf I) : object I (list O) :=
  mkObj (cbuf I) b0
    (fun b x => let b' := buf_push b x in
                Assign b' (ends (mapM (rw_cell calc null b' horizon mx mn) (seq 0 horizon)) (fun row => Emit row Return)))
    (fun b => Assign (buf_clear b) Return).

(** LagLeadOperatorFeaturizer.h:323-347 [execute_helper], which leaves the object [t'] when all goes well. *)
Definition lag_pushed {T} (t : lag T) (x : T) : lag T := mkLag (lag_horizon t) (lag_delta t) (lag_offsets t) (buf_push (lag_buf t) x).
Definition lag_call {T} (t : lag T) (x : T) (k : call (lag T) (list (list T))) : call (lag T) (list (list T)) :=
  let t' := lag_pushed t x in
  let b := lag_buf t' in
  Assign t'
    (if negb (buf_full b) then k
     else ends (mapM (fun o => it_take b (Z.to_nat (lag_horizon t)) (fst (buf_range b (Z.to_nat (lag_horizon t)) (Z.to_nat o)))) (lag_offsets t))
               (fun m => Emit m k)).
(** 84-98: the nulls one after the other, then the buffer is emptied and filled anew. *)
Definition lag_reset {T} (null : T) (t : lag T) : lag T :=
  init_buffer null (mkLag (lag_horizon t) (lag_delta t) (lag_offsets t) (buf_clear (lag_buf t))).
Fixpoint lag_drain {T} (null : T) (n : nat) (t : lag T) : call (lag T) (list (list T)) :=
  match n with
  | O => Assign (lag_reset null t) Return
  | S m => lag_call t null (lag_drain null m (lag_pushed t null))
  end.
Definition lag_o {T} (null : T) (t0 : lag T) : object T (list (list T)) :=
  mkObj (lag T) t0 (fun t x => lag_call t x Return)
    (fun t => lag_drain null (if 0 <? lag_max t then Z.to_nat (lag_max t) else O) t).

(** NormalizeFeaturizer.h:293-318: [_row] is counted up just before the callback; [scale norm row] is the row that is delivered. *)
Definition normalize_o {N R D} (scale : N -> R -> D) (norms : list N) : object R D :=
  mkObj nat 0%nat
    (fun i row => match nth_error norms i with
                  | None => Raise RuntimeError
                  | Some n => Assign (S i) (Emit (scale n row) Return)
                  end)
    (fun _ => Return).

(** FilterFeaturizerImpl.h:86-93 and 95-107 (the callback given to the inner [flush] throws). *)
Definition filter_o {V} (idx : list nat) (d : V) (o : object (list V) (list V)) : object (list V) (list V) :=
  mkObj (o_state o) (o_cur o)
    (fun s x => embed (fun s => s) (fun b k => Emit (to_transformed x b) k) s (o_exec o s (to_filtered idx d x)) (fun _ => Return))
    (fun s => embed (fun s => s) (fun _ _ => Raise RuntimeError) s (o_flush o s) (fun _ => Return)).

(** GrainFeaturizerImpl.h:160-192: find, or create and insert, then execute; 195-203: every grain in key order.  The map's entries are the
    grains' objects, of which [o] is the class; [create] is what _createFunc returns. *)
Section Grains.
  Context {K A B : Type}.
  Variables keqb klt : K -> K -> bool.
  Variable o : object A B.
  Variable create : option (res (o_state o)).
  Notation gmap := (list (K * o_state o)).
  Definition grain_run (m : gmap) (k : K) (s : o_state o) (a : A) : call gmap (K * B) :=
    embed (fun s' => k_set keqb klt m k s') (fun b r => Emit (k, b) r) s (o_exec o s a) (fun _ => Return).
  Definition grain_call (m : gmap) (x : K * A) : call gmap (K * B) :=
    let (k, a) := x in
    match k_find keqb m k with
    | Some s => grain_run m k s a
    | None => match create with
              | None => Raise RuntimeError
              | Some r => ends r (fun s => let m' := k_set keqb klt m k s in Assign m' (grain_run m' k s a))
              end
    end.
  Fixpoint grain_drain (before after : gmap) : call gmap (K * B) :=
    match after with
    | [] => Return
    | (k, s) :: r =>
        embed (fun s' => before ++ (k, s') :: r) (fun b q => Emit (k, b) q) s (o_flush o s)
              (fun s' => grain_drain (before ++ [(k, s')]) r)
    end.
  Definition grain_o (m : gmap) : object (K * A) (K * B) := mkObj gmap m grain_call (grain_drain []).
End Grains.

(** PipelineExecutionEstimatorImpl_details.h:1020-1043: the callback of this stage is the next stage's [execute].  [k]: what follows. *)
Section Chain.
  Context {A B D : Type}.
  Variables (o1 : object A B) (o2 : object B D).
  Fixpoint splice (s1 : o_state o1) (s2 : o_state o2) (p : call (o_state o1) B) (k : o_state o1 -> o_state o2 -> call (o_state o1 * o_state o2) D)
    : call (o_state o1 * o_state o2) D :=
    match p with
    | Return => k s1 s2
    | Raise e => Raise e
    | Undefined => Undefined
    | Emit b r => embed (fun s => (s1, s)) (fun d q => Emit d q) s2 (o_exec o2 s2 b) (fun s2' => splice s1 s2' r k)
    | Assign s r => Assign (s, s2) (splice s s2 r k)
    end.
  Definition chain_o : object A D :=
    mkObj (o_state o1 * o_state o2) (o_cur o1, o_cur o2)
      (fun s a => splice (fst s) (snd s) (o_exec o1 (fst s) a) (fun _ _ => Return))
      (fun s => splice (fst s) (snd s) (o_flush o1 (fst s))
                  (fun s1 s2 => embed (fun s => (s1, s)) (fun d q => Emit d q) s2 (o_flush o2 s2) (fun _ => Return))).
End Chain.
