(** Specification of the C interface for threads that call it at the same time.  Handles stand directly for C++ objects, as in S_CApi; a
    handle or block that was passed to a function is in use until the function returns. *)
From Verif Require Import Base M_Estimator M_CApi S_CApi M_PtConc M_Conc.
Open Scope Z_scope.

Section Book.
  Context {S In Tr Arg Val : Type}.
  Variable I : impl S In Tr.
  Variable construct : res S.
  Variable value_of : Arg -> res In.
  Variable save_tr : Tr -> res (list Z).
  Variable load_tr : list Z -> res Tr.
  Variable exec_one : Tr -> In -> Tr * res Val.
  Variable exec_many : Tr -> In -> Tr * res (list (list Z)).
  Variable flush_many : Tr -> Tr * res (list (list Z)).
  Variable what : exn -> list Z.
  Notation obj := (@obj S Tr).
  Notation call := (@call Arg).
  Notation answer := (@answer Val).
  Notation ledger := (@ledger S Tr).
  Notation event := (@event Arg Val).
  Notation does := (@does S In Tr Arg Val I construct value_of save_tr load_tr exec_one exec_many flush_many).

  (** The handle and the block that a call is about (null pointers are not). *)
  Definition handle_of (c : call) : option Z :=
    match c with
    | DestroyEstimator h | GetState h _ | IsTrainingComplete h _ | Fit h _ _ | FitBuffer h _ _ | OnDataCompleted h | CompleteTraining h
    | CreateTransformer h _ | DestroyTransformer h | SaveTransformer h _ | Transform h _ _ | TransformMany h _ _ | Flush h _
    | GetErrorString h _ | DestroyError h => if h =? 0 then None else Some h
    | _ => None
    end.
  Definition block_of (c : call) : option Z :=
    match c with
    | DestroySaveData a n | DestroyTransformed a n => if (a =? 0) || (n =? 0) then None else Some a
    | DestroyErrorString a => if a =? 0 then None else Some a
    | _ => None
    end.
  (** The call gives its handle or block back. *)
  Definition ends (errors : bool) (c : call) : bool :=
    (errors || errorless c) &&
    match c with
    | DestroyEstimator _ | DestroyTransformer _ | DestroyError _ | DestroySaveData _ _ | DestroyTransformed _ _ | DestroyErrorString _ => true
    | _ => false
    end.

  (** What the callers may do: the handle or block is null, or it is of the right kind and not in use, was returned before, and was not
      given back. *)
  Definition an_estimator (L : ledger) (h : Z) : Prop := h = 0 \/ exists e, live L h = Some (OEst e).
  Definition a_transformer (L : ledger) (h : Z) : Prop := h = 0 \/ exists t, live L h = Some (OTrans t).
  Definition allowed (L : ledger) (c : call) : Prop :=
    match c with
    | CreateEstimator out | CreateEstimatorDefault out => out = true
    | DestroyEstimator h | GetState h _ | IsTrainingComplete h _ | Fit h _ _ | FitBuffer h _ _ | OnDataCompleted h | CompleteTraining h
    | CreateTransformer h _ => an_estimator L h
    | LoadTransformer _ _ => True
    | DestroyTransformer h | SaveTransformer h _ | Transform h _ _ | TransformMany h _ _ | Flush h _ => a_transformer L h
    | DestroySaveData a n => a = 0 \/ n = 0 \/ exists b, given L a = Some (OBytes b)
    | DestroyTransformed a n => a = 0 \/ n = 0 \/ exists l, given L a = Some (OStrings l) /\ n = Z.of_nat (length l)
    | GetErrorString h _ | DestroyError h => h = 0 \/ exists s, live L h = Some (OText s)
    | DestroyErrorString a => a = 0 \/ exists s, given L a = Some (OChars s)
    end.

  (** The ledger of what is not in use, and the calls that have begun, each with the part of the ledger it is about. *)
  Record book := mkBook { unused : ledger; begun : nat -> option (bool * call * ledger) }.
  Definition new_book : book := mkBook nothing (fun _ => None).
  Definition is (x : option Z) (k : Z) : bool := match x with None => false | Some y => k =? y end.
  Definition only (L : ledger) (c : call) : ledger :=
    mkLedger (fun h => if is (handle_of c) h then live L h else None) (fun a => if is (block_of c) a then given L a else None).
  Definition without (L : ledger) (c : call) : ledger :=
    mkLedger (fun h => if is (handle_of c) h then None else live L h) (fun a => if is (block_of c) a then None else given L a).
  Definition either (x y : option obj) : option obj := match x with Some o => Some o | None => y end.
  Definition join (L M : ledger) : ledger := mkLedger (fun h => either (live M h) (live L h)) (fun a => either (given M a) (given L a)).
  Definition after (b : book) (e : event) : book :=
    match e with
    | Begins i errors c => mkBook (without (unused b) c) (put (begun b) i (Some (errors, c, only (unused b) c)))
    | Returns i x =>
        match begun b i with
        | None => b
        | Some (errors, c, M) => let (M', o) := does errors M c in mkBook (join (unused b) (holding what M' o x)) (put (begun b) i None)
        end
    end.
  Fixpoint book_after (b : book) (hist : list event) {struct hist} : book :=
    match hist with [] => b | e :: r => book_after (after b e) r end.

  (** The callers keep to it. *)
  Fixpoint disciplined (b : book) (hist : list event) {struct hist} : Prop :=
    match hist with
    | [] => True
    | e :: r => match e with Begins i errors c => allowed (unused b) c | Returns _ _ => True end /\ disciplined (after b e) r
    end.
  (** Every function answers as in S_CApi; a new handle is none of those that are known and not being given back. *)
  Definition in_sight (b : book) (N : ledger) : Prop :=
    N = unused b \/ exists j errors c, begun b j = Some (errors, c, N) /\ ends errors c = false.
  Fixpoint answered (b : book) (hist : list event) {struct hist} : Prop :=
    match hist with
    | [] => True
    | e :: r =>
        match e with
        | Begins i errors c => begun b i = None
        | Returns i x => exists errors c M, begun b i = Some (errors, c, M) /\ forall N, in_sight b N -> answers N (snd (does errors M c)) x
        end /\ answered (after b e) r
    end.

  (** The address of the object that a thread is about to use. *)
  Definition touches (q : @place S Tr Val) : option Z :=
    match q with At (Read a _) | At (Write a _ _) | At (Delete a _) => Some a | _ => None end.
End Book.
