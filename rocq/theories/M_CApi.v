(** Model of the C interface of one featurizer: src/SharedLibrary/GeneratedCode/SharedLibrary_MeanImputerFeaturizer.cpp:41-425 (every
    generated file repeats these functions), the functions that return arrays of strings
    (SharedLibrary_BackwardFillImputerFeaturizer.cpp:5196-5363) and SharedLibrary_Common.cpp:19-85.
    The C++ objects live on a heap; the caller knows them by handles of the pointer table. *)
From Verif Require Import Base M_PointerTable M_Estimator.
Open Scope Z_scope.

(** A C function returns true (with what it wrote to the out parameters), false (with the error handle, if the caller passed a place
    for it), lets an exception escape, or is undefined. *)
Inductive cres (A : Type) := CTrue (a : A) | CFalse (error : option Z) | CEscape (e : exn) | CUB.
Arguments CTrue {A}. Arguments CFalse {A}. Arguments CEscape {A}. Arguments CUB {A}.

(** SharedLibrary_Common.h:80-96, Featurizer.h:329-344: the enumerators start at 1. *)
Definition state_code (s : tstate) : Z := match s with Pending => 1 | Training => 2 | Finished => 3 | Completed => 4 end.
Definition fit_code (f : fit_result) : Z := match f with FitComplete => 1 | FitContinue => 2 | FitReset => 3 end.

Section CApi.
  (** The featurizer: its estimator [I], how it is constructed, how its transformers work; [Arg] is an argument as C passes it. *)
  Context {S In Tr Arg Val : Type}.
  Variable I : impl S In Tr.
  Variable construct : res S.
  Variable value_of : Arg -> res In.                        (* null pointers to null values, or refused *)
  Variable save_tr : Tr -> res (list Z).                    (* save, commit *)
  Variable load_tr : list Z -> res Tr.                      (* the constructor from an archive *)
  Variable exec_one : Tr -> In -> Tr * res Val.             (* execute(input), one result *)
  Variable exec_many : Tr -> In -> Tr * res (list (list Z)). (* execute(input, callback), results are strings *)
  Variable flush_many : Tr -> Tr * res (list (list Z)).     (* flush(callback) *)
  Variable what : exn -> list Z.                            (* std::exception::what *)
  (** The memory allocator and the random engine: what they answer at their n-th call, given the addresses in use. *)
  Variable allocate : nat -> list Z -> Z.
  Variable draws : nat -> list Z.

  (** A string array is one block here together with its strings; an empty string is a null pointer in it. *)
  Inductive obj := OEst (e : est S) | OTrans (t : Tr) | OText (s : list Z)                        (* behind handles *)
                 | OBytes (b : list Z) | OChars (s : list Z) | OStrings (l : list (option (list Z))). (* given to the caller *)
  Record world := mkWorld { w_table : ptable; w_heap : list (Z * obj); w_time : nat }.

  Fixpoint h_find (h : list (Z * obj)) (a : Z) : option obj :=
    match h with [] => None | (k, o) :: r => if k =? a then Some o else h_find r a end.
  Fixpoint h_free (h : list (Z * obj)) (a : Z) : list (Z * obj) :=
    match h with [] => [] | (k, o) :: r => if k =? a then r else (k, o) :: h_free r a end.
  Fixpoint h_store (h : list (Z * obj)) (a : Z) (o : obj) : list (Z * obj) :=
    match h with [] => [] | (k, x) :: r => if k =? a then (k, o) :: r else (k, x) :: h_store r a o end.

  (** Code between the braces of a function: it may throw, having changed the world.  None: it does not return (endless drawing). *)
  Definition act (A : Type) : Type := world -> option (world * res A).
  Definition done {A} (a : A) : act A := fun w => Some (w, Ok a).
  Definition raise {A} (e : exn) : act A := fun w => Some (w, Throw e).
  Definition undefined {A} : act A := fun w => Some (w, UB).
  Definition lift {A} (r : res A) : act A := fun w => Some (w, r).
  Definition thn {A B} (m : act A) (f : A -> act B) : act B := fun w =>
    match m w with
    | None => None
    | Some (w', Ok a) => f a w'
    | Some (w', Throw e) => Some (w', Throw e)
    | Some (w', UB) => Some (w', UB)
    end.
  Notation "'let!' x := m 'in' f" := (thn m (fun x => f)) (at level 200, x pattern, m at level 100, f at level 200, right associativity).
  Definition require (b : bool) : act unit := if b then done tt else raise InvalidArgument.

  (** new *)
  Definition new_obj (o : obj) : act Z := fun w =>
    let a := allocate (w_time w) (map fst (w_heap w)) in
    Some (mkWorld (w_table w) ((a, o) :: w_heap w) (Datatypes.S (w_time w)), Ok a).
  Definition read_obj (a : Z) : act obj := fun w => match h_find (w_heap w) a with None => Some (w, UB) | Some o => Some (w, Ok o) end.
  Definition write_obj (a : Z) (o : obj) : act unit := fun w =>
    match h_find (w_heap w) a with None => Some (w, UB) | Some _ => Some (mkWorld (w_table w) (h_store (w_heap w) a o) (w_time w), Ok tt) end.
  (** delete; nothing is freed twice. *)
  Definition delete_obj (a : Z) : act unit := fun w =>
    match h_find (w_heap w) a with None => Some (w, UB) | Some _ => Some (mkWorld (w_table w) (h_free (w_heap w) a) (w_time w), Ok tt) end.
  (** g_pointerTable *)
  Definition t_add (p : Z) : act Z := fun w =>
    match pt_add (w_table w) p (draws (w_time w)) with
    | None => None
    | Some (t, r) => Some (mkWorld t (w_heap w) (Datatypes.S (w_time w)), r)
    end.
  Definition t_get (h : Z) : act Z := fun w => Some (w, pt_get (w_table w) h).
  Definition t_remove (h : Z) : act unit := fun w => let (t, r) := pt_remove (w_table w) h in Some (mkWorld t (w_heap w) (w_time w), r).

  (** SharedLibrary_Common.cpp:80-85 [CreateErrorInfo] and the try block that all functions with ppErrorInfo share;
      [errors]: ppErrorInfo is not null. *)
  Definition create_error (e : exn) : act Z := let! p := new_obj (OText (what e)) in t_add p.
  Definition api {A} (errors : bool) (body : act A) (w : world) : option (world * cres A) :=
    if errors then
      match body w with
      | None => None
      | Some (w', Ok a) => Some (w', CTrue a)
      | Some (w', UB) => Some (w', CUB)
      | Some (w', Throw e) =>
          match create_error e w' with
          | None => None
          | Some (w2, Ok h) => Some (w2, CFalse (Some h))
          | Some (w2, Throw x) => Some (w2, CEscape x)
          | Some (w2, UB) => Some (w2, CUB)
          end
      end
    else Some (w, CFalse None).

  (** *g_pointerTable.Get<T>(handle): the pointer is cast, whatever object it points to. *)
  Definition get_est (h : Z) : act (Z * est S) :=
    let! p := t_get h in let! o := read_obj p in match o with OEst e => done (p, e) | _ => undefined end.
  Definition get_trans (h : Z) : act (Z * Tr) :=
    let! p := t_get h in let! o := read_obj p in match o with OTrans t => done (p, t) | _ => undefined end.

  (** MeanImputer:41-63; [out]: ppHandle is not null, which is not checked. *)
  Definition c_create_estimator (out : bool) : act Z :=
    let! s := lift construct in
    let! p := new_obj (OEst (est_new s)) in
    let (e, r) := begin_training I (est_new s) in
    let! _ := write_obj p (OEst e) in
    let! _ := lift r in
    let! h := t_add p in
    if out then done h else undefined.
  (** SharedLibrary_RobustScalerFeaturizerCustom.cpp:26-48: without begin_training. *)
  Definition c_create_estimator_default (out : bool) : act Z :=
    let! s := lift construct in
    let! p := new_obj (OEst (est_new s)) in
    let! h := t_add p in
    if out then done h else undefined.
  (** MeanImputer:65-86 *)
  Definition c_destroy_estimator (h : Z) : act unit :=
    let! _ := require (negb (h =? 0)) in
    let! p := t_get h in
    let! _ := t_remove h in
    let! o := read_obj p in
    match o with OEst _ => delete_obj p | _ => undefined end.
  (** MeanImputer:88-108 *)
  Definition c_get_state (h : Z) (out : bool) : act Z :=
    let! _ := require (negb (h =? 0)) in
    let! _ := require out in
    let! (_, e) := get_est h in
    done (state_code (e_state e)).
  (** MeanImputer:110-130 *)
  Definition c_is_training_complete (h : Z) (out : bool) : act bool :=
    let! _ := require (negb (h =? 0)) in
    let! _ := require out in
    let! (_, e) := get_est h in
    done (match e_state e with Training => false | _ => true end).
  (** MeanImputer:132-156, Featurizer.h:767-769 *)
  Definition c_fit (h : Z) (x : Arg) (out : bool) : act Z :=
    let! _ := require (negb (h =? 0)) in
    let! _ := require out in
    let! v := lift (value_of x) in
    let! (p, e) := get_est h in
    let (e', r) := fit I e (Some [v]) in
    let! _ := write_obj p (OEst e') in
    let! f := lift r in
    done (fit_code f).
  (** MeanImputer:158-190; None: input_ptr is null. *)
  Definition c_fit_buffer (h : Z) (xs : option (list Arg)) (out : bool) : act Z :=
    let! _ := require (negb (h =? 0)) in
    let! _ := require out in
    match xs with
    | None => raise InvalidArgument
    | Some [] => raise InvalidArgument
    | Some l =>
        let! vs := lift (mapM value_of l) in
        let! (p, e) := get_est h in
        let (e', r) := fit I e (Some vs) in
        let! _ := write_obj p (OEst e') in
        let! f := lift r in
        done (fit_code f)
    end.
  (** MeanImputer:192-211 and 213-232 *)
  Definition c_est_call (call : est S -> est S * res unit) (h : Z) : act unit :=
    let! _ := require (negb (h =? 0)) in
    let! (p, e) := get_est h in
    let (e', r) := call e in
    let! _ := write_obj p (OEst e') in
    lift r.
  (** MeanImputer:234-257 *)
  Definition c_create_transformer (h : Z) (out : bool) : act Z :=
    let! _ := require (negb (h =? 0)) in
    let! _ := require out in
    let! (p, e) := get_est h in
    let (e', r) := create_transformer I e in
    let! _ := write_obj p (OEst e') in
    let! t := lift r in
    let! q := new_obj (OTrans t) in
    t_add q.
  (** MeanImputer:259-283; None: pBuffer is null. *)
  Definition c_load (b : option (list Z)) (out : bool) : act Z :=
    match b with
    | None => raise InvalidArgument
    | Some [] => raise InvalidArgument
    | Some l =>
        let! _ := require out in
        let! t := lift (load_tr l) in
        let! q := new_obj (OTrans t) in
        t_add q
    end.
  (** MeanImputer:285-306 *)
  Definition c_destroy_transformer (h : Z) : act unit :=
    let! _ := require (negb (h =? 0)) in
    let! p := t_get h in
    let! _ := t_remove h in
    let! o := read_obj p in
    match o with OTrans _ => delete_obj p | _ => undefined end.
  (** MeanImputer:308-339: the address and the size *)
  Definition c_save (h : Z) (out : bool) : act (Z * Z) :=
    let! _ := require (negb (h =? 0)) in
    let! _ := require out in
    let! (_, t) := get_trans h in
    let! b := lift (save_tr t) in
    let! a := new_obj (OBytes b) in
    done (a, Z.of_nat (length b)).
  (** SharedLibrary_Common.cpp:57-75; the null pointer is 0. *)
  Definition c_destroy_save_data (a n : Z) : act unit :=
    let! _ := require (negb (a =? 0)) in
    let! _ := require (negb (n =? 0)) in
    let! o := read_obj a in
    match o with OBytes _ => delete_obj a | _ => undefined end.
  (** MeanImputer:341-370 *)
  Definition c_transform (h : Z) (x : Arg) (out : bool) : act Val :=
    let! _ := require (negb (h =? 0)) in
    let! _ := require out in
    let! v := lift (value_of x) in
    let! (p, t) := get_trans h in
    let (t', r) := exec_one t v in
    let! _ := write_obj p (OTrans t') in
    lift r.
  (** BackwardFillImputer:5220-5252: a string is copied and terminated, an empty one becomes a null pointer. *)
  Definition output_item (s : list Z) : option (list Z) := match s with [] => None | _ => Some (s ++ [0]) end.
  Definition output_strings (l : list (list Z)) : act (Z * Z) :=
    match l with
    | [] => done (0, 0)
    | _ => let! a := new_obj (OStrings (map output_item l)) in done (a, Z.of_nat (length l))
    end.
  (** BackwardFillImputer:5196-5262 *)
  Definition c_transform_many (h : Z) (x : Arg) (out : bool) : act (Z * Z) :=
    let! _ := require (negb (h =? 0)) in
    let! _ := require out in
    let! v := lift (value_of x) in
    let! (p, t) := get_trans h in
    let (t', r) := exec_many t v in
    let! _ := write_obj p (OTrans t') in
    let! l := lift r in
    output_strings l.
  (** BackwardFillImputer:5264-5327 *)
  Definition c_flush (h : Z) (out : bool) : act (Z * Z) :=
    let! _ := require (negb (h =? 0)) in
    let! _ := require out in
    let! (p, t) := get_trans h in
    let (t', r) := flush_many t in
    let! _ := write_obj p (OTrans t') in
    let! l := lift r in
    output_strings l.
  (** BackwardFillImputer:5329-5363; another number of items than the array has reads past its end or leaks: undefined here. *)
  Definition c_destroy_transformed (a n : Z) : act unit :=
    let! _ := require (negb (negb (a =? 0) && (n =? 0))) in
    let! _ := require (negb ((a =? 0) && negb (n =? 0))) in
    if a =? 0 then done tt else
    let! o := read_obj a in
    match o with OStrings l => if n =? Z.of_nat (length l) then delete_obj a else undefined | _ => undefined end.

  (** The functions without ppErrorInfo have no try block. *)
  Definition bare {A} (body : act A) (w : world) : option (world * cres A) :=
    match body w with
    | None => None
    | Some (w', Ok a) => Some (w', CTrue a)
    | Some (w', UB) => Some (w', CUB)
    | Some (w', Throw e) => Some (w', CEscape e)
    end.
  (** SharedLibrary_Common.cpp:19-33 *)
  Definition c_get_error_string (h : Z) (out : bool) (w : world) : option (world * cres Z) :=
    if (h =? 0) || negb out then Some (w, CFalse None)
    else bare (let! p := t_get h in let! o := read_obj p in match o with OText s => new_obj (OChars (s ++ [0])) | _ => undefined end) w.
  (** SharedLibrary_Common.cpp:35-40 *)
  Definition c_destroy_error_string (a : Z) (w : world) : option (world * cres unit) :=
    bare (if a =? 0 then done tt else let! o := read_obj a in match o with OChars _ => delete_obj a | _ => undefined end) w.
  (** SharedLibrary_Common.cpp:42-55 *)
  Definition c_destroy_error (h : Z) (w : world) : option (world * cres unit) :=
    if h =? 0 then Some (w, CFalse None)
    else bare (let! p := t_get h in let! _ := t_remove h in let! o := read_obj p in
               match o with OText _ => delete_obj p | _ => undefined end) w.

  (** *** Histories *)
  Inductive call :=
  | CreateEstimator (out : bool) | CreateEstimatorDefault (out : bool) | DestroyEstimator (h : Z) | GetState (h : Z) (out : bool)
  | IsTrainingComplete (h : Z) (out : bool) | Fit (h : Z) (x : Arg) (out : bool) | FitBuffer (h : Z) (xs : option (list Arg)) (out : bool)
  | OnDataCompleted (h : Z) | CompleteTraining (h : Z) | CreateTransformer (h : Z) (out : bool) | LoadTransformer (b : option (list Z)) (out : bool)
  | DestroyTransformer (h : Z) | SaveTransformer (h : Z) (out : bool) | DestroySaveData (a n : Z) | Transform (h : Z) (x : Arg) (out : bool)
  | TransformMany (h : Z) (x : Arg) (out : bool) | Flush (h : Z) (out : bool) | DestroyTransformed (a n : Z)
  | GetErrorString (h : Z) (out : bool) | DestroyErrorString (a : Z) | DestroyError (h : Z).
  (** What was written to the out parameters. *)
  Inductive answer := AHandle (h : Z) | ACode (c : Z) | AFlag (b : bool) | ABlock (a n : Z) | AValue (v : Val) | ADone.

  Definition cmap {A B} (f : A -> B) (x : option (world * cres A)) : option (world * cres B) :=
    match x with
    | None => None
    | Some (w, CTrue a) => Some (w, CTrue (f a))
    | Some (w, CFalse e) => Some (w, CFalse e)
    | Some (w, CEscape e) => Some (w, CEscape e)
    | Some (w, CUB) => Some (w, CUB)
    end.
  Definition block (x : Z * Z) : answer := ABlock (fst x) (snd x).
  (** [errors]: ppErrorInfo is not null (it is not a parameter of the last three functions). *)
  Definition step (errors : bool) (c : call) (w : world) : option (world * cres answer) :=
    match c with
    | CreateEstimator out => cmap AHandle (api errors (c_create_estimator out) w)
    | CreateEstimatorDefault out => cmap AHandle (api errors (c_create_estimator_default out) w)
    | DestroyEstimator h => cmap (fun _ => ADone) (api errors (c_destroy_estimator h) w)
    | GetState h out => cmap ACode (api errors (c_get_state h out) w)
    | IsTrainingComplete h out => cmap AFlag (api errors (c_is_training_complete h out) w)
    | Fit h x out => cmap ACode (api errors (c_fit h x out) w)
    | FitBuffer h xs out => cmap ACode (api errors (c_fit_buffer h xs out) w)
    | OnDataCompleted h => cmap (fun _ => ADone) (api errors (c_est_call (on_data_completed I) h) w)
    | CompleteTraining h => cmap (fun _ => ADone) (api errors (c_est_call (complete_training I) h) w)
    | CreateTransformer h out => cmap AHandle (api errors (c_create_transformer h out) w)
    | LoadTransformer b out => cmap AHandle (api errors (c_load b out) w)
    | DestroyTransformer h => cmap (fun _ => ADone) (api errors (c_destroy_transformer h) w)
    | SaveTransformer h out => cmap block (api errors (c_save h out) w)
    | DestroySaveData a n => cmap (fun _ => ADone) (api errors (c_destroy_save_data a n) w)
    | Transform h x out => cmap AValue (api errors (c_transform h x out) w)
    | TransformMany h x out => cmap block (api errors (c_transform_many h x out) w)
    | Flush h out => cmap block (api errors (c_flush h out) w)
    | DestroyTransformed a n => cmap (fun _ => ADone) (api errors (c_destroy_transformed a n) w)
    | GetErrorString h out => cmap (fun a => ABlock a 0) (c_get_error_string h out w)
    | DestroyErrorString a => cmap (fun _ => ADone) (c_destroy_error_string a w)
    | DestroyError h => cmap (fun _ => ADone) (c_destroy_error h w)
    end.
  (** A history ends with the first undefined or escaping call: the answers and the last world. *)
  Fixpoint run (w : world) (l : list (bool * call)) {struct l} : option (list (cres answer) * world) :=
    match l with
    | [] => Some ([], w)
    | (errors, c) :: r =>
        match step errors c w with
        | None => None
        | Some (w', x) =>
            match x with
            | CUB | CEscape _ => Some ([x], w')
            | _ => match run w' r with None => None | Some (log, w2) => Some (x :: log, w2) end
            end
        end
    end.
  Definition start : world := mkWorld [] [] O.
End CApi.
