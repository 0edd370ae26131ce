(** Specification of the C interface: a ledger of what the caller holds.  Handles stand directly for C++ objects; there is no pointer
    table, no heap and no address behind a handle. *)
From Verif Require Import Base M_Estimator M_CApi.
Open Scope Z_scope.

(** The numbers that the header publishes (TrainingStateValue, FitResultValue). *)
Definition state_number (s : tstate) : Z := match s with Pending => 1 | Training => 2 | Finished => 3 | Completed => 4 end.
Definition fit_number (f : fit_result) : Z := match f with FitComplete => 1 | FitContinue => 2 | FitReset => 3 end.

(** The life cycle every C++ method of the featurizer follows ([I]), its constructor and its transformers, as in M_CApi. *)
Section Ledger.
  Context {S In Tr Arg Val : Type}.
  Variable I : impl S In Tr.
  Variable construct : res S.
  Variable value_of : Arg -> res In.
  Variable save_tr : Tr -> res (list Z).
  Variable load_tr : list Z -> res Tr.
  Variable exec_one : Tr -> In -> Tr * res Val.
  Variable exec_many : Tr -> In -> Tr * res (list (list Z)).
  Variable flush_many : Tr -> Tr * res (list (list Z)).
  Variable what : exn -> list Z.
  Notation obj := (@obj S Tr).
  Notation call := (@call Arg).
  Notation answer := (@answer Val).

  (** The objects behind the live handles, and the memory blocks the caller has to give back. *)
  Record ledger := mkLedger { live : Z -> option obj; given : Z -> option obj }.
  Definition nothing : ledger := mkLedger (fun _ => None) (fun _ => None).
  Definition assign (f : Z -> option obj) (k : Z) (o : option obj) : Z -> option obj := fun x => if x =? k then o else f x.
  Definition behind (L : ledger) (h : Z) (o : option obj) : ledger := mkLedger (assign (live L) h o) (given L).
  Definition owing (L : ledger) (a : Z) (o : option obj) : ledger := mkLedger (live L) (assign (given L) a o).
  Definition empty (L : ledger) : Prop := (forall h, live L h = None) /\ (forall a, given L a = None).

  (** What a call must come to. *)
  Inductive outcome :=
  | Refuse (e : exn)               (* returns false, with the handle of a new error whose text is e's *)
  | Quiet                          (* returns false, and nothing else *)
  | Says (a : answer)              (* returns true *)
  | NewHandle (o : obj)            (* returns true and a new handle *)
  | NewBlock (o : obj) (n : Z)     (* returns true, the address of a new block and n *)
  | Escapes (e : exn)              (* a C++ exception leaves the C function *)
  | Undefined.
  (** The outcome of a C++ method. *)
  Definition outcome_of {A} (r : res A) (k : A -> outcome) : outcome :=
    match r with Ok a => k a | Throw e => Refuse e | UB => Undefined end.

  (** The call needs the estimator, the transformer, the block...; [ok]: the places for the results are not null. *)
  Definition with_estimator (L : ledger) (h : Z) (ok : bool) (k : est S -> ledger * outcome) : ledger * outcome :=
    if ok && negb (h =? 0) then
      match live L h with
      | None => (L, Refuse InvalidArgument)
      | Some (OEst e) => k e
      | Some _ => (L, Undefined)
      end
    else (L, Refuse InvalidArgument).
  Definition with_transformer (L : ledger) (h : Z) (ok : bool) (k : Tr -> ledger * outcome) : ledger * outcome :=
    if ok && negb (h =? 0) then
      match live L h with
      | None => (L, Refuse InvalidArgument)
      | Some (OTrans t) => k t
      | Some _ => (L, Undefined)
      end
    else (L, Refuse InvalidArgument).
  (** An argument that cannot be converted is refused before the handle is looked at. *)
  Definition with_value {A} (L : ledger) (ok : bool) (h : Z) (r : res A) (k : A -> ledger * outcome) : ledger * outcome :=
    if ok && negb (h =? 0) then
      match r with Ok v => k v | Throw e => (L, Refuse e) | UB => (L, Undefined) end
    else (L, Refuse InvalidArgument).
  (** The strings given to the caller: a null pointer for an empty one, and no array for no strings. *)
  Definition strings (l : list (list Z)) : outcome :=
    match l with
    | [] => Says (ABlock 0 0)
    | _ => NewBlock (OStrings (map (fun s => match s with [] => None | _ => Some (s ++ [0]) end) l)) (Z.of_nat (length l))
    end.
  Definition the_block (L : ledger) (a : Z) (is_it : obj -> bool) : ledger * outcome :=
    match given L a with
    | Some o => if is_it o then (owing L a None, Says ADone) else (L, Undefined)
    | None => (L, Undefined)
    end.

  (** What the caller holds when the function has done its work, and the outcome. *)
  Definition effect (L : ledger) (c : call) : ledger * outcome :=
    match c with
    | CreateEstimator out =>
        (L, outcome_of construct (fun s => let (e, r) := begin_training I (est_new s) in
              outcome_of r (fun _ => if out then NewHandle (OEst e) else Undefined)))
    | CreateEstimatorDefault out => (L, outcome_of construct (fun s => if out then NewHandle (OEst (est_new s)) else Undefined))
    | DestroyEstimator h => with_estimator L h true (fun _ => (behind L h None, Says ADone))
    | GetState h out => with_estimator L h out (fun e => (L, Says (ACode (state_number (e_state e)))))
    | IsTrainingComplete h out =>
        with_estimator L h out (fun e => (L, Says (AFlag (match e_state e with Training => false | _ => true end))))
    | Fit h x out =>
        with_value L out h (value_of x) (fun v => with_estimator L h out (fun e =>
          let (e', r) := fit I e (Some [v]) in (behind L h (Some (OEst e')), outcome_of r (fun f => Says (ACode (fit_number f))))))
    | FitBuffer h xs out =>
        match xs with
        | None | Some [] => (L, Refuse InvalidArgument)
        | Some l => with_value L out h (mapM value_of l) (fun vs => with_estimator L h out (fun e =>
            let (e', r) := fit I e (Some vs) in (behind L h (Some (OEst e')), outcome_of r (fun f => Says (ACode (fit_number f))))))
        end
    | OnDataCompleted h => with_estimator L h true (fun e =>
          let (e', r) := on_data_completed I e in (behind L h (Some (OEst e')), outcome_of r (fun _ => Says ADone)))
    | CompleteTraining h => with_estimator L h true (fun e =>
          let (e', r) := complete_training I e in (behind L h (Some (OEst e')), outcome_of r (fun _ => Says ADone)))
    | CreateTransformer h out => with_estimator L h out (fun e =>
          let (e', r) := create_transformer I e in (behind L h (Some (OEst e')), outcome_of r (fun t => NewHandle (OTrans t))))
    | LoadTransformer b out =>
        match b with
        | None | Some [] => (L, Refuse InvalidArgument)
        | Some l => (L, if out then outcome_of (load_tr l) (fun t => NewHandle (OTrans t)) else Refuse InvalidArgument)
        end
    | DestroyTransformer h => with_transformer L h true (fun _ => (behind L h None, Says ADone))
    | SaveTransformer h out => with_transformer L h out (fun t =>
          (L, outcome_of (save_tr t) (fun b => NewBlock (OBytes b) (Z.of_nat (length b)))))
    | DestroySaveData a n =>
        if (a =? 0) || (n =? 0) then (L, Refuse InvalidArgument)
        else the_block L a (fun o => match o with OBytes _ => true | _ => false end)
    | Transform h x out =>
        with_value L out h (value_of x) (fun v => with_transformer L h out (fun t =>
          let (t', r) := exec_one t v in (behind L h (Some (OTrans t')), outcome_of r (fun y => Says (AValue y)))))
    | TransformMany h x out =>
        with_value L out h (value_of x) (fun v => with_transformer L h out (fun t =>
          let (t', r) := exec_many t v in (behind L h (Some (OTrans t')), outcome_of r strings)))
    | Flush h out => with_transformer L h out (fun t =>
          let (t', r) := flush_many t in (behind L h (Some (OTrans t')), outcome_of r strings))
    | DestroyTransformed a n =>
        if (a =? 0) && (n =? 0) then (L, Says ADone)
        else if (a =? 0) || (n =? 0) then (L, Refuse InvalidArgument)
        else the_block L a (fun o => match o with OStrings l => n =? Z.of_nat (length l) | _ => false end)
    | GetErrorString h out =>
        if out && negb (h =? 0) then
          match live L h with
          | None => (L, Escapes InvalidArgument)
          | Some (OText s) => (L, NewBlock (OChars (s ++ [0])) 0)
          | Some _ => (L, Undefined)
          end
        else (L, Quiet)
    | DestroyErrorString a =>
        if a =? 0 then (L, Says ADone) else the_block L a (fun o => match o with OChars _ => true | _ => false end)
    | DestroyError h =>
        if h =? 0 then (L, Quiet) else
        match live L h with
        | None => (L, Escapes InvalidArgument)
        | Some (OText _) => (behind L h None, Says ADone)
        | Some _ => (L, Undefined)
        end
    end.
  (** Without a place for the error handle nothing is done; three functions have no such parameter. *)
  Definition errorless (c : call) : bool :=
    match c with GetErrorString _ _ | DestroyErrorString _ | DestroyError _ => true | _ => false end.
  Definition does (errors : bool) (L : ledger) (c : call) : ledger * outcome :=
    if errors || errorless c then effect L c else (L, Quiet).

  (** The answer is as it must be: new handles and new blocks are none that the caller holds already. *)
  Definition answers (L : ledger) (o : outcome) (x : cres answer) : Prop :=
    let fresh h := 1 <= h < 18446744073709551616 /\ live L h = None in
    match o with
    | Refuse e => exists h, x = CFalse (Some h) /\ fresh h
    | Quiet => x = CFalse None
    | Says a => x = CTrue a
    | NewHandle _ => exists h, x = CTrue (AHandle h) /\ fresh h
    | NewBlock _ n => exists a, x = CTrue (ABlock a n) /\ a <> 0 /\ given L a = None
    | Escapes e => x = CEscape e
    | Undefined => x = CUB
    end.
  (** What the caller holds after the answer. *)
  Definition holding (L : ledger) (o : outcome) (x : cres answer) : ledger :=
    match o, x with
    | Refuse e, CFalse (Some h) => behind L h (Some (OText (what e)))
    | NewHandle n, CTrue (AHandle h) => behind L h (Some n)
    | NewBlock b _, CTrue (ABlock a _) => owing L a (Some b)
    | _, _ => L
    end.

  (** A history: every call is answered as it must be, given what the caller holds at that time. *)
  Fixpoint meets (L : ledger) (l : list (bool * call)) (xs : list (cres answer)) {struct l} : Prop :=
    match l, xs with
    | [], [] => True
    | (errors, c) :: l', x :: xs' =>
        let (L', o) := does errors L c in
        answers L o x /\
        match x with
        | CUB | CEscape _ => xs' = []
        | _ => meets (holding L' o x) l' xs'
        end
    | _, _ => False
    end.
  Fixpoint holds_after (L : ledger) (l : list (bool * call)) (xs : list (cres answer)) {struct l} : ledger :=
    match l, xs with
    | (errors, c) :: l', x :: xs' => let (L', o) := does errors L c in holds_after (holding L' o x) l' xs'
    | _, _ => L
    end.

  (** Careful use: a handle is passed only to the functions of its kind (or is dead, or null), a block is given back as it was
      received, the place for a new estimator handle is not null, and the error functions get live errors. *)
  Definition est_or_dead (L : ledger) (h : Z) : Prop := match live L h with Some (OEst _) | None => True | _ => False end.
  Definition trans_or_dead (L : ledger) (h : Z) : Prop := match live L h with Some (OTrans _) | None => True | _ => False end.
  Definition careful_call (L : ledger) (c : call) : Prop :=
    match c with
    | CreateEstimator out | CreateEstimatorDefault out => out = true
    | DestroyEstimator h | GetState h _ | IsTrainingComplete h _ | Fit h _ _ | FitBuffer h _ _ | OnDataCompleted h | CompleteTraining h
    | CreateTransformer h _ => est_or_dead L h
    | LoadTransformer _ _ => True
    | DestroyTransformer h | SaveTransformer h _ | Transform h _ _ | TransformMany h _ _ | Flush h _ => trans_or_dead L h
    | DestroySaveData a n => a = 0 \/ n = 0 \/ exists b, given L a = Some (OBytes b)
    | DestroyTransformed a n => a = 0 \/ n = 0 \/ exists l, given L a = Some (OStrings l) /\ n = Z.of_nat (length l)
    | GetErrorString h out => h = 0 \/ exists s, live L h = Some (OText s)
    | DestroyErrorString a => a = 0 \/ exists s, given L a = Some (OChars s)
    | DestroyError h => h = 0 \/ exists s, live L h = Some (OText s)
    end.
  Fixpoint careful (L : ledger) (l : list (bool * call)) (xs : list (cres answer)) {struct l} : Prop :=
    match l, xs with
    | (errors, c) :: l', x :: xs' => careful_call L c /\ let (L', o) := does errors L c in careful (holding L' o x) l' xs'
    | _, _ => True
    end.
  (** The calls that would train the estimator, finish its training or get its transformer. *)
  Definition trains (h : Z) (c : call) : Prop :=
    match c with
    | Fit k _ _ | FitBuffer k _ _ | OnDataCompleted k | CompleteTraining k | CreateTransformer k _ => k = h
    | _ => False
    end.
  (** The function returned. *)
  Definition returned (x : cres answer) : Prop := match x with CTrue _ | CFalse _ => True | _ => False end.
  (** The C++ methods themselves are defined. *)
  Definition methods_defined : Prop :=
    construct <> UB /\ (forall x, value_of x <> UB) /\ (forall t, save_tr t <> UB) /\ (forall b, load_tr b <> UB) /\
    (forall s, snd (i_begin I s) <> UB) /\ (forall s l, snd (i_fit I s l) <> UB) /\ (forall s, snd (i_on_data I s) <> UB) /\
    (forall s, snd (i_complete I s) <> UB) /\ (forall s, snd (i_create I s) <> UB) /\
    (forall t v, snd (exec_one t v) <> UB) /\ (forall t v, snd (exec_many t v) <> UB) /\ (forall t, snd (flush_many t) <> UB).
End Ledger.

(** The allocator never returns null nor an address in use, and the random engine draws handles in [1, 2^64). *)
Definition allocator_ok (allocate : nat -> list Z -> Z) : Prop := forall n l, ~ In (allocate n l) l /\ allocate n l <> 0.
Definition draws_ok (draws : nat -> list Z) : Prop := forall n, Forall (fun d => 1 <= d < 18446744073709551616) (draws n).
(** The n-th time it draws more than n different values before giving up, so it finds an unused one; as long as n < limit, for there
    are no more than 2^64 - 1 values. *)
Definition draws_enough (limit : nat) (draws : nat -> list Z) : Prop :=
  forall n, (n < limit)%nat -> NoDup (draws n) /\ (n < length (draws n))%nat.
