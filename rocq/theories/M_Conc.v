(** Model of the C interface when several threads call it at the same time.  The C functions are those of M_CApi, now as programs whose
    single steps - new, an access to an object, delete, the statements of the pointer table (M_PtConc) - are interleaved in any order.
    A step reads or writes a whole object: what happens if two threads use one object at once is not described further, it is a race. *)
From Verif Require Import Base M_PointerTable M_PtConc M_Estimator M_CApi.
Open Scope Z_scope.

Section Conc.
  Context {S In Tr Arg Val : Type}.
  Variable I : impl S In Tr.
  Variable construct : res S.
  Variable value_of : Arg -> res In.
  Variable save_tr : Tr -> res (list Z).
  Variable load_tr : list Z -> res Tr.
  Variable exec_one : Tr -> In -> Tr * res Val.
  Variable exec_many : Tr -> In -> Tr * res (list (list Z)).
  Variable flush_many : Tr -> Tr * res (list (list Z)).
  Variable what : exn -> list Z.
  Notation obj := (@obj S Tr).
  Notation call := (@call Arg).
  Notation answer := (@answer Val).

  (** What remains to be done in a call. *)
  Inductive prog :=
  | Ret (x : cres answer)
  | New (o : obj) (k : Z -> prog)
  | Read (a : Z) (k : obj -> prog)
  | Write (a : Z) (o : obj) (k : prog)
  | Delete (a : Z) (k : prog)
  | Table (o : tcall) (k : res Z -> prog).

  (** Code between braces, given what follows it when it has a value, has thrown or is undefined. *)
  Definition code (A : Type) : Type := (res A -> prog) -> prog.
  Definition value {A} (a : A) : code A := fun k => k (Ok a).
  Definition throw {A} (e : exn) : code A := fun k => k (Throw e).
  Definition undef {A} : code A := fun k => k UB.
  Definition result {A} (r : res A) : code A := fun k => k r.
  Definition next {A B} (m : code A) (f : A -> code B) : code B := fun k =>
    m (fun r => match r with Ok a => f a k | Throw e => k (Throw e) | UB => k UB end).
  Notation "'let!' x := m 'in' f" := (next m (fun x => f)) (at level 200, x pattern, m at level 100, f at level 200, right associativity).
  Definition check (b : bool) : code unit := if b then value tt else throw InvalidArgument.
  Definition new (o : obj) : code Z := fun k => New o (fun a => k (Ok a)).
  Definition read (a : Z) : code obj := fun k => Read a (fun o => k (Ok o)).
  Definition write (a : Z) (o : obj) : code unit := fun k => Write a o (k (Ok tt)).
  Definition delete (a : Z) : code unit := fun k => Delete a (k (Ok tt)).
  Definition add (p : Z) : code Z := fun k => Table (TAdd p) k.
  Definition get (h : Z) : code Z := fun k => Table (TGet h) k.
  Definition remove (h : Z) : code unit := fun k => Table (TRemove h) (fun r => k (match r with Ok _ => Ok tt | Throw e => Throw e | UB => UB end)).

  (** SharedLibrary_Common.cpp:80-85 and the try block, as [create_error] and [api] in M_CApi. *)
  Definition new_error (e : exn) : code Z := let! p := new (OText (what e)) in add p.
  Definition guarded {A} (errors : bool) (conv : A -> answer) (body : code A) : prog :=
    if errors then
      body (fun r => match r with
                     | Ok a => Ret (CTrue (conv a))
                     | UB => Ret CUB
                     | Throw e => new_error e (fun r2 => match r2 with Ok h => Ret (CFalse (Some h)) | Throw x => Ret (CEscape x) | UB => Ret CUB end)
                     end)
    else Ret (CFalse None).
  (** As [bare] in M_CApi. *)
  Definition unguarded {A} (conv : A -> answer) (body : code A) : prog :=
    body (fun r => match r with Ok a => Ret (CTrue (conv a)) | UB => Ret CUB | Throw e => Ret (CEscape e) end).

  (** The functions of M_CApi, with the same lines of the source. *)
  Definition the_est (h : Z) : code (Z * est S) :=
    let! p := get h in let! o := read p in match o with OEst e => value (p, e) | _ => undef end.
  Definition the_trans (h : Z) : code (Z * Tr) :=
    let! p := get h in let! o := read p in match o with OTrans t => value (p, t) | _ => undef end.
  (** SharedLibrary_MeanImputerFeaturizer.cpp:41-63 *)
  Definition x_create_estimator (out : bool) : code Z :=
    let! s := result construct in
    let! p := new (OEst (est_new s)) in
    let (e, r) := begin_training I (est_new s) in
    let! _ := write p (OEst e) in
    let! _ := result r in
    let! h := add p in
    if out then value h else undef.
  (** SharedLibrary_RobustScalerFeaturizerCustom.cpp:26-48 *)
  Definition x_create_estimator_default (out : bool) : code Z :=
    let! s := result construct in
    let! p := new (OEst (est_new s)) in
    let! h := add p in
    if out then value h else undef.
  (** MeanImputer:65-86 *)
  Definition x_destroy_estimator (h : Z) : code unit :=
    let! _ := check (negb (h =? 0)) in
    let! p := get h in
    let! _ := remove h in
    let! o := read p in
    match o with OEst _ => delete p | _ => undef end.
  (** MeanImputer:88-108 *)
  Definition x_get_state (h : Z) (out : bool) : code Z :=
    let! _ := check (negb (h =? 0)) in
    let! _ := check out in
    let! (_, e) := the_est h in
    value (state_code (e_state e)).
  (** MeanImputer:110-130 *)
  Definition x_is_training_complete (h : Z) (out : bool) : code bool :=
    let! _ := check (negb (h =? 0)) in
    let! _ := check out in
    let! (_, e) := the_est h in
    value (match e_state e with Training => false | _ => true end).
  (** MeanImputer:132-156 *)
  Definition x_fit (h : Z) (x : Arg) (out : bool) : code Z :=
    let! _ := check (negb (h =? 0)) in
    let! _ := check out in
    let! v := result (value_of x) in
    let! (p, e) := the_est h in
    let (e', r) := fit I e (Some [v]) in
    let! _ := write p (OEst e') in
    let! f := result r in
    value (fit_code f).
  (** MeanImputer:158-190 *)
  Definition x_fit_buffer (h : Z) (xs : option (list Arg)) (out : bool) : code Z :=
    let! _ := check (negb (h =? 0)) in
    let! _ := check out in
    match xs with
    | None => throw InvalidArgument
    | Some [] => throw InvalidArgument
    | Some l =>
        let! vs := result (mapM value_of l) in
        let! (p, e) := the_est h in
        let (e', r) := fit I e (Some vs) in
        let! _ := write p (OEst e') in
        let! f := result r in
        value (fit_code f)
    end.
  (** MeanImputer:192-211 and 213-232 *)
  Definition x_est_call (method : est S -> est S * res unit) (h : Z) : code unit :=
    let! _ := check (negb (h =? 0)) in
    let! (p, e) := the_est h in
    let (e', r) := method e in
    let! _ := write p (OEst e') in
    result r.
  (** MeanImputer:234-257 *)
  Definition x_create_transformer (h : Z) (out : bool) : code Z :=
    let! _ := check (negb (h =? 0)) in
    let! _ := check out in
    let! (p, e) := the_est h in
    let (e', r) := create_transformer I e in
    let! _ := write p (OEst e') in
    let! t := result r in
    let! q := new (OTrans t) in
    add q.
  (** MeanImputer:259-283 *)
  Definition x_load (b : option (list Z)) (out : bool) : code Z :=
    match b with
    | None => throw InvalidArgument
    | Some [] => throw InvalidArgument
    | Some l =>
        let! _ := check out in
        let! t := result (load_tr l) in
        let! q := new (OTrans t) in
        add q
    end.
  (** MeanImputer:285-306 *)
  Definition x_destroy_transformer (h : Z) : code unit :=
    let! _ := check (negb (h =? 0)) in
    let! p := get h in
    let! _ := remove h in
    let! o := read p in
    match o with OTrans _ => delete p | _ => undef end.
  (** MeanImputer:308-339 *)
  Definition x_save (h : Z) (out : bool) : code (Z * Z) :=
    let! _ := check (negb (h =? 0)) in
    let! _ := check out in
    let! (_, t) := the_trans h in
    let! b := result (save_tr t) in
    let! a := new (OBytes b) in
    value (a, Z.of_nat (length b)).
  (** SharedLibrary_Common.cpp:57-75 *)
  Definition x_destroy_save_data (a n : Z) : code unit :=
    let! _ := check (negb (a =? 0)) in
    let! _ := check (negb (n =? 0)) in
    let! o := read a in
    match o with OBytes _ => delete a | _ => undef end.
  (** MeanImputer:341-370 *)
  Definition x_transform (h : Z) (x : Arg) (out : bool) : code Val :=
    let! _ := check (negb (h =? 0)) in
    let! _ := check out in
    let! v := result (value_of x) in
    let! (p, t) := the_trans h in
    let (t', r) := exec_one t v in
    let! _ := write p (OTrans t') in
    result r.
  (** BackwardFillImputer:5220-5252 *)
  Definition x_strings (l : list (list Z)) : code (Z * Z) :=
    match l with
    | [] => value (0, 0)
    | _ => let! a := new (OStrings (map output_item l)) in value (a, Z.of_nat (length l))
    end.
  (** BackwardFillImputer:5196-5262 *)
  Definition x_transform_many (h : Z) (x : Arg) (out : bool) : code (Z * Z) :=
    let! _ := check (negb (h =? 0)) in
    let! _ := check out in
    let! v := result (value_of x) in
    let! (p, t) := the_trans h in
    let (t', r) := exec_many t v in
    let! _ := write p (OTrans t') in
    let! l := result r in
    x_strings l.
  (** BackwardFillImputer:5264-5327 *)
  Definition x_flush (h : Z) (out : bool) : code (Z * Z) :=
    let! _ := check (negb (h =? 0)) in
    let! _ := check out in
    let! (p, t) := the_trans h in
    let (t', r) := flush_many t in
    let! _ := write p (OTrans t') in
    let! l := result r in
    x_strings l.
  (** BackwardFillImputer:5329-5363 *)
  Definition x_destroy_transformed (a n : Z) : code unit :=
    let! _ := check (negb (negb (a =? 0) && (n =? 0))) in
    let! _ := check (negb ((a =? 0) && negb (n =? 0))) in
    if a =? 0 then value tt else
    let! o := read a in
    match o with OStrings l => if n =? Z.of_nat (length l) then delete a else undef | _ => undef end.
  (** SharedLibrary_Common.cpp:19-33 *)
  Definition x_get_error_string (h : Z) : code Z :=
    let! p := get h in let! o := read p in match o with OText s => new (OChars (s ++ [0])) | _ => undef end.
  (** SharedLibrary_Common.cpp:35-40 *)
  Definition x_destroy_error_string (a : Z) : code unit :=
    if a =? 0 then value tt else let! o := read a in match o with OChars _ => delete a | _ => undef end.
  (** SharedLibrary_Common.cpp:42-55 *)
  Definition x_destroy_error (h : Z) : code unit :=
    let! p := get h in let! _ := remove h in let! o := read p in match o with OText _ => delete p | _ => undef end.

  (** As [step] in M_CApi. *)
  Definition program (errors : bool) (c : call) : prog :=
    match c with
    | CreateEstimator out => guarded errors (fun h => AHandle h) (x_create_estimator out)
    | CreateEstimatorDefault out => guarded errors (fun h => AHandle h) (x_create_estimator_default out)
    | DestroyEstimator h => guarded errors (fun _ => ADone) (x_destroy_estimator h)
    | GetState h out => guarded errors (fun x => ACode x) (x_get_state h out)
    | IsTrainingComplete h out => guarded errors (fun x => AFlag x) (x_is_training_complete h out)
    | Fit h x out => guarded errors (fun x => ACode x) (x_fit h x out)
    | FitBuffer h xs out => guarded errors (fun x => ACode x) (x_fit_buffer h xs out)
    | OnDataCompleted h => guarded errors (fun _ => ADone) (x_est_call (on_data_completed I) h)
    | CompleteTraining h => guarded errors (fun _ => ADone) (x_est_call (complete_training I) h)
    | CreateTransformer h out => guarded errors (fun h => AHandle h) (x_create_transformer h out)
    | LoadTransformer b out => guarded errors (fun h => AHandle h) (x_load b out)
    | DestroyTransformer h => guarded errors (fun _ => ADone) (x_destroy_transformer h)
    | SaveTransformer h out => guarded errors (@block Val) (x_save h out)
    | DestroySaveData a n => guarded errors (fun _ => ADone) (x_destroy_save_data a n)
    | Transform h x out => guarded errors (fun v => AValue v) (x_transform h x out)
    | TransformMany h x out => guarded errors (@block Val) (x_transform_many h x out)
    | Flush h out => guarded errors (@block Val) (x_flush h out)
    | DestroyTransformed a n => guarded errors (fun _ => ADone) (x_destroy_transformed a n)
    | GetErrorString h out => if (h =? 0) || negb out then Ret (CFalse None) else unguarded (fun a => ABlock a 0) (x_get_error_string h)
    | DestroyErrorString a => unguarded (fun _ => ADone) (x_destroy_error_string a)
    | DestroyError h => if h =? 0 then Ret (CFalse None) else unguarded (fun _ => ADone) (x_destroy_error h)
    end.

  (** *** Threads *)
  (** A thread is in none of the functions, or before a step of one, or in a method of the pointer table. *)
  Inductive place := Idle | At (p : prog) | In_table (q : tpc) (k : res Z -> prog).
  Record conf := mkConf { c_lock : option nat; c_table : ptable; c_heap : list (Z * obj); c_threads : nat -> place }.
  Definition c_start : conf := mkConf None [] [] (fun _ => Idle).

  (** A step of the program: the allocator may return any unused address but null; an access to an address that is not allocated is undefined. *)
  Inductive heap_move : list (Z * obj) * prog -> list (Z * obj) * prog -> Prop :=
  | do_new (hp : list (Z * obj)) (o : obj) (k : Z -> prog) (a : Z) : a <> 0 -> h_find hp a = None -> heap_move (hp, New o k) ((a, o) :: hp, k a)
  | do_read (hp : list (Z * obj)) (a : Z) (k : obj -> prog) (o : obj) : h_find hp a = Some o -> heap_move (hp, Read a k) (hp, k o)
  | bad_read (hp : list (Z * obj)) (a : Z) (k : obj -> prog) : h_find hp a = None -> heap_move (hp, Read a k) (hp, Ret CUB)
  | do_write (hp : list (Z * obj)) (a : Z) (o x : obj) (k : prog) : h_find hp a = Some x -> heap_move (hp, Write a o k) (h_store hp a o, k)
  | bad_write (hp : list (Z * obj)) (a : Z) (o : obj) (k : prog) : h_find hp a = None -> heap_move (hp, Write a o k) (hp, Ret CUB)
  | do_delete (hp : list (Z * obj)) (a : Z) (x : obj) (k : prog) : h_find hp a = Some x -> heap_move (hp, Delete a k) (h_free hp a, k)
  | bad_delete (hp : list (Z * obj)) (a : Z) (k : prog) : h_find hp a = None -> heap_move (hp, Delete a k) (hp, Ret CUB).

  (** What can be observed: a thread calls a function, the function returns. *)
  Inductive event := Begins (i : nat) (errors : bool) (c : call) | Returns (i : nat) (x : cres answer).
  Inductive cstep : conf -> list event -> conf -> Prop :=
  | c_begin (c : conf) (i : nat) (errors : bool) (f : call) : c_threads c i = Idle ->
      cstep c [Begins i errors f] (mkConf (c_lock c) (c_table c) (c_heap c) (put (c_threads c) i (At (program errors f))))
  | c_heap_step (c : conf) (i : nat) (p p' : prog) (hp' : list (Z * obj)) : c_threads c i = At p -> heap_move (c_heap c, p) (hp', p') ->
      cstep c [] (mkConf (c_lock c) (c_table c) hp' (put (c_threads c) i (At p')))
  | c_enter (c : conf) (i : nat) (o : tcall) (k : res Z -> prog) : c_threads c i = At (Table o k) ->
      cstep c [] (mkConf (c_lock c) (c_table c) (c_heap c) (put (c_threads c) i (In_table (Entered o) k)))
  | c_table_step (c : conf) (i : nat) (q q' : tpc) (k : res Z -> prog) (l' : option nat) (t' : ptable) : c_threads c i = In_table q k ->
      table_move i (c_lock c, c_table c, q) (l', t', q') ->
      cstep c [] (mkConf l' t' (c_heap c) (put (c_threads c) i (In_table q' k)))
  | c_leave (c : conf) (i : nat) (r : res Z) (k : res Z -> prog) : c_threads c i = In_table (Left r) k ->
      cstep c [] (mkConf (c_lock c) (c_table c) (c_heap c) (put (c_threads c) i (At (k r))))
  | c_return (c : conf) (i : nat) (x : cres answer) : c_threads c i = At (Ret x) ->
      cstep c [Returns i x] (mkConf (c_lock c) (c_table c) (c_heap c) (put (c_threads c) i Idle)).
  Inductive cruns : conf -> list event -> conf -> Prop :=
  | cruns_none (c : conf) : cruns c [] c
  | cruns_more (c : conf) (es es' : list event) (c' c2 : conf) : cruns c es c' -> cstep c' es' c2 -> cruns c (es ++ es') c2.
End Conc.
