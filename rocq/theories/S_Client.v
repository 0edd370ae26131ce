(** Specification for clients of the C interface (C82): programs that run next to each other, each with its own handles. *)
From Verif Require Import Base M_Estimator M_Pipeline M_CApi S_CApi M_Conc S_Conc M_Featurizer M_Client.
Open Scope Z_scope.

(** ** Threads that keep to their own handles. *)
Section Threads.
  Context {S Tr Arg Val : Type}.
  Notation call := (@call Arg).
  Notation answer := (@answer Val).
  Notation event := (@event Arg Val).
  (** What a thread has called, and what it was answered. *)
  Definition calls_of (i : nat) (hist : list event) : list (bool * call) :=
    flat_map (fun e => match e with Begins j errors c => if Nat.eqb j i then [(errors, c)] else [] | Returns _ _ => [] end) hist.
  Definition answers_of (i : nat) (hist : list event) : list (cres answer) :=
    flat_map (fun e => match e with Returns j x => if Nat.eqb j i then [x] else [] | Begins _ _ _ => [] end) hist.
  (** What can be passed to the functions: handles and memory blocks. *)
  Inductive thing := AHandleOf (h : Z) | ABlockAt (a : Z).
  (** The thing that a call is about, and the one that an answer gives to the caller. *)
  Definition about (c : call) : option thing :=
    match handle_of c with
    | Some h => Some (AHandleOf h)
    | None => match block_of c with Some a => Some (ABlockAt a) | None => None end
    end.
  Definition gives (x : cres answer) : option thing :=
    match x with
    | CTrue (AHandle h) | CFalse (Some h) => Some (AHandleOf h)
    | CTrue (ABlock a _) => if a =? 0 then None else Some (ABlockAt a)
    | _ => None
    end.
  Definition same_thing (t u : thing) : bool :=
    match t, u with AHandleOf h, AHandleOf k | ABlockAt h, ABlockAt k => h =? k | _, _ => false end.
  (** The thread to which it was given last. *)
  Definition holder (hist : list event) (t : thing) : option nat :=
    fold_left (fun o e => match e with
                          | Returns j x => match gives x with Some u => if same_thing u t then Some j else o | None => o end
                          | Begins _ _ _ => o
                          end) hist None.
  (** Every thread uses only what it was given itself. *)
  Definition own_things (hist : list event) : Prop :=
    forall past j errors c future t, hist = past ++ Begins j errors c :: future -> about c = Some t -> holder past t = Some j.
  (** The calls that have been answered. *)
  Definition answered_calls (i : nat) (hist : list event) : list (bool * call) := firstn (length (answers_of i hist)) (calls_of i hist).
End Threads.

(** ** Programs. *)
Section Programs.
  Context {S Tr Arg Val : Type}.
  Notation call := (@call Arg).
  Notation answer := (@answer Val).
  (** A program makes these calls, is answered like this, and has come as far as [p']. *)
  Inductive plays {R} : client (Arg := Arg) (Val := Val) R -> list (bool * call) -> list (cres answer) -> client R -> Prop :=
  | plays_no p : plays p [] [] p
  | plays_on c k x l xs p : plays (k x) l xs p -> plays (Calls c k) ((true, c) :: l) (x :: xs) p.
  (** The same, while its last call may not have been answered yet. *)
  Inductive under_way {R} : client (Arg := Arg) (Val := Val) R -> list (bool * call) -> list (cres answer) -> Prop :=
  | under_way_no p : under_way p [] []
  | under_way_waits c k : under_way (Calls c k) [(true, c)] []
  | under_way_on c k x l xs : under_way (k x) l xs -> under_way (Calls c k) ((true, c) :: l) (x :: xs).
  Definition ended {R} (p : client (Arg := Arg) (Val := Val) R) : Prop := match p with Calls _ _ => False | _ => True end.
  (** It ends with [v], or because a call was refused with the text of [e]. *)
  Definition ends_with {R} (what : exn -> list Z) (L : @ledger S Tr) (r : res R) (p : client (Arg := Arg) (Val := Val) R) : Prop :=
    match r with
    | Ok v => p = Ends v
    | Throw e => exists h, p = Fails (CFalse (Some h)) /\ live L h = Some (OText (what e))
    | UB => p = Fails CUB
    end.
  (** The caller holds the same things. *)
  Definition same_things (L L' : @ledger S Tr) : Prop := (forall h, live L' h = live L h) /\ (forall a, given L' a = given L a).
End Programs.

(** ** What a program that trains and transforms must end with: the values of the C++ objects. *)
Section Values.
  Context {S In Tr Arg Val : Type}.
  Variable I : impl S In Tr.
  Variable construct : res S.
  Variable value_of : Arg -> res In.
  Variable exec_one : Tr -> In -> Tr * res Val.
  (** The transformer that training in C++ gives (TestHelpers.h:43-75 with one value in each batch); None: not within [fuel] rounds. *)
  Definition trained_in_cpp (fuel : nat) (vs : list In) : option (res Tr) :=
    match construct with
    | Ok s =>
        match vs with
        | [] => Some (do e1 <- ok1 (begin_training I (est_new s)); do e2 <- ok1 (complete_training I (fst e1)); snd (create_transformer I (fst e2)))
        | _ => match train I (map (fun v => [v]) vs) fuel (est_new s) with
               | None => None
               | Some r => Some (do e <- r; snd (create_transformer I e))
               end
        end
    | Throw e => Some (Throw e)
    | UB => Some UB
    end.
  (** One value after the other. *)
  Fixpoint executed (t : Tr) (xs : list Arg) {struct xs} : res (list Val) :=
    match xs with
    | [] => Ok []
    | x :: rest => do v <- value_of x; let (t', r) := exec_one t v in do y <- r; do ys <- executed t' rest; Ok (y :: ys)
    end.
End Values.

(** ** What the threads do. *)
Section Jobs.
  Context {S In Tr Arg Val : Type}.
  Variable I : impl S In Tr.
  Variable construct : res S.
  Variable value_of : Arg -> res In.
  Variable load_tr : list Z -> res Tr.
  Variable exec_one : Tr -> In -> Tr * res Val.
  Inductive job := Tests (fuel : nat) (rows xs : list Arg) | Loads (bytes : list Z) (xs : list Arg).
  Definition program_of (j : job) : client (Arg := Arg) (Val := Val) (list Val) :=
    match j with Tests fuel rows xs => tester fuel rows xs | Loads bytes xs => loader bytes xs end.
  (** The result that the C++ objects give; None: the training does not end within [fuel] rounds, a training row is no value, or there are no
      bytes. *)
  Definition job_result (j : job) : option (res (list Val)) :=
    match j with
    | Tests fuel rows xs =>
        match mapM value_of rows with
        | Ok vs => match trained_in_cpp I construct fuel vs with Some r => Some (do t <- r; executed value_of exec_one t xs) | None => None end
        | _ => None
        end
    | Loads bytes xs => match bytes with [] => None | _ => Some (do t <- load_tr bytes; executed value_of exec_one t xs) end
    end.
  (** It makes no more calls than this. *)
  Definition job_calls (j : job) : nat := match j with Tests fuel _ xs => 3 * fuel + length xs + 6 | Loads _ xs => length xs + 2 end.
End Jobs.

(** ** The library's featurizers behind the C interface. *)
(** The estimators that CreateEstimator makes: new annotation maps of one column (MeanImputerFeaturizer_int8_CreateEstimator: AnnotationMaps(1), 0). *)
Definition new_featurizer {V Ann Tr} (steps : list (fstep V Ann Tr)) : res (ann_maps Ann * list (selem V Ann Tr)) := Ok ([[]], map (fresh 0) steps).
(** A client that trains with [rows] and transforms [xs] has the result [r], however large the bound on its rounds. *)
Definition client_gives {V Ann Tr Arg Val} (steps : list (fstep V Ann Tr)) (exec : Tr -> V -> Tr * res Val) (value_of : Arg -> res V) (rows xs : list Arg) (r : res (list Val)) : Prop :=
  forall apply load_tr, exists n, forall fuel, (n <= fuel)%nat ->
    job_result (featurizer_impl apply) (new_featurizer steps) value_of load_tr (exec_single exec) (Tests fuel rows xs) = Some r.
