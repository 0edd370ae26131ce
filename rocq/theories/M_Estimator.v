(** Model of src/Featurizer.h: the estimator life cycle and annotations; and of
    src/Featurizers/Components/TrainingOnlyEstimatorImpl.h. *)
From Verif Require Import Base.

(** Featurizer.h:329-334. *)
Inductive tstate := Pending | Training | Finished | Completed.
(** Featurizer.h:340-344. *)
Inductive fit_result := FitComplete | FitContinue | FitReset.

(** The virtual methods of a concrete estimator.  Each returns its (possibly changed) own state together with the outcome,
    so that an implementation that throws half-way may still have changed itself. *)
Record impl (S In Tr : Type) := mkImpl {
  i_begin    : S -> S * res bool;                     (* begin_training_impl *)
  i_fit      : S -> list In -> S * res fit_result;    (* fit_impl *)
  i_on_data  : S -> S * res bool;                     (* on_data_completed_impl *)
  i_complete : S -> S * res unit;                     (* complete_training_impl *)
  i_create   : S -> S * res (option Tr)               (* create_transformer_impl; None is a null pointer *)
}.
Arguments i_begin {S In Tr}. Arguments i_fit {S In Tr}. Arguments i_on_data {S In Tr}.
Arguments i_complete {S In Tr}. Arguments i_create {S In Tr}. Arguments mkImpl {S In Tr}.

(** A [TransformerEstimator] object: Featurizer.h:736-746 (initial state), [_state], [_createdTransformer]. *)
Record est (S : Type) := mkEst { e_state : tstate; e_created : bool; e_impl : S }.
Arguments mkEst {S}. Arguments e_state {S}. Arguments e_created {S}. Arguments e_impl {S}.
Definition est_new {S} (s : S) : est S := mkEst Pending false s.

Section Lifecycle.
  Context {S In Tr : Type}.
  Variable I : impl S In Tr.

  (** Featurizer.h:753-764. *)
  Definition begin_training (e : est S) : est S * res unit :=
    match e_state e with
    | Pending =>
        let (s, r) := i_begin I (e_impl e) in
        match r with
        | Ok true => (mkEst Training (e_created e) s, Ok tt)
        | Ok false => (mkEst Finished (e_created e) s, Ok tt)
        | Throw x => (mkEst (e_state e) (e_created e) s, Throw x)
        | UB => (mkEst (e_state e) (e_created e) s, UB)
        end
    | _ => (e, Throw RuntimeError)
    end.

  (** Featurizer.h:778-795.  [None] is a null pointer. *)
  Definition fit (e : est S) (items : option (list In)) : est S * res fit_result :=
    match e_state e with
    | Training =>
        match items with
        | None => (e, Throw InvalidArgument)
        | Some [] => (e, Throw InvalidArgument)
        | Some xs =>
            let (s, r) := i_fit I (e_impl e) xs in
            match r with
            | Ok FitComplete => (mkEst Finished (e_created e) s, Ok FitComplete)
            | Ok f => (mkEst Training (e_created e) s, Ok f)
            | Throw x => (mkEst Training (e_created e) s, Throw x)
            | UB => (mkEst Training (e_created e) s, UB)
            end
        end
    | _ => (e, Throw RuntimeError)
    end.

  (** Featurizer.h:801-810. *)
  Definition on_data_completed (e : est S) : est S * res unit :=
    match e_state e with
    | Training =>
        let (s, r) := i_on_data I (e_impl e) in
        match r with
        | Ok true => (mkEst Finished (e_created e) s, Ok tt)
        | Ok false => (mkEst Training (e_created e) s, Ok tt)
        | Throw x => (mkEst Training (e_created e) s, Throw x)
        | UB => (mkEst Training (e_created e) s, UB)
        end
    | Finished => (e, Ok tt)
    | _ => (e, Throw RuntimeError)
    end.

  (** Featurizer.h:812-821. *)
  Definition complete_training (e : est S) : est S * res unit :=
    match e_state e with
    | Training | Finished =>
        let (s, r) := i_complete I (e_impl e) in
        match r with
        | Ok _ => (mkEst Completed (e_created e) s, Ok tt)
        | Throw x => (mkEst (e_state e) (e_created e) s, Throw x)
        | UB => (mkEst (e_state e) (e_created e) s, UB)
        end
    | _ => (e, Throw RuntimeError)
    end.

  (** Featurizer.h:842-857. *)
  Definition create_transformer (e : est S) : est S * res Tr :=
    match e_state e with
    | Completed =>
        if e_created e then (e, Throw RuntimeError)
        else let (s, r) := i_create I (e_impl e) in
             match r with
             | Ok (Some t) => (mkEst Completed true s, Ok t)
             | Ok None => (mkEst Completed false s, Throw RuntimeError)
             | Throw x => (mkEst Completed false s, Throw x)
             | UB => (mkEst Completed false s, UB)
             end
    | _ => (e, Throw RuntimeError)
    end.

  (** Histories of calls; exceptions are caught by the caller, who goes on using the object. *)
  Inductive eop := OBegin | OFit (items : option (list In)) | OOnData | OComplete | OCreate.
  Inductive eout := EUnit | EFit (f : fit_result) | ETransformer (t : Tr) | EThrow (x : exn) | EUB.

  Definition eout_of {A} (f : A -> eout) (r : res A) : eout :=
    match r with Ok a => f a | Throw x => EThrow x | UB => EUB end.
  Definition estep (e : est S) (o : eop) : est S * eout :=
    match o with
    | OBegin => let (e', r) := begin_training e in (e', eout_of (fun _ => EUnit) r)
    | OFit xs => let (e', r) := fit e xs in (e', eout_of EFit r)
    | OOnData => let (e', r) := on_data_completed e in (e', eout_of (fun _ => EUnit) r)
    | OComplete => let (e', r) := complete_training e in (e', eout_of (fun _ => EUnit) r)
    | OCreate => let (e', r) := create_transformer e in (e', eout_of ETransformer r)
    end.
  (** The objects after each call (oldest first) with the outcomes. *)
  Fixpoint erun (e : est S) (ops : list eop) : list (est S * eout) :=
    match ops with
    | [] => []
    | o :: r => let (e', x) := estep e o in (e', x) :: erun e' r
    end.
End Lifecycle.
Arguments eop : clear implicits. Arguments eout : clear implicits.

(** ** Annotations: Featurizer.h:640-701.
    An annotation is a value with its dynamic type; a column maps names to the annotations added, oldest first.
    Names are byte strings; the map per column is an association list without duplicate names. *)
Section Annotations.
  Context {Ann : Type}.
  Definition name := list Z.
  Definition ann_col := list (name * list Ann).
  Definition ann_maps := list ann_col.

  Fixpoint name_eqb (a b : name) : bool :=
    match a, b with
    | [], [] => true
    | x :: a', y :: b' => (x =? y) && name_eqb a' b'
    | _, _ => false
    end.

  (** [find] and the insertion of an empty list when the name is missing, then [emplace_back]: Featurizer.h:649-670. *)
  Fixpoint col_add (c : ann_col) (n : name) (a : Ann) : ann_col :=
    match c with
    | [] => [(n, [a])]
    | (m, l) :: r => if name_eqb m n then (m, l ++ [a]) :: r else (m, l) :: col_add r n a
    end.
  Fixpoint nth_update {A} (l : list A) (i : nat) (f : A -> A) : list A :=
    match l, i with
    | [], _ => []
    | x :: r, O => f x :: r
    | x :: r, S i' => x :: nth_update r i' f
    end.
  (** Featurizer.h:640-671; [None] is a null annotation pointer. *)
  Definition add_annotation (m : ann_maps) (a : option Ann) (col : nat) (n : name) : res ann_maps :=
    match a with
    | None => Throw InvalidArgument
    | Some x => if Nat.leb (length m) col then Throw InvalidArgument
                else Ok (nth_update m col (fun c => col_add c n x))
    end.

  Fixpoint col_find (c : ann_col) (n : name) : option (list Ann) :=
    match c with
    | [] => None
    | (m, l) :: r => if name_eqb m n then Some l else col_find r n
    end.
  (** Featurizer.h:677-701 [get_annotation_impl]; [is_t] is the [dynamic_cast] test, [None] the null result, a null name
      is modelled as the empty one. *)
  Definition get_annotation (is_t : Ann -> bool) (m : ann_maps) (col : nat) (n : name) : res (option Ann) :=
    if Nat.leb (length m) col then Throw InvalidArgument
    else match n with
         | [] => Throw InvalidArgument
         | _ => match col_find (nth col m []) n with
                | None => Ok None
                | Some l => Ok (find is_t l)
                end
         end.
  (** TrainingOnlyEstimatorImpl.h:304-312 [get_annotation_data]. *)
  Definition get_annotation_data (is_t : Ann -> bool) (m : ann_maps) (col : nat) (n : name) : res Ann :=
    do o <- get_annotation is_t m col n;
    match o with None => Throw RuntimeError | Some a => Ok a end.

  (** A history of additions, failures caught. *)
  Definition add_step (m : ann_maps) (o : option Ann * nat * name) : ann_maps :=
    match add_annotation m (fst (fst o)) (snd (fst o)) (snd o) with Ok m' => m' | _ => m end.
  Definition add_run (m : ann_maps) (ops : list (option Ann * nat * name)) : ann_maps := fold_left add_step ops m.
End Annotations.
Arguments ann_col : clear implicits. Arguments ann_maps : clear implicits.

(** ** TrainingOnlyEstimatorImpl over an arbitrary policy. *)
Record policy (P In A : Type) := mkPolicy {
  p_init : P;
  p_begin : P -> res (P * bool);        (* EstimatorPolicyT::begin_training, or "return true" without one *)
  p_fit : P -> In -> res P;             (* EstimatorPolicyT::fit(item) *)
  p_complete : P -> res A               (* EstimatorPolicyT::complete_training *)
}.
Arguments p_init {P In A}. Arguments p_begin {P In A}. Arguments p_fit {P In A}. Arguments p_complete {P In A}.
Arguments mkPolicy {P In A}.

(** A policy without a [begin_training] method (TrainingOnlyEstimatorImpl.h:364-368). *)
Definition simple_policy {P In A} (init : P) (f : P -> In -> res P) (c : P -> res A) : policy P In A :=
  mkPolicy init (fun p => Ok (p, true)) f c.

Section TrainingOnly.
  Context {P In A : Type}.
  Variable pol : policy P In A.
  Variable max_items : nat.          (* MaxNumTrainingItemsV *)

  (** The object's own state: policy state, [_requiresTraining], [_hasAnnotation], [_cRemainingTrainingItems], and the
      annotation of this column and name, [None] while there is none.  Lines 43-60, 273-282. *)
  Record tonly := mkT { t_pol : P; t_required : bool; t_has : bool; t_remaining : nat; t_ann : option A }.
  Definition tonly_new (required : bool) (existing : option A) : tonly :=
    mkT (p_init pol) required false max_items existing.

  (** Lines 343-368. *)
  Definition t_begin (s : tonly) : tonly * res bool :=
    if negb (t_required s) then (s, Ok false)
    else match t_ann s with
         | Some _ => (mkT (t_pol s) (t_required s) true (t_remaining s) (t_ann s), Ok false)
         | None => match p_begin pol (t_pol s) with
                   | Ok (p, b) => (mkT p (t_required s) false (t_remaining s) (t_ann s), Ok b)
                   | Throw x => (mkT (t_pol s) (t_required s) false (t_remaining s) (t_ann s), Throw x)
                   | UB => (s, UB)
                   end
         end.

  (** Lines 399-405: one call of the policy per item; items before a throwing one stay fitted. *)
  Fixpoint fit_items (p : P) (xs : list In) : P * res unit :=
    match xs with
    | [] => (p, Ok tt)
    | x :: r => match p_fit pol p x with
                | Ok p' => fit_items p' r
                | Throw e => (p, Throw e)
                | UB => (p, UB)
                end
    end.
  (** Lines 370-386. *)
  Definition t_fit (s : tonly) (xs : list In) : tonly * res fit_result :=
    let n := Nat.min (t_remaining s) (length xs) in
    match fit_items (t_pol s) (firstn n xs) with
    | (p, Ok _) =>
        let rem := (t_remaining s - n)%nat in
        (mkT p (t_required s) (t_has s) rem (t_ann s), Ok (if Nat.eqb rem 0 then FitComplete else FitContinue))
    | (p, Throw x) => (mkT p (t_required s) (t_has s) (t_remaining s) (t_ann s), Throw x)
    | (p, UB) => (mkT p (t_required s) (t_has s) (t_remaining s) (t_ann s), UB)
    end.
  (** Lines 411-416. *)
  Definition t_complete (s : tonly) : tonly * res unit :=
    if t_has s then (s, Ok tt)
    else match p_complete pol (t_pol s) with
         | Ok a => (mkT (t_pol s) (t_required s) (t_has s) (t_remaining s)
                        (match t_ann s with None => Some a | Some b => Some b end), Ok tt)
         | Throw x => (s, Throw x)
         | UB => (s, UB)
         end.

  (** As an estimator; [on_data_completed_impl] is the default (Featurizer.h:826-830); no transformer is created. *)
  Definition tonly_impl : impl tonly In Empty_set :=
    mkImpl t_begin t_fit (fun s => (s, Ok true)) t_complete (fun s => (s, Ok None)).

  (** How the library and its clients train: begin, [fit] batch after batch while the estimator is in the Training
      state, [on_data_completed], [complete_training]; the first exception ends it. *)
  Fixpoint feed (e : est tonly) (batches : list (list In)) : res (est tonly) :=
    match batches with
    | [] => Ok e
    | b :: r => match e_state e with
                | Training => let (e', x) := fit tonly_impl e (Some b) in do _ <- x; feed e' r
                | _ => Ok e
                end
    end.
  Definition train_batches (e : est tonly) (batches : list (list In)) : res (est tonly) :=
    let (e1, r1) := begin_training tonly_impl e in
    do _ <- r1;
    do e2 <- feed e1 batches;
    let (e3, r3) := on_data_completed tonly_impl e2 in
    do _ <- r3;
    let (e4, r4) := complete_training tonly_impl e3 in
    do _ <- r4; Ok e4.
  (** The annotation a training run leaves, starting from a fresh estimator. *)
  Definition trained (batches : list (list In)) : res (option A) :=
    do e <- train_batches (est_new (tonly_new true None)) batches; Ok (t_ann (e_impl e)).
End TrainingOnly.
