(** Model of src/Featurizers/Components/GrainFeaturizerImpl.h. *)
From Verif Require Import Base M_Archive M_Codec M_Estimator M_Stats M_Pipeline M_Keyed.

(** ** GrainTransformer.
    The inner transformer is arbitrary: its state, [execute], [flush], [save] and archive constructor.  [_createFunc] is a function
    without effects of its own, so it is represented by what it returns (a transformer, or an exception); [None] is an empty
    [std::function].  After an exception the object is not used further, so what it leaves behind is not modelled. *)
Section GrainTransformer.
  Context {K S A B : Type}.
  Variable keqb klt : K -> K -> bool.                   (* GrainT: equality, operator< *)
  Variable kenc : K -> list Z.                          (* Traits<GrainT>::serialize, deserialize *)
  Variable kdec : parser K.
  Variable exec : S -> A -> list B * res S.
  Variable flush : S -> list B * res S.
  Variable save : S -> list Z.
  Variable load : parser S.

  (** 142-150: [_hadTransformersWhenCreated], [_transformers] in map order, [_createFunc]. *)
  Record grain := mkGrain { g_had : bool; g_map : list (K * S); g_create : option (res S) }.

  (** 548-562; the map is filled by [emplace] in create_transformer_impl (452-456). *)
  Definition grain_of_map (m : list (K * S)) (create : option (res S)) : res grain :=
    match m with [] => Throw InvalidArgument | _ => Ok (mkGrain true m create) end.
  (** 533-546. *)
  Definition grain_of_create (create : option (res S)) : res grain :=
    match create with None => Throw InvalidArgument | Some _ => Ok (mkGrain false [] create) end.

  (** 160-192: the grain's own transformer, created when there is none. *)
  Definition grain_step (create : option (res S)) (k : K) (o : option S) (a : A) : list B * res S :=
    match o with
    | Some s => exec s a
    | None => match create with
              | None => ([], Throw RuntimeError)
              | Some (Ok s) => exec s a
              | Some (Throw e) => ([], Throw e)
              | Some UB => ([], UB)
              end
    end.
  Definition grain_exec (g : grain) (x : K * A) : list (K * B) * res grain :=
    let (o, r) := keyed_exec keqb klt (grain_step (g_create g)) (g_map g) x in
    (o, do m <- r; Ok (mkGrain (g_had g) m (g_create g))).
  (** 195-203. *)
  Definition grain_flush (g : grain) : list (K * B) * res grain :=
    let (o, r) := keyed_flush flush (g_map g) in (o, do m <- r; Ok (mkGrain (g_had g) m (g_create g))).
  Definition grain_tr (g : grain) : transformer (K * A) (K * B) := mkTr grain g grain_exec grain_flush.

  (** 610-630. *)
  Definition grain_save (g : grain) : res (list Z) :=
    do tail <- match g_create g with
               | None => Ok (le_bytes 1 0)
               | Some c => do s <- c; Ok (le_bytes 1 1 ++ save s)
               end;
    Ok ((if g_had g then le_bytes 8 (Z.of_nat (length (g_map g))) ++ flat_map (fun p => kenc (fst p) ++ save (snd p)) (g_map g)
         else le_bytes 8 0) ++ tail).

  (** 571-579. *)
  Fixpoint load_entries (n : nat) (m : list (K * S)) : parser (list (K * S)) := fun bs =>
    match n with
    | O => Ok (m, bs)
    | Datatypes.S n' =>
        do k <- kdec bs;
        do s <- load (snd k);
        match k_find keqb m (fst k) with
        | Some _ => Throw RuntimeError
        | None => load_entries n' (k_set keqb klt m (fst k) (fst s)) (snd s)
        end
    end.
  (** 564-593 with the constructors it ends in: 548-562 and then the move constructor 595-608 (the archive of such an object is
      a default one, in serializing mode: no create function), or 635-652 and the move constructor (which rebuilds the create
      function, 654-663: an archive constructor run on a copy of the bytes that were left).  [ar.clone()] (Archive.h:209-217)
      throws when no bytes are left, and does not move the position of [ar]. *)
  Definition grain_load : parser grain := fun bs =>
    do n <- get_fixed 8 bs;
    do m <- load_entries (Z.to_nat (fst n)) [] (snd n);
    do c <- get_bool (snd m);
    if negb (fst c) then
      match fst m with
      | [] => Throw RuntimeError
      | _ => do g <- grain_of_map (fst m) None; Ok (g, snd c)
      end
    else match snd c with
         | [] => Throw RuntimeError
         | rest => Ok (mkGrain (match fst m with [] => true | _ => false end) (fst m) (Some (do s <- load rest; Ok (fst s))), snd c)
         end.
End GrainTransformer.
Arguments grain : clear implicits. Arguments mkGrain {K S}. Arguments g_had {K S}. Arguments g_map {K S}. Arguments g_create {K S}.

(** ** GrainEstimatorImpl.
    The inner estimator is an arbitrary [impl]; [s0] is the state of a newly made one.  Simplifications: the column annotations are
    not shared but read off the inner estimator's state ([ann]) when it has completed its training, which is where 808-853
    take the one annotation it has added; the checks of 820-845 that fail when an inner estimator adds several annotations, or to
    several columns, are omitted, as is the case that an annotation of that name exists beforehand. *)
Section GrainEstimator.
  Context {K S In Tr Ann : Type}.
  Variable keqb klt : K -> K -> bool.
  Variable I : impl S In Tr.
  Variable s0 : S.
  Variable ann : S -> option Ann.
  Variable max_items : nat.                             (* MaxNumTrainingItemsV *)

  (** 261-276; [ge_ann] is the GrainEstimatorAnnotation added, if any. *)
  Record gest := mkGest { ge_map : list (K * est S); ge_inference : bool; ge_remaining : nat; ge_ann : option (list (K * Ann)) }.
  Definition gest_new (inference_only : bool) : gest := mkGest [] inference_only max_items None.
  (** 725-727. *)
  Definition ge_begin (g : gest) : gest * res bool := (g, Ok (negb (ge_inference g) && negb (Nat.eqb (ge_remaining g) 0))).
  (** 735-760: one item. *)
  Definition ge_step (k : K) (o : option (est S)) (x : In) : list Empty_set * res (est S) :=
    ([], do e <- match o with
                 | Some e => Ok e
                 | None => let (e, r) := begin_training I (est_new s0) in do _ <- r; Ok e
                 end;
         match e_state e with
         | Training => let (e', r) := fit I e (Some [x]) in
                       do f <- r; match f with FitReset => Throw RuntimeError | _ => Ok e' end
         | _ => Ok e
         end).
  (** 729-767. *)
  Definition ge_fit (g : gest) (xs : list (K * In)) : gest * res fit_result :=
    let n := Nat.min (ge_remaining g) (length xs) in
    match snd (M_Pipeline.feed (keyed_exec keqb klt ge_step) (ge_map g) (firstn n xs)) with
    | Ok m => let rem := (ge_remaining g - n)%nat in
              (mkGest m (ge_inference g) rem (ge_ann g), Ok (if Nat.eqb rem 0 then FitComplete else FitContinue))
    | Throw e => (g, Throw e)
    | UB => (g, UB)
    end.
  (** 808-853, in key order. *)
  Fixpoint ge_complete_all (m : list (K * est S)) : res (list (K * est S) * list (K * Ann)) :=
    match m with
    | [] => Ok ([], [])
    | (k, e) :: r =>
        let (e', x) := complete_training I e in
        do _ <- x;
        do p <- ge_complete_all r;
        Ok ((k, e') :: fst p, match ann (e_impl e') with Some a => (k, a) :: snd p | None => snd p end)
    end.
  (** 770, 855-856. *)
  Definition ge_complete (g : gest) : gest * res unit :=
    match ge_complete_all (ge_map g) with
    | Ok (m, a) => (mkGest m (ge_inference g) (ge_remaining g) (match a with [] => ge_ann g | _ => Some a end), Ok tt)
    | Throw e => (g, Throw e)
    | UB => (g, UB)
    end.
  (** 452-469; [create] is [_createTransformerFunc].  [true]/[false] as in the two constructors of GrainTransformer. *)
  Fixpoint ge_create_all (m : list (K * est S)) : res (list (K * est S) * list (K * Tr)) :=
    match m with
    | [] => Ok ([], [])
    | (k, e) :: r =>
        let (e', x) := create_transformer I e in
        do t <- x; do p <- ge_create_all r; Ok ((k, e') :: fst p, (k, t) :: snd p)
    end.
  Definition ge_create (create : option (res Tr)) (g : gest) : gest * res (option (grain K Tr)) :=
    match ge_create_all (ge_map g) with
    | Ok (m, ts) =>
        (mkGest m (ge_inference g) (ge_remaining g) (ge_ann g),
         match ts, create with
         | [], None => Throw RuntimeError
         | [], Some c => do t <- grain_of_create (Some c); Ok (Some t)
         | _, c => do t <- grain_of_map ts c; Ok (Some t)
         end)
    | Throw e => (g, Throw e)
    | UB => (g, UB)
    end.
  (** [on_data_completed_impl] is the default of Featurizer.h:826-830. *)
  Definition grain_impl (create : option (res Tr)) : impl gest (K * In) (grain K Tr) :=
    mkImpl ge_begin ge_fit (fun g => (g, Ok true)) ge_complete (ge_create create).
End GrainEstimator.
Arguments gest : clear implicits. Arguments mkGest {K S Ann}. Arguments ge_map {K S Ann}. Arguments ge_remaining {K S Ann}. Arguments ge_ann {K S Ann}. Arguments ge_inference {K S Ann}.

(** The grain type of the library's own grained featurizers, std::vector<std::string> (e.g. LagLeadOperatorFeaturizer.h:181,
    SimpleRollingWindowFeaturizer.h:148, FrequencyEstimator.h:115): lexicographic operator<, and Traits (Traits.h:834-858, 928-954). *)
Section Lex.
  Context {T : Type}.
  Variable eqb lt : T -> T -> bool.
  Fixpoint list_eqb (a b : list T) : bool :=
    match a, b with [], [] => true | x :: a', y :: b' => eqb x y && list_eqb a' b' | _, _ => false end.
  Fixpoint lex_lt (a b : list T) : bool :=
    match a, b with
    | _, [] => false
    | [], _ :: _ => true
    | x :: a', y :: b' => if lt x y then true else if lt y x then false else lex_lt a' b'
    end.
End Lex.
Definition names_eqb : list (list Z) -> list (list Z) -> bool := list_eqb (list_eqb Z.eqb).
Definition names_lt : list (list Z) -> list (list Z) -> bool := lex_lt (lex_lt Z.ltb).
Definition names_enc (k : list (list Z)) : list Z := enc (TVector TString) (VList (map VStr k)).
Definition names_dec : parser (list (list Z)) := fun bs =>
  do x <- dec (TVector TString) bs;
  match fst x with
  | VList l => Ok (map (fun v => match v with VStr s => s | _ => [] end) l, snd x)
  | _ => UB
  end.
