(** The window featurizers as they are offered to users: one window per grain.  Models of
    src/Featurizers/{Simple,Analytical}RollingWindowFeaturizer.h, Components/FilterDecoratorFeaturizer.h and of the grained estimator of
    LagLeadOperatorFeaturizer.h, put together from M_Window, M_Grain and M_Pipeline. *)
From Verif Require Import Base M_Archive M_Codec M_Save M_Estimator M_Pipeline M_Keyed M_Grain M_Window.

Section Rolling.
  Context {I O : Type}.
  (** The calculation, given the value of the enumeration; any value a byte can have (loading does not check it).
      Simple (SimpleRollingWindowFeaturizer.h:194-204): 1 is the minimum, every other value the maximum.
      Analytical (AnalyticalRollingWindowFeaturizer.h:192-194): always the mean. *)
  Variable calcs : Z -> list I -> res O.
  Variable null : O.
  (** RollingWindowTransformerBase.h:62-73 and the derived class's _windowCalculation. *)
  Record rw := mkRw { rw_calc : Z; rw_h : nat; rw_mx : nat; rw_mn : nat; rw_buf : cbuf I }.
  (** RollingWindowTransformerBase.h:139-176. *)
  Definition rw_new (c : Z) (h mx mn : nat) : res rw :=
    if Nat.ltb h 1 then Throw InvalidArgument
    else if Nat.ltb mx 1 then Throw InvalidArgument
    else if Nat.ltb mn 1 then Throw InvalidArgument
    else if Nat.ltb mx mn then Throw InvalidArgument
    else do b <- buf_new (Z.to_nat (u32 (Z.of_nat h + Z.of_nat mx))); Ok (mkRw c h mx mn b).
  (** 83-119, 188-192. *)
  Definition rw_step (r : rw) (x : I) : list (list O) * res rw :=
    let (o, q) := rw_exec (calcs (rw_calc r)) null (rw_h r) (rw_mx r) (rw_mn r) (rw_buf r) x in
    (o, do b <- q; Ok (mkRw (rw_calc r) (rw_h r) (rw_mx r) (rw_mn r) b)).
  Definition rw_flush (r : rw) : list (list O) * res rw := ([], Ok (mkRw (rw_calc r) (rw_h r) (rw_mx r) (rw_mn r) (buf_clear (rw_buf r)))).
  (** SimpleRollingWindowFeaturizer.h:247-259 and 213-234, AnalyticalRollingWindowFeaturizer.h:236-248 and 202-223. *)
  Definition rw_layout : ty := TPair (TUInt 1) (TPair (TUInt 4) (TPair (TUInt 4) (TUInt 4))).
  Definition rw_save (r : rw) : list Z :=
    le_bytes 2 1 ++ le_bytes 2 0 ++
    enc rw_layout (VPair (VInt (rw_calc r)) (VPair (VInt (Z.of_nat (rw_h r))) (VPair (VInt (Z.of_nat (rw_mx r))) (VInt (Z.of_nat (rw_mn r)))))).
  Definition rw_load : parser rw := fun bs =>
    do v <- read_version bs;
    do x <- dec rw_layout (snd v);
    match fst x with
    | VPair (VInt c) (VPair (VInt h) (VPair (VInt mx) (VInt mn))) =>
        do r <- rw_new c (Z.to_nat h) (Z.to_nat mx) (Z.to_nat mn); Ok (r, snd x)
    | _ => UB
    end.
  (** The constructor of the inner estimator: SimpleRollingWindowFeaturizer.h:268-303, AnalyticalRollingWindowFeaturizer.h:256-291. *)
  Definition rw_estimator (h mx mn : nat) : res unit :=
    if Nat.ltb h 1 then Throw InvalidArgument
    else if Nat.ltb mx 1 then Throw InvalidArgument
    else if Nat.ltb mn 1 then Throw InvalidArgument
    else if Nat.ltb mx mn then Throw InvalidArgument
    else Ok tt.
End Rolling.
Arguments rw I : clear implicits. Arguments mkRw {I}. Arguments rw_calc {I}. Arguments rw_h {I}. Arguments rw_mx {I}. Arguments rw_mn {I}. Arguments rw_buf {I}.

(** FilterDecoratorFeaturizer.h:56-58 for the tuple (grain, result) and the index 1; flush_impl is the default (no output). *)
Definition decorator {K B : Type} : transformer (K * B) B := mkTr unit tt (fun s x => ([snd x], Ok s)) (fun s => ([], Ok s)).

(** An estimator that is not trained: begin_training says that no data is wanted, fit throws
    (SimpleRollingWindowFeaturizer.h:305-318, AnalyticalRollingWindowFeaturizer.h:293-306, LagLeadOperatorFeaturizer.h:411-424).
    Within the grained estimator it is constructed but never used, since that one wants no data either. *)
Definition untrained_impl {In Tr : Type} (t : res Tr) : impl unit In Tr :=
  mkImpl (fun s => (s, Ok false)) (fun s _ => (s, Throw RuntimeError)) (fun s => (s, Ok true)) (fun s => (s, Ok tt))
         (fun s => (s, do x <- t; Ok (Some x))).

Notation names := (list (list Z)).
Section Grained.
  Context {I O : Type}.
  Variable calcs : Z -> list I -> res O.
  Variable null : O.

  (** GrainedSimpleRollingWindowEstimator (SimpleRollingWindowFeaturizer.h:325-370), GrainedAnalyticalRollingWindowEstimator
      (AnalyticalRollingWindowFeaturizer.h:313-349): what its constructor checks (GrainFeaturizerImpl.h:683-696 makes an inner estimator
      to ask it for its name), the grained estimator of the first stage, and the transformer of the pipeline, given that of the first
      stage. *)
  Definition window_stage (c : Z) (h mx mn : nat) : impl (gest names unit unit) (names * I) (grain names (rw I)) :=
    grain_impl names_eqb names_lt (untrained_impl (rw_new c h mx mn)) tt (fun _ => None) (Some (rw_new c h mx mn)).
  Definition window_tr (g : grain names (rw I)) : transformer (names * I) (list O) :=
    compile (InnerTr (grain_tr names_eqb names_lt (rw_step calcs null) (rw_flush (O := O)) g) (TerminalTr decorator)).
  (** The methods of that object; its state is that of its first stage, the second has none. *)
  Definition window_exec (g : grain names (rw I)) (x : names * I) : list (list O) * res (grain names (rw I)) :=
    let (o, r) := t_exec (window_tr g) (g, tt) x in (o, do s <- r; Ok (fst s)).
  Definition window_flush (g : grain names (rw I)) : list (list O) * res (grain names (rw I)) :=
    let (o, r) := t_flush (window_tr g) (g, tt) in (o, do s <- r; Ok (fst s)).
  (** PipelineExecutionEstimatorImpl_details.h:1015-1018, 1005-1008: the last stage first; InferenceOnlyFeaturizerImpl.h:121-141. *)
  Definition window_save (g : grain names (rw I)) : res (list Z) :=
    do x <- grain_save names_enc (rw_save (I := I)) g; Ok (le_bytes 2 1 ++ le_bytes 2 0 ++ x).
  Definition window_load : parser (grain names (rw I)) := fun bs =>
    do v <- read_version bs; grain_load names_eqb names_lt names_dec (rw_load (I := I)) (snd v).
End Grained.

Section GrainedLag.
  Context {T : Type}.
  Variable null : T.
  (** GrainedLagLeadOperatorEstimator: LagLeadOperatorFeaturizer.h:432-465; the inner estimator's constructor 384-409. *)
  Definition lag_estimator (horizon : Z) (deltas : list Z) : res unit :=
    if horizon =? 0 then Throw InvalidArgument else match deltas with [] => Throw InvalidArgument | _ => Ok tt end.
  Definition lag_stage (horizon : Z) (deltas : list Z) : impl (gest names unit unit) (names * T) (grain names (lag T)) :=
    grain_impl names_eqb names_lt (untrained_impl (lag_new null horizon deltas)) tt (fun _ => None) (Some (lag_new null horizon deltas)).
  Definition lag_tr (g : grain names (lag T)) : transformer (names * T) (names * list (list T)) :=
    grain_tr names_eqb names_lt (lag_step (T := T)) (lag_flush null) g.
  Definition lag_exec (g : grain names (lag T)) (x : names * T) : list (names * list (list T)) * res (grain names (lag T)) := t_exec (lag_tr g) g x.
  Definition lag_end (g : grain names (lag T)) : list (names * list (list T)) * res (grain names (lag T)) := t_flush (lag_tr g) g.
  Definition lag_grain_save (g : grain names (lag T)) : res (list Z) := grain_save names_enc (lag_save (T := T)) g.
  Definition lag_grain_load : parser (grain names (lag T)) := grain_load names_eqb names_lt names_dec (lag_load null).
End GrainedLag.
