(** Exceptions in the middle of training.  The policies of M_Stats, M_Scale, M_FloatStats, M_FloatScale and M_Docs say what a [fit] that
    succeeds makes of the estimator; here the order of the assignments and checks of [fit] is kept, so that the estimator an exception
    leaves behind is known.  Models of the [fit] of the policies that can throw (Components/StatisticalMetricsEstimator.h,
    FrequencyEstimator.h, TimeSeriesFrequencyEstimator.h, NormUpdaters.h, VectorNormsEstimator.h, StandardDeviationEstimator.h,
    DocumentStatisticsEstimator.h), of Components/TrainingOnlyEstimatorImpl.h around them, and of the training of grains
    (Components/GrainFeaturizerImpl.h). *)
From Coq Require Import ZArith.
From Flocq Require Import Core.Core IEEE754.BinarySingleNaN.
From Verif Require Import Base M_Archive M_Estimator M_Stats M_Pipeline M_Keyed M_Scale M_FloatStats M_FloatScale M_Docs M_Errors.
Open Scope Z_scope.

(** A call without callbacks: the object afterwards, and how it ends. *)
Fixpoint after {S} (s : S) (p : call S Empty_set) : S * res unit :=
  match p with
  | Return => (s, Ok tt)
  | Raise e => (s, Throw e)
  | Undefined => (s, UB)
  | Emit b _ => match b with end
  | Assign s' k => after s' k
  end.

(** A policy without a [begin_training] method (the default: TrainingOnlyEstimatorImpl.h:364-368). *)
Record trainee (P In A : Type) := mkTrainee {
  f_init : P;
  f_fit : P -> In -> call P Empty_set;      (* EstimatorPolicyT::fit(item) *)
  f_complete : P -> res A                   (* EstimatorPolicyT::complete_training *)
}.
Arguments mkTrainee {P In A}. Arguments f_init {P In A}. Arguments f_fit {P In A}. Arguments f_complete {P In A}.

Section Estimator.
  Context {P In A : Type}.
  Variable t : trainee P In A.
  Variable max_items : nat.          (* MaxNumTrainingItemsV *)
  Notation tonly := (@tonly P A).
  (** [begin_training_impl] and [complete_training_impl] are those of M_Estimator. *)
  Definition shell : policy P In A := simple_policy (f_init t) (fun p _ => Ok p) (f_complete t).
  (** TrainingOnlyEstimatorImpl.h:399-405: the exception of an item ends the loop. *)
  Fixpoint l_items (p : P) (xs : list In) : P * res unit :=
    match xs with
    | [] => (p, Ok tt)
    | x :: r => match after p (f_fit t p x) with
                | (p', Ok _) => l_items p' r
                | (p', q) => (p', q)
                end
    end.
  (** 370-386: [_cRemainingTrainingItems] is counted down after the loop. *)
  Definition l_fit (s : tonly) (xs : list In) : tonly * res fit_result :=
    let n := Nat.min (t_remaining s) (length xs) in
    match l_items (t_pol s) (firstn n xs) with
    | (p, Ok _) =>
        let rem := (t_remaining s - n)%nat in
        (mkT p (t_required s) (t_has s) rem (t_ann s), Ok (if Nat.eqb rem 0 then FitComplete else FitContinue))
    | (p, Throw x) => (mkT p (t_required s) (t_has s) (t_remaining s) (t_ann s), Throw x)
    | (p, UB) => (mkT p (t_required s) (t_has s) (t_remaining s) (t_ann s), UB)
    end.
  (** As an estimator, see M_Estimator.tonly_impl. *)
  Definition learner : impl tonly In Empty_set :=
    mkImpl (t_begin shell) l_fit (fun s => (s, Ok true)) (t_complete shell) (fun s => (s, Ok None)).

  (** A caller that catches the exceptions of [fit] and goes on with the next batch (Featurizer.h:778-795 is M_Estimator.fit). *)
  Fixpoint lessons (e : est tonly) (batches : list (list In)) : est tonly * list (res fit_result) :=
    match batches with
    | [] => (e, [])
    | b :: r => let (e1, q) := fit learner e (Some b) in
                let (e2, qs) := lessons e1 r in (e2, q :: qs)
    end.
  (** ... from a fresh estimator to the annotation. *)
  Definition trained_anyway (batches : list (list In)) : list (res fit_result) * res (option A) :=
    let (e1, r1) := begin_training learner (est_new (tonly_new shell max_items true None)) in
    let (e2, qs) := lessons e1 batches in
    (qs, do _ <- r1;
         let (e3, r3) := on_data_completed learner e2 in
         do _ <- r3;
         let (e4, r4) := complete_training learner e3 in
         do _ <- r4; Ok (t_ann (e_impl e4))).
End Estimator.

(** The policy alone, value by value, by a caller that catches the exceptions: the policy afterwards, and how each [fit] ended. *)
Fixpoint tries {P In A} (t : trainee P In A) (p : P) (xs : list In) : P * list (res unit) :=
  match xs with
  | [] => (p, [])
  | x :: r => let (p1, q) := after p (f_fit t p x) in
              let (p2, qs) := tries t p1 r in (p2, q :: qs)
  end.

(** Policies whose [fit] has nothing that throws, or only before its first assignment: HistogramEstimator.h, MinMaxEstimator.h,
    MedianEstimator.h, MaxAbsValueEstimator.h, OrderEstimator.h, DocumentStatisticsEstimator.h:292-339 (the decorator and the
    parser, which may throw, work on local variables; lines 335-338 come last) and, for M_Scale.max_norm, NormUpdaters.h:369-394. *)
Definition checked_first {P In A} (pol : policy P In A) : trainee P In A :=
  mkTrainee (p_init pol) (fun p x => ends (p_fit pol p x) (fun p' => Assign p' Return)) (p_complete pol).

(** FrequencyEstimator.h:142-158. *)
Definition freq_t : trainee (Z * option Z) Z Z :=
  mkTrainee (i64_max, None)
    (fun (s : Z * option Z) (x : Z) => match snd s with
                | None => Assign (fst s, Some x) Return
                | Some l => if x <=? l then Raise RuntimeError
                            else if negb (in_i64 (x - l)) then Undefined
                            else if x - l <=? fst s then Assign (x - l, Some l) (Assign (x - l, Some x) Return)
                            else Assign (fst s, Some x) Return
                end)
    (fun s => if fst s =? i64_max then Throw RuntimeError else Ok (fst s)).

(** TimeSeriesFrequencyEstimator.h:139-170 (the loop over the buffer is that of [l_items]; there is no limit on the number of items). *)
Definition tsfreq_t {K} (keqb : K -> K -> bool) : trainee (Z * list (K * Z)) (K * Z) Z :=
  mkTrainee (i64_max, [])
    (fun (s : Z * list (K * Z)) (row : K * Z) => let (k, x) := row in
                  match m_find keqb (snd s) k with
                  | None => Assign (fst s, m_emplace keqb (snd s) k x) Return
                  | Some l => if x <=? l then Raise RuntimeError
                              else if negb (in_i64 (x - l)) then Undefined
                              else let f := if x - l <=? fst s then x - l else fst s in
                                   Assign (f, snd s) (Assign (f, m_update keqb (snd s) k (fun _ => x)) Return)
                  end)
    (fun s => Ok (fst s)).

(** StatisticalMetricsEstimator.h:360-379 [BasicStatsUpdater::update]: minimum and maximum, then the count; [k]: what follows it. *)
Section Stats.
  Context {T R : Type}.
  Variable ltb : T -> T -> bool.
  Definition basic_call (s : stats_state (T := T) * R) (x : T) (k : stats_state (T := T) * R -> call (stats_state (T := T) * R) Empty_set)
    : call (stats_state (T := T) * R) Empty_set :=
    let mm := match fst (fst s) with
              | None => (x, x)
              | Some (mn, mx) => (if ltb x mn then x else mn, if ltb mx x then x else mx)
              end in
    let count := snd (fst s) in
    Assign ((Some mm, count), snd s)
      (if count =? 18446744073709551615 then Raise RuntimeError
       else let s' := ((Some mm, count + 1), snd s) in Assign s' (k s')).
End Stats.
(** 411-432 for integers: the checks of the sum come after all that. *)
Definition int_stats_t : trainee (stats_state (T := Z) * Z) (option Z) (Z * Z * Z * Z) :=
  mkTrainee ((None, 0), 0)
    (fun (s : stats_state (T := Z) * Z) (x : option Z) => match x with
                | None => Return
                | Some v =>
                    basic_call Z.ltb s v (fun s' =>
                      let c := i64_cast v in
                      if (0 <? v) && negb (in_i64 (i64_max - c)) then Undefined
                      else if (0 <? v) && (i64_max - c <? snd s') then Raise RuntimeError
                      else if (v <? 0) && negb (in_i64 (i64_min - c)) then Undefined
                      else if (v <? 0) && (snd s' <? i64_min - c) then Raise RuntimeError
                      else if negb (in_i64 (snd s' + c)) then Undefined
                      else Assign (fst s', snd s' + c) Return)
                end)
    (p_complete std_stats_policy).

Section Floats.
  Context {p e : Z} {Hp : Prec_gt_0 p} {Hm : Prec_lt_emax p e}.             (* the column's type: float or double *)
  Context {lp le : Z} {HLp : Prec_gt_0 lp} {HLm : Prec_lt_emax lp le}.      (* long double *)
  Notation F := (binary_float p e).
  Notation L := (binary_float lp le).
  (** 411-424 for float and double: the sum is tested for infinity after it was assigned. *)
  Definition float_stats_t : trainee (fstats_state (p := p) (e := e) (lp := lp) (le := le)) F fresult :=
    mkTrainee ((None, 0), fzero)
      (fun (s : fstats_state) (x : F) => if is_nan x then Return
                  else basic_call Bltb s x (fun s' =>
                         let sum := fadd (snd s') (convert x : L) in
                         if Beqb sum (snd s') && negb (Beqb x fzero) then Raise RuntimeError
                         else Assign (fst s', sum) (if is_inf sum then Raise RuntimeError else Return)))
      fstats_commit.

  (** NormUpdaters.h:229-247 and 292-309, [d] the absolute value or its square: [_has_valid_input] first, then the sum, then the test
      for infinity.  [f] is where the updater lives. *)
  Definition norm_call {S} (f : L * bool -> S) (u : L * bool) (d : L) (k : L * bool -> call S Empty_set) : call S Empty_set :=
    Assign (f (fst u, true))
      (let sum := fadd (fst u) d in
       if Beqb sum (fst u) && negb (is_zero d) then Raise RuntimeError
       else Assign (f (sum, true)) (if is_inf sum then Raise RuntimeError else k (sum, true))).
  (** VectorNormsEstimator.h:150-167: the cells (null ones are skipped, 221-226), [commit] (249-256, 311-318), then the norm is kept and
      the updater reset. *)
  Notation norms_state := ((L * bool) * list double)%type.
  Fixpoint row_call (size : L -> L) (finish : L -> L) (u : L * bool) (norms : list double) (row : list (option L))
    : call norms_state Empty_set :=
    match row with
    | [] => if snd u
            then let norms' := norms ++ [convert (finish (fst u)) : double] in
                 Assign (u, norms') (Assign ((fzero, false), norms') Return)
            else Raise RuntimeError
    | None :: r => row_call size finish u norms r
    | Some x :: r => norm_call (fun u => (u, norms)) u (size x) (fun u' => row_call size finish u' norms r)
    end.
  Definition norms_t (size : L -> L) (finish : L -> L) : trainee norms_state (list (option L)) (list double) :=
    mkTrainee ((fzero, false), [])
      (fun (s : norms_state) (row : list (option L)) => row_call size finish (fst s) (snd s) row)
      (fun s : norms_state => p_complete (norms_policy (fun r : unit => Ok fzero)) (snd s)).
  (** The absolute value, and its square ([std::pow(x, 2)] is taken to be x * x rounded). *)
  Definition l1_t := norms_t (fun x => Babs x) (fun s => s).
  Definition l2_t := norms_t (fun x => fmul (Babs x) (Babs x)) fsqrt.

  (** StandardDeviationEstimator.h:241-268: the L2 updater on the difference to the average, then the count. *)
  Definition deviation_t {I} (ty : numty 53 1024 I) (avg : double) : trainee (dev_state (lp := lp) (le := le)) I L :=
    mkTrainee ((fzero, false), 0)
      (fun (s : dev_state) (x : I) => if n_null ty x then Return
                  else let counted := fun u => if snd s =? 18446744073709551615 then Raise RuntimeError else Assign (u, snd s + 1) Return in
                       let d := fsub (n_cv ty x) avg in
                       if is_nan d then counted (fst s)
                       else let y := Babs (convert d : L) in norm_call (fun u => (u, snd s)) (fst s) (fmul y y) counted)
      dev_commit.
End Floats.

(** ** Grains: GrainFeaturizerImpl.h:729-767. *)
Section Grains.
  Context {K S In Tr : Type}.
  Variables keqb klt : K -> K -> bool.
  Variable I : impl S In Tr.
  Variable s0 : S.                    (* what [_createFunc] makes *)
  Notation gmap := (list (K * est S)).
  (** 747-758: an estimator that is not (or no longer) training ignores the row. *)
  Definition gl_run (m : gmap) (k : K) (e : est S) (x : In) : gmap * res unit :=
    match e_state e with
    | Training =>
        let (e', r) := fit I e (Some [x]) in
        (k_set keqb klt m k e', do f <- r; match f with FitReset => Throw RuntimeError | _ => Ok tt end)
    | _ => (m, Ok tt)
    end.
  (** 734-746: the new estimator is in the map before [begin_training] is called on it. *)
  Definition gl_row (m : gmap) (row : K * In) : gmap * res unit :=
    let (k, x) := row in
    match k_find keqb m k with
    | Some e => gl_run m k e x
    | None => let (e, r) := begin_training I (est_new s0) in
              let m' := k_set keqb klt m k e in
              match r with
              | Ok _ => gl_run m' k e x
              | Throw y => (m', Throw y)
              | UB => (m', UB)
              end
    end.
  (** A caller that passes the rows one by one and catches the exceptions. *)
  Fixpoint gl_rows (m : gmap) (rows : list (K * In)) : gmap * list (res unit) :=
    match rows with
    | [] => (m, [])
    | row :: r => let (m1, q) := gl_row m row in
                  let (m2, qs) := gl_rows m1 r in (m2, q :: qs)
    end.
  (** [fit_impl] on a batch (the limit of 730-731 and 763 left out): the first exception ends it. *)
  Fixpoint gl_batch (m : gmap) (rows : list (K * In)) : gmap * res unit :=
    match rows with
    | [] => (m, Ok tt)
    | row :: r => match gl_row m row with
                  | (m', Ok _) => gl_batch m' r
                  | (m', q) => (m', q)
                  end
    end.
End Grains.
