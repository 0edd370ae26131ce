(** C82: clients of the C interface - programs that train, transform, save and load, alone and next to each other. *)
From Coq Require Import Reals.
From Flocq Require Import Core.Core IEEE754.BinarySingleNaN.
From Verif Require Import Base M_PointerTable M_PtConc M_Estimator M_Stats M_Encoders M_Impute M_Scale M_FloatStats M_FloatScale M_Pipeline M_Featurizer M_Recipes M_CApi S_CApi M_Conc S_Conc M_Client
  S_Stats S_Window S_Impute S_FloatStats S_Scale S_Featurizer S_Client L_CApi2 L_Conc4 L_Conc5 L_Conc6 L_Client L_Client2 L_Client3 L_Client4 L_Client5 L_Client6 P_CApi P_Conc.
Close Scope R_scope.
Open Scope Z_scope.

Section C82.
  (** Any featurizer.  [allocate], [draws]: any addresses and any handles. *)
  Context {S In Tr Arg Val : Type}.
  Variable I : impl S In Tr.
  Variable construct : res S.
  Variable value_of : Arg -> res In.
  Variable save_tr : Tr -> res (list Z).
  Variable load_tr : list Z -> res Tr.
  Variable exec_one : Tr -> In -> Tr * res Val.
  Variable exec_many : Tr -> In -> Tr * res (list (list Z)).
  Variable flush_many : Tr -> Tr * res (list (list Z)).
  Variable what : exn -> list Z.
  Notation run := (@run S In Tr Arg Val I construct value_of save_tr load_tr exec_one exec_many flush_many what).
  Notation holds_after := (@holds_after S In Tr Arg Val I construct value_of save_tr load_tr exec_one exec_many flush_many what).
  Notation meets := (@meets S In Tr Arg Val I construct value_of save_tr load_tr exec_one exec_many flush_many what).
  Notation cruns := (@cruns S In Tr Arg Val I construct value_of save_tr load_tr exec_one exec_many flush_many what).
  Notation disciplined := (@disciplined S In Tr Arg Val I construct value_of save_tr load_tr exec_one exec_many flush_many what).
  Notation methods_defined := (@methods_defined S In Tr Arg Val I construct value_of save_tr load_tr exec_one exec_many flush_many).
  Notation program_of := (@program_of Arg Val).
  Notation job_result := (job_result I construct value_of load_tr exec_one).
  Notation trained_in_cpp := (trained_in_cpp I construct).

  (** *** A client that is alone *)
  (** The client comes to its end, if the generator of the handles does not run dry. *)
  Theorem C82_ends : forall allocate draws j r, allocator_ok allocate -> draws_ok draws -> draws_enough (4 * job_calls j) draws -> job_result j = Some r ->
    exists l xs w p, run allocate draws start l = Some (xs, w) /\ plays (program_of j) l xs p /\ ended p.
  Proof. exact (job_alone I construct value_of save_tr load_tr exec_one exec_many flush_many what). Qed.
  (** When it has, its result is that of the C++ objects, trained and used directly, or it has the text of their exception; if the result
      is a value and begin_training does not throw, no memory is held any more. *)
  Theorem C82_result : forall allocate draws j r l xs w p, allocator_ok allocate -> draws_ok draws -> job_result j = Some r ->
    run allocate draws start l = Some (xs, w) -> plays (program_of j) l xs p -> ended p ->
    ends_with what (holds_after nothing l xs) r p /\
    (forall v, r = Ok v -> (forall s e, construct = Ok s -> snd (begin_training I (est_new s)) <> Throw e) -> w_heap w = [] /\ w_table w = []).
  Proof. exact (job_ends I construct value_of save_tr load_tr exec_one exec_many flush_many what). Qed.
  (** What one client trains and saves, another one loads - with other memory and other handles, in another process: if loading what was
      saved gives the transformer again (C09, C15, C28, C48, C67 say when), its results are those of the transformer that was trained. *)
  Theorem C82_saved : forall allocate draws fuel rows vs t bytes l xs w p, allocator_ok allocate -> draws_ok draws ->
    mapM value_of rows = Ok vs -> trained_in_cpp fuel vs = Some (Ok t) -> save_tr t = Ok bytes ->
    run allocate draws start l = Some (xs, w) -> plays (saver fuel rows) l xs p -> ended p ->
    (exists a, p = Ends (a, Z.of_nat (length bytes)) /\ same_things (owing nothing a (Some (OBytes bytes))) (holds_after nothing l xs)) /\
    forall allocate' draws' zs r l' xs' w' p', allocator_ok allocate' -> draws_ok draws' -> bytes <> [] -> load_tr bytes = Ok t ->
      executed value_of exec_one t zs = r ->
      run allocate' draws' start l' = Some (xs', w') -> plays (loader bytes zs) l' xs' p' -> ended p' ->
      ends_with what (holds_after nothing l' xs') r p'.
  Proof.
    intros allocate draws fuel rows vs t bytes l xs w p Ha Hd HR HT HS E Pl En. split.
    - exact (saver_alone I construct value_of save_tr load_tr exec_one exec_many flush_many what allocate draws fuel rows vs t bytes l xs w p Ha Hd HR HT HS E Pl En).
    - intros allocate' draws' zs r l' xs' w' p' Ha' Hd' Hb HL HE E' Pl' En'.
      refine (proj1 (job_ends I construct value_of save_tr load_tr exec_one exec_many flush_many what allocate' draws' (Loads bytes zs) r l' xs' w' p' Ha' Hd' _ E' Pl' En')).
      cbn [S_Client.job_result]. destruct bytes; [contradiction|]. rewrite HL. cbn [bind]. now rewrite HE.
  Qed.

  (** *** Threads *)
  (** If every thread uses only the handles and the memory that it was given itself, every thread sees what it would see alone. *)
  Theorem C82_isolation : forall hist c i, methods_defined -> cruns c_start hist c -> disciplined new_book hist -> own_things hist ->
    meets nothing (answered_calls i hist) (answers_of i hist).
  Proof.
    intros hist c i Hdef R0 D O. destruct (runs_J I construct value_of save_tr load_tr exec_one exec_many flush_many what Hdef hist c R0 D) as [An [Rt _]].
    exact (every_thread I construct value_of save_tr load_tr exec_one exec_many flush_many what hist i An O Rt).
  Qed.
  (** Clients in any number of threads, in any interleaving: no two use one object at the same time, every thread keeps to its own handles, and a
      client that has come to its end has the result that it would have alone. *)
  Theorem C82_threads : forall (jobs : nat -> job), methods_defined -> (forall i, job_result (jobs i) <> None) ->
    forall hist c, cruns c_start hist c -> (forall i, under_way (program_of (jobs i)) (calls_of i hist) (answers_of i hist)) ->
    disciplined new_book hist /\ own_things hist /\
    forall i p r, job_result (jobs i) = Some r -> plays (program_of (jobs i)) (calls_of i hist) (answers_of i hist) p -> ended p ->
      ends_with what (holds_after nothing (calls_of i hist) (answers_of i hist)) r p.
  Proof. exact (jobs_together I construct value_of save_tr load_tr exec_one exec_many flush_many what). Qed.
  (** No race: what a thread is about to use is allocated, and no other thread is about to use it. *)
  Theorem C82_no_race : forall (jobs : nat -> job), methods_defined -> (forall i, job_result (jobs i) <> None) ->
    forall hist c i a, cruns c_start hist c -> (forall i, under_way (program_of (jobs i)) (calls_of i hist) (answers_of i hist)) ->
    touches (c_threads c i) = Some a -> h_find (c_heap c) a <> None /\ forall j, touches (c_threads c j) = Some a -> j = i.
  Proof. exact (jobs_no_race I construct value_of save_tr load_tr exec_one exec_many flush_many what). Qed.
  (** No leak: when every client has come to its end, or never began, no memory is held. *)
  Theorem C82_no_leak : forall (jobs : nat -> job), methods_defined -> (forall i, job_result (jobs i) <> None) ->
    forall hist c, (forall s e, construct = Ok s -> snd (begin_training I (est_new s)) <> Throw e) -> cruns c_start hist c ->
    (forall i, under_way (program_of (jobs i)) (calls_of i hist) (answers_of i hist)) -> (forall i, c_threads c i = Idle) ->
    (forall i, calls_of i hist = [] \/ exists v, plays (program_of (jobs i)) (calls_of i hist) (answers_of i hist) (Ends v)) ->
    c_heap c = [] /\ c_table c = [].
  Proof. exact (jobs_no_leak I construct value_of save_tr load_tr exec_one exec_many flush_many what). Qed.
End C82.
Print Assumptions C82_ends.
Print Assumptions C82_result.
Print Assumptions C82_saved.
Print Assumptions C82_isolation.
Print Assumptions C82_threads.
Print Assumptions C82_no_race.
Print Assumptions C82_no_leak.

(** *** The library's featurizers *)
(** A featurizer that training gives a transformer of one element (C80 says which), behind the C interface. *)
Theorem C82_featurizer : forall {V Ann Tr Arg Val : Type} (steps : list (fstep V Ann Tr)) (exec : Tr -> V -> Tr * res Val) (value_of : Arg -> res V) rows vs xs,
  rows <> [] -> mapM value_of rows = Ok vs ->
  (forall t, trains_one 0 steps [[]] (map (fun v => [v]) vs) t -> client_gives steps exec value_of rows xs (executed value_of exec t xs)) /\
  (forall e, trains_throwing 0 steps [[]] (map (fun v => [v]) vs) e -> client_gives steps exec value_of rows xs (Throw e)).
Proof.
  intros V Ann Tr Arg Val steps exec value_of rows vs xs HN HR. split.
  - intros t. exact (gives_one steps exec value_of rows vs xs t HN HR).
  - intros e. exact (gives_throw steps exec value_of rows vs xs e HN HR).
Qed.
Print Assumptions C82_featurizer.
(** The smallest and the largest value in the place of the nulls. *)
Theorem C82_min_max_imputer : forall {Arg T : Type} (ltb : T -> T -> bool),
  (forall x, ltb x x = false) -> (forall x y z, ltb x y = true -> ltb y z = true -> ltb x z = true) -> (forall x y, ltb x y = false -> ltb y x = false -> x = y) ->
  forall (use_min : bool) mx (value_of : Arg -> res (option T)) rows vs xs ws,
  mapM value_of rows = Ok vs -> mapM value_of xs = Ok ws -> rows <> [] -> (length vs <= mx)%nat -> Z.of_nat (length vs) < 2 ^ 64 ->
  let gives := client_gives (min_max_recipe (T := option T) (F := T) 0 ltb use_min mx) exec_object value_of rows xs in
  (somes vs = [] -> gives (Throw RuntimeError)) /\
  (somes vs <> [] -> exists v, (if use_min then is_min ltb v (somes vs) else is_max ltb v (somes vs)) /\ gives (Ok (map (replace_null v) ws))).
Proof. exact @min_max_client. Qed.
Print Assumptions C82_min_max_imputer.
(** The mean in the place of the nulls. *)
Theorem C82_mean_imputer : forall {Arg : Type} {lp le : Z} {HLp : Prec_gt_0 lp} {HLm : Prec_lt_emax lp le} mx (value_of : Arg -> res (option Z)) rows vs xs ws,
  64 <= lp -> 1024 <= le -> mapM value_of rows = Ok vs -> mapM value_of xs = Ok ws -> rows <> [] -> (length vs <= mx)%nat -> Z.of_nat (length vs) < 2 ^ 64 ->
  Forall (fun x => in_i64 x = true) (somes vs) ->
  let gives := client_gives (mean_recipe (lp := lp) (le := le) 0 mx) exec_object value_of rows xs in
  (somes vs = [] -> gives (Throw RuntimeError)) /\
  (forall pre, prefix pre (somes vs) -> in_i64 (zsum pre) = false -> gives (Throw RuntimeError)) /\
  (somes vs <> [] -> (forall pre, prefix pre (somes vs) -> in_i64 (zsum pre) = true) ->
     exists m, equals m (r64 (rounded lp le (IZR (zsum (somes vs)) / IZR (Z.of_nat (length (somes vs))))%R)) /\
       gives (Ok (map (fun x => match x with None => m | Some y => of_int y end) ws))).
Proof. exact @mean_client. Qed.
Print Assumptions C82_mean_imputer.
(** A number for every value that was seen in training. *)
Theorem C82_label_encoder : forall {Arg T : Type} (eqb ltb : T -> T -> bool) (order : list (T * Z) -> list (T * Z)), total_order eqb ltb -> (forall h, Permutation h (order h)) ->
  forall mx (missing : bool) (value_of : Arg -> res T) rows vs xs ws n,
  mapM value_of rows = Ok vs -> mapM value_of xs = Ok ws -> rows <> [] -> (length vs <= mx)%nat -> distinct_count vs n -> Z.of_nat n < 2 ^ 32 ->
  exists label : T -> Z,
    (forall x, In x vs -> 0 <= label x < Z.of_nat n) /\ (forall x y, In x vs -> In y vs -> label x = label y -> x = y) /\
    forall code, (forall x, In x vs -> code x = Ok (label x + (if missing then 1 else 0))) -> (forall x, ~ In x vs -> code x = if missing then Ok 0 else Throw InvalidArgument) ->
    client_gives (label_recipe (U := T) (F := T) eqb ltb order 0 mx [] missing) (fun t v => (t, label_execute eqb t v)) value_of rows xs (mapM code ws).
Proof. exact @label_client. Qed.
Print Assumptions C82_label_encoder.

(** A featurizer whose transformer is a function [f] of what it has learnt, or whose transformer gives [f] of every value: the clients get its values
    (with C80: the standard and the robust scalers). *)
Theorem C82_functions : forall {Arg V Ann Tr Val : Type} (steps : list (fstep V Ann Tr)) (f : Tr -> V -> res Val) (value_of : Arg -> res V) rows vs xs ws t,
  mapM value_of rows = Ok vs -> mapM value_of xs = Ok ws -> rows <> [] -> trains_one 0 steps [[]] (map (fun v => [v]) vs) t ->
  client_gives steps (fun t v => (t, f t v)) value_of rows xs (mapM (f t) ws).
Proof. exact @function_client. Qed.
Print Assumptions C82_functions.
Theorem C82_values : forall {Arg A B Ann : Type} (steps : list (fstep A Ann (transformer A B))) (f : A -> B) (value_of : Arg -> res A) rows vs xs ws,
  mapM value_of rows = Ok vs -> mapM value_of xs = Ok ws -> rows <> [] -> trains_one 0 steps [[]] (map (fun v => [v]) vs) (per_value f) ->
  client_gives steps exec_object value_of rows xs (Ok (map f ws)).
Proof. exact @value_client. Qed.
Print Assumptions C82_values.
(** A position of its own for every value that was seen in training. *)
Theorem C82_one_hot_encoder : forall {Arg T : Type} (eqb ltb : T -> T -> bool) (order : list (T * Z) -> list (T * Z)), total_order eqb ltb -> (forall h, Permutation h (order h)) ->
  forall mx (missing : bool) (value_of : Arg -> res T) rows vs xs ws n,
  mapM value_of rows = Ok vs -> mapM value_of xs = Ok ws -> rows <> [] -> (length vs <= mx)%nat -> distinct_count vs n -> Z.of_nat n <= 2 ^ 32 ->
  let len := Z.of_nat n + (if missing then 1 else 0) in
  exists pos : T -> Z,
    (forall x, In x vs -> (if missing then 1 else 0) <= pos x < len) /\ (forall x y, In x vs -> In y vs -> pos x = pos y -> x = y) /\
    forall code, (forall x, In x vs -> code x = Ok (mkSingle len 1 (pos x))) -> (forall x, ~ In x vs -> code x = if missing then Ok (mkSingle len 1 0) else Throw InvalidArgument) ->
    client_gives (onehot_recipe (U := T) (F := T) eqb ltb order 0 mx [] missing) (fun t v => (t, onehot_execute eqb t v)) value_of rows xs (mapM code ws).
Proof. exact @onehot_client. Qed.
Print Assumptions C82_one_hot_encoder.
(** The rank of every value that was seen in training; nothing for the others. *)
Theorem C82_numericalize : forall {Arg T : Type} (eqb ltb : T -> T -> bool) (order : list (T * Z) -> list (T * Z)), total_order eqb ltb -> (forall h, Permutation h (order h)) ->
  forall mx (value_of : Arg -> res T) rows vs xs ws n,
  mapM value_of rows = Ok vs -> mapM value_of xs = Ok ws -> rows <> [] -> (length vs <= mx)%nat -> distinct_count vs n -> Z.of_nat n <= 2 ^ 32 ->
  exists number : T -> option Z,
    (forall x, In x vs <-> exists l, number x = Some l) /\ (forall x l, number x = Some l -> 0 <= l < Z.of_nat n) /\
    (forall x y l, number x = Some l -> number y = Some l -> x = y) /\ (forall l, 0 <= l < Z.of_nat n -> exists x, number x = Some l) /\
    (forall x y lx ly, number x = Some lx -> number y = Some ly -> (ltb x y = true <-> lx < ly)) /\
    client_gives (numericalize_recipe (U := T) (F := T) eqb ltb order 0 mx) (fun t v => (t, Ok (numericalize_execute eqb t v))) value_of rows xs (Ok (map number ws)).
Proof. exact @numericalize_client. Qed.
Print Assumptions C82_numericalize.
(** The most frequent value in the place of the nulls, the first one of several ([categories]: the categorical imputer, else the mode imputer). *)
Theorem C82_mode_imputers : forall {Arg T : Type} (eqb : T -> T -> bool) (order : list (option T * Z) -> list (option T * Z)), (forall x y, eqb x y = true <-> x = y) -> (forall h, Permutation h (order h)) ->
  forall mx (categories : bool) (value_of : Arg -> res (option T)) rows vs xs ws,
  mapM value_of rows = Ok vs -> mapM value_of xs = Ok ws -> rows <> [] -> (length vs <= mx)%nat -> Z.of_nat (length vs) < 2 ^ 32 ->
  let e := oeqb eqb in
  let gives := client_gives (mode_recipe (U := T) (F := T) e order 0 not_null (if categories then cat_imputer else mode_imputer) mx) exec_object value_of rows xs in
  (somes vs = [] -> gives (Throw RuntimeError)) /\
  (somes vs <> [] -> exists v, In (Some v) vs /\
    (forall w, In (Some w) vs -> occ e (Some w) vs <= occ e (Some v) vs /\
      (occ e (Some w) vs = occ e (Some v) vs -> w <> v -> appears_before vs (Some v) (Some w))) /\
    gives (Ok (map (replace_null v) ws))).
Proof. exact @mode_client. Qed.
Print Assumptions C82_mode_imputers.
(** The median in the place of the nulls; [s]: the values in order. *)
Theorem C82_median_imputer : forall {Arg : Type} {p e : Z} {Hp : Prec_gt_0 p} {Hm : Prec_lt_emax p e} {I U : Type} (cast : I -> binary_float p e) (interpolate : bool) mx
  (value_of : Arg -> res (option I)) rows vs xs ws (s : list R), p <= 53 -> e <= 1024 ->
  mapM value_of rows = Ok vs -> mapM value_of xs = Ok ws -> rows <> [] -> (length vs <= mx)%nat ->
  let l := map cast (somes vs) in (forall x, In x l -> is_nan x = false) -> Permutation s (map place l) -> StronglySorted Rle s ->
  let gives := client_gives (median_recipe (T := option I) (U := U) 0 cast Bltb interpolate midpoint fzero mx) exec_object value_of rows xs in
  (l = [] -> gives (Throw RuntimeError)) /\
  (l <> [] -> exists m, middle interpolate l s m /\ gives (Ok (map (fun x => match x with None => m | Some y => cast y end) ws))).
Proof. exact @median_client. Qed.
Print Assumptions C82_median_imputer.
(** The column scaled by its largest magnitude. *)
Theorem C82_max_abs_scaler : forall {Arg : Type} {prec emax : Z} {Hp : Prec_gt_0 prec} {Hm : Prec_lt_emax prec emax} mx (value_of : Arg -> res (binary_float prec emax)) rows vs xs ws,
  mapM value_of rows = Ok vs -> mapM value_of xs = Ok ws -> rows <> [] -> (length vs <= mx)%nat -> Forall not_infinite vs ->
  exists scaled : binary_float prec emax -> binary_float prec emax,
    (forall x, In x vs -> is_finite x = true -> within (-1) 1 (scaled x) /\
      (B2R x <> 0%R -> (forall y, In y vs -> is_finite y = true -> (Rabs (B2R y) <= Rabs (B2R x))%R) -> Rabs (B2R (scaled x)) = 1%R)) /\
    client_gives (max_abs_recipe 0 ma_policy mx) (fun t v => (t, Ok (ma_exec same_ty t v))) value_of rows xs (Ok (map scaled ws)).
Proof. exact @maxabs_client. Qed.
Print Assumptions C82_max_abs_scaler.
(** The column of integers of at most 32 bits brought into the range from 0 to 1. *)
Theorem C82_min_max_scaler : forall {Arg : Type} (signed : bool) (w mx : nat) (lo hi : Z) (value_of : Arg -> res Z) rows vs xs ws, (1 <= w <= 4)%nat ->
  mapM value_of rows = Ok vs -> mapM value_of xs = Ok ws -> rows <> [] -> (length vs <= mx)%nat -> lo < hi -> (forall v, fits signed w v = true <-> lo <= v <= hi) ->
  Forall (fun v => fits signed w v = true) vs -> (forall v u, In v vs -> In u vs -> fits signed w (v - u) = true \/ v < u) ->
  let t := int_ty signed w : numty 53 1024 Z in
  exists scaled : Z -> double, (forall x, In x vs -> within 0 1 (scaled x)) /\
    client_gives (min_max_scaler_recipe 0 t lo hi mx) (fun s v => (s, Ok (mm_exec t s v))) value_of rows xs (Ok (map scaled ws)).
Proof. exact @min_max_scaler_client. Qed.
Print Assumptions C82_min_max_scaler.
(** Trained with 30, 10, 20 and 30 (strings in C), the numbers of 20, 99 and 10; the one-hot vectors of 20 and 99; the mode of 4, null, 7, null, null and 7. *)
Example C82_encoders_case :
  let id h := h : list (Z * Z) in let val (x : Z) := Ok x in
  job_result (featurizer_impl (fun _ x => [x])) (new_featurizer (numericalize_recipe (U := Z) (F := Z) Z.eqb Z.ltb id 0 9)) val (fun _ => UB)
    (exec_single (fun t v => (t, Ok (numericalize_execute Z.eqb t v)))) (Tests 20 [30; 10; 20; 30] [20; 99; 10]) = Some (Ok [Some 1; None; Some 0]) /\
  job_result (featurizer_impl (fun _ x => [x])) (new_featurizer (onehot_recipe (U := Z) (F := Z) Z.eqb Z.ltb id 0 9 [] true)) val (fun _ => UB)
    (exec_single (fun t v => (t, onehot_execute Z.eqb t v))) (Tests 20 [30; 10; 20; 30] [20; 99]) = Some (Ok [mkSingle 4 1 2; mkSingle 4 1 0]) /\
  job_result (featurizer_impl (fun _ x => [x])) (new_featurizer (mode_recipe (U := Z) (F := Z) (oeqb Z.eqb) (fun h => h) 0 not_null cat_imputer 99)) (fun x : option Z => Ok x) (fun _ => UB)
    (exec_single exec_object) (Tests 20 [Some 4; None; Some 7; None; None; Some 7] [None; Some 4]) = Some (Ok [7; 4]).
Proof. vm_compute. repeat split. Qed.

(** *** The featurizer of C65_case *)
Notation sum_result := (job_result (sum_impl false) (Ok []) sum_value sum_load (fun t v => (t, Ok (t + v)))).
Definition sum_test : @job (option Z) := Tests 9 [Some 30; Some 3] [Some 9; Some (-1)].
Definition sum_bad : @job (option Z) := Tests 9 [Some 30; Some 3] [Some 9; None].
Definition sum_call l : list (bool * @call (option Z)) := map (pair true) l.
(** One client trains with 30 and 3 and transforms 9 and -1; another one passes a null pointer and fails. *)
Example C82_alone_case : sum_result sum_test = Some (Ok [42; 32]) /\ sum_result sum_bad = Some (Throw InvalidArgument) /\
  (exists l xs w, sum_run false l = Some (xs, w) /\ plays (program_of sum_test) l xs (Ends [42; 32]) /\ length l = 14%nat /\ w_heap w = [] /\ w_table w = []) /\
  (exists l xs w h, sum_run false l = Some (xs, w) /\ plays (program_of sum_bad) l xs (Fails (CFalse (Some h))) /\ length (w_heap w) = 2%nat) /\
  draws_enough (4 * job_calls (Tests 2 [Some 30] [Some 9])) sum_handles.
Proof.
  split; [vm_compute; reflexivity|]. split; [vm_compute; reflexivity|]. split; [|split].
  - exists (sum_call [CreateEstimator true; GetState 5 true; Fit 5 (Some 30) true; GetState 5 true; Fit 5 (Some 3) true; OnDataCompleted 5; GetState 5 true; CompleteTraining 5;
                      IsTrainingComplete 5 true; CreateTransformer 5 true; DestroyEstimator 5; Transform 6 (Some 9) true; Transform 6 (Some (-1)) true; DestroyTransformer 6]).
    eexists. eexists. split; [vm_compute; reflexivity|]. split; [|vm_compute; repeat split]. unfold sum_call. cbn [map]. repeat (apply plays_on || apply plays_no).
  - exists (sum_call [CreateEstimator true; GetState 5 true; Fit 5 (Some 30) true; GetState 5 true; Fit 5 (Some 3) true; OnDataCompleted 5; GetState 5 true; CompleteTraining 5;
                      IsTrainingComplete 5 true; CreateTransformer 5 true; DestroyEstimator 5; Transform 6 (Some 9) true; Transform 6 None true]).
    eexists. eexists. eexists. split; [vm_compute; reflexivity|]. split; [|vm_compute; reflexivity]. unfold sum_call. cbn [map]. repeat (apply plays_on || apply plays_no).
  - intros n Hn. apply (proj2 sum_draws). cbn in Hn. lia.
Qed.
(** Two threads load and transform at the same time. *)
Definition sum_jobs (i : nat) : @job (option Z) := match i with O => Loads [7; 33] [Some 9] | _ => Loads [7; 40] [Some 1] end.
Definition two_schedule : list (@turn (option Z)) :=
  [Start 0 true (LoadTransformer (Some [7; 33]) true); Start 1 true (LoadTransformer (Some [7; 40]) true)] ++
  turns 0 4 1000 ++ turns 1 3 2000 ++ [Turn 0 5; Turn 0 0; Turn 0 0] ++ turns 1 1 0 ++ [Turn 1 5; Turn 1 6] ++ turns 1 4 0 ++ turns 0 2 0 ++
  [Start 0 true (Transform 5 (Some 9) true); Start 1 true (Transform 6 (Some 1) true)] ++
  turns 0 3 0 ++ turns 1 2 0 ++ turns 0 3 0 ++ turns 1 4 0 ++ turns 0 3 0 ++ turns 1 3 0 ++
  [Start 0 true (DestroyTransformer 5); Start 1 true (DestroyTransformer 6)] ++
  turns 0 6 0 ++ turns 1 6 0 ++ turns 0 7 0 ++ turns 1 7 0 ++ turns 0 3 0 ++ turns 1 3 0.
Definition two_events : list (@event (option Z) Z) :=
  [Begins 0 true (LoadTransformer (Some [7; 33]) true); Begins 1 true (LoadTransformer (Some [7; 40]) true); Returns 1 (CTrue (AHandle 6)); Returns 0 (CTrue (AHandle 5));
   Begins 0 true (Transform 5 (Some 9) true); Begins 1 true (Transform 6 (Some 1) true); Returns 0 (CTrue (AValue 42)); Returns 1 (CTrue (AValue 41));
   Begins 0 true (DestroyTransformer 5); Begins 1 true (DestroyTransformer 6); Returns 0 (CTrue ADone); Returns 1 (CTrue ADone)].
Example C82_threads_case : exists c, sum_runs c_start two_events c /\ (forall i, c_threads c i = Idle) /\
  (forall i, under_way (program_of (sum_jobs i)) (calls_of i two_events) (answers_of i two_events)) /\
  plays (program_of (sum_jobs 0)) (calls_of 0 two_events) (answers_of 0 two_events) (Ends [42]) /\
  plays (program_of (sum_jobs 1)) (calls_of 1 two_events) (answers_of 1 two_events) (Ends [41]) /\
  (forall i, (2 <= i)%nat -> calls_of i two_events = []) /\ (forall i, sum_result (sum_jobs i) <> None) /\
  (forall s e, Ok [] = Ok s -> snd (begin_training (sum_impl false) (est_new s)) <> Throw e).
Proof.
  assert (E : exists c, sum_carry c_start two_schedule = Some (c, two_events) /\ forall i, c_threads c i = Idle).
  { eexists. split; [vm_compute; reflexivity|]. intros [|[|[|i]]]; reflexivity. }
  destruct E as (c & E & Q). exists c. split; [eapply carry_out_ok; exact E|]. split; [exact Q|]. clear E Q c.
  split; [intros [|[|i]]; cbn; repeat (apply under_way_on || apply under_way_no)|].
  split; [cbn; repeat (apply plays_on || apply plays_no)|]. split; [cbn; repeat (apply plays_on || apply plays_no)|].
  split; [intros [|[|i]] Hi; [lia|lia|reflexivity]|]. split; [intros [|i]; discriminate|]. intros s e Es. injection Es as <-. discriminate.
Qed.
(** The largest of 3, null and 7 in the place of a null; nothing but nulls is refused. *)
Example C82_min_max_case :
  client_gives (min_max_recipe (T := option Z) (F := Z) 0 Z.ltb false 10) exec_object (fun v : option Z => Ok v) [Some 3; None; Some 7] [None; Some 4] (Ok [7; 4]) /\
  client_gives (min_max_recipe (T := option Z) (F := Z) 0 Z.ltb false 10) exec_object (fun v : option Z => Ok v) [None; None] [None; Some 4] (Throw RuntimeError).
Proof.
  assert (H1 : forall x, Z.ltb x x = false) by (intros; apply Z.ltb_irrefl).
  assert (H2 : forall x y z, Z.ltb x y = true -> Z.ltb y z = true -> Z.ltb x z = true) by (intros; lia).
  assert (H3 : forall x y, Z.ltb x y = false -> Z.ltb y x = false -> x = y) by (intros; lia).
  split.
  - destruct (C82_min_max_imputer Z.ltb H1 H2 H3 false 10 (fun v : option Z => Ok v) [Some 3; None; Some 7] _ [None; Some 4] _ eq_refl eq_refl ltac:(discriminate) ltac:(cbn; lia) ltac:(cbn; lia)) as [_ Q].
    destruct (Q ltac:(discriminate)) as (v & [Hv Hm] & G). assert (v = 7) as ->; [|exact G].
    destruct Hv as [<-|[<-|[]]]; [|reflexivity]. discriminate (Hm 7 (or_intror (or_introl eq_refl))).
  - destruct (C82_min_max_imputer Z.ltb H1 H2 H3 false 10 (fun v : option Z => Ok v) [None; None] _ [None; Some 4] _ eq_refl eq_refl ltac:(discriminate) ltac:(cbn; lia) ltac:(cbn; lia)) as [Q _].
    exact (Q eq_refl).
Qed.
