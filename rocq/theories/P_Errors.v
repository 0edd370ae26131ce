(** C78: errors while transforming.  [put] is any consumer of the results (in a pipeline, the next stage); it may throw. *)
From Verif Require Import Base M_Archive M_Estimator M_Pipeline M_Keyed M_Impute M_Window M_Scale M_Grain M_Filter S_Keyed M_Errors S_Errors.
From Verif Require Import L_Errors L_Errors2 L_Errors3.

(** ** Transformers that leave no trace of a refused row. *)
Theorem C78_stateless : forall A B (f : A -> list B * res unit), leaves_no_trace (stateless_o f) (fun _ => True).
Proof. exact @unit_no_trace. Qed.
Theorem C78_forward_fill : forall T (d : option T), leaves_no_trace (ffill_o d) (fun _ => True).
Proof. exact @ffill_no_trace. Qed.
(** Hence a missing value is filled with the last value whose row was accepted. *)
Theorem C78_forward_fill_value : forall T C (d : option T) (put : C -> T -> C * res unit) c s us,
  let '(c', s', rs) := session (ffill_o d) put c s us in
  forall v, last_value s (succeeded us rs) = Some v ->
  fst (fst (perform put c' s' (o_exec (ffill_o d) s' None))) = fst (put c' v).
Proof. exact @ffill_null. Qed.
Theorem C78_backward_fill : forall T (d : option T), leaves_no_trace (bfill_o d) is_row.
Proof. exact @bfill_no_trace. Qed.
(** Flushing may be tried again: over any number of attempts no filled row is delivered twice, none is lost. *)
Theorem C78_backward_fill_flush : forall T C (put : C -> T -> C * res unit) (d : T) us, Forall (fun u => u = Flush) us ->
  forall c l pending, 0 <= pending ->
  let '(c', p, rs) := session (bfill_o (Some d)) (accepting put) (c, l) pending us in
  exists done, 0 <= done <= pending /\ snd c' = l ++ repeat d (Z.to_nat done) /\ p = pending - done /\
               (existsb succeeds rs = true -> done = pending).
Proof. exact @bfill_flushes. Qed.
Theorem C78_filter : forall V idx (d : V) (o : object (list V) (list V)),
  leaves_no_trace o is_row -> leaves_no_trace (filter_o idx d o) is_row.
Proof. exact @filter_no_trace. Qed.

(** ** Pipelines: careful stages first, then any stage that leaves no trace. *)
Theorem C78_careful_stages : forall A B (f : A -> list B * res unit) T (d : option T),
  (forall a, match f a with ([], _) => True | ([_], Ok _) => True | _ => False end) ->
  careful (stateless_o f) /\ careful (ffill_o d).
Proof. intros A B f T d H. exact (conj (stateless_careful f H) (ffill_careful d)). Qed.
Theorem C78_careful_chain : forall A B D (o1 : object A B) (o2 : object B D), careful o1 -> careful o2 -> careful (chain_o o1 o2).
Proof. exact @chain_careful. Qed.
Theorem C78_careful : forall A B (o : object A B), careful o -> leaves_no_trace o is_row.
Proof. exact @careful_leaves_no_trace. Qed.
Theorem C78_pipeline : forall A B D (o1 : object A B) (o2 : object B D),
  careful o1 -> leaves_no_trace o2 is_row -> leaves_no_trace (chain_o o1 o2) is_row.
Proof. exact @chain_no_trace. Qed.

(** ** Grains. *)
(** However a row of one grain ends, every other grain's object stays what it was. *)
Theorem C78_grain_isolation : forall K A B (keqb klt : K -> K -> bool), key_order keqb klt ->
  forall (o : object A B) create C (put : C -> K * B -> C * res unit) c m k a k', k' <> k ->
  k_find keqb (snd (fst (perform put c m (grain_call keqb klt o create m (k, a))))) k' = k_find keqb m k'.
Proof. exact @grain_isolation. Qed.
(** If the grains' own transformers leave no trace, then refused rows leave none that any later row could show. *)
Theorem C78_grains : forall K A B (keqb klt : K -> K -> bool), key_order keqb klt ->
  forall (o : object A B) create m0, leaves_no_trace o is_row ->
  forall C (put : C -> K * B -> C * res unit) c m us, Forall is_row us ->
  let '(_, m', rs) := session (grain_o keqb klt o create m0) put c m us in
  exists out m'',
    session (grain_o keqb klt o create m0) keep [] m (succeeded us rs) = (out, m'', map (fun _ => Ok tt) (succeeded us rs)) /\
    (forall k, view keqb create m' k = view keqb create m'' k).
Proof. exact @grain_no_trace. Qed.
Theorem C78_grains_alike : forall K A B (keqb klt : K -> K -> bool), key_order keqb klt ->
  forall (o : object A B) create C m0 (put : C -> K * B -> C * res unit) us, Forall is_row us ->
  forall c m1 m2, (forall k, view keqb create m1 k = view keqb create m2 k) ->
  let '(c1, n1, r1) := session (grain_o keqb klt o create m0) put c m1 us in
  let '(c2, n2, r2) := session (grain_o keqb klt o create m0) put c m2 us in
  c1 = c2 /\ r1 = r2 /\ (forall k, view keqb create n1 k = view keqb create n2 k).
Proof. exact @alike_session. Qed.

(** ** Transformers for which every row counts, whether its result was accepted or not. *)
Theorem C78_windows : forall I O (calc : list I -> res O) null h mx mn b0,
  counts_every_call (rolling_o calc null h mx mn b0) (fun _ => True).
Proof. exact @rolling_counts. Qed.
Theorem C78_lags : forall T (null : T) t0, counts_every_call (lag_o null t0) is_row.
Proof. exact @lag_counts. Qed.
Theorem C78_normalizer : forall N R D (scale : N -> R -> D) norms, counts_every_call (normalize_o scale norms) (fun _ => True).
Proof. exact @normalize_counts. Qed.
(** ... but a row for which there is no norm does not count. *)
Theorem C78_normalizer_refused : forall N R D C (scale : N -> R -> D) norms (put : C -> D -> C * res unit) c s row,
  nth_error norms s = None -> perform put c s (o_exec (normalize_o scale norms) s row) = (c, s, Throw RuntimeError).
Proof. exact @normalize_refused. Qed.

(** ** With a consumer that accepts everything these are the transformers of the other properties. *)
Theorem C78_same_imputers : forall T (d : option T),
  (forall s x, recorded s (o_exec (ffill_o d) s x) = ffill_exec s x) /\
  (forall s x, recorded s (o_exec (bfill_o d) s x) = bfill_exec s x) /\
  (forall s, 0 <= s -> recorded s (o_flush (bfill_o d) s) = bfill_flush d s).
Proof. intros T d. exact (conj (ffill_recorded d) (conj (bfill_recorded d) (bfill_flush_recorded d))). Qed.
Theorem C78_same_windows : forall I O (calc : list I -> res O) null h mx mn b0 b,
  (forall x, recorded b (o_exec (rolling_o calc null h mx mn b0) b x) = rw_exec calc null h mx mn b x) /\
  recorded b (o_flush (rolling_o calc null h mx mn b0) b) = ([], Ok (buf_clear b)).
Proof. intros I O calc null h mx mn b0 b. exact (conj (rolling_recorded calc null h mx mn b0 b) eq_refl). Qed.
Theorem C78_same_pivot : forall T (ms : list (matrix T)) s, recorded s (o_exec (stateless_o (pivot (T := T))) s ms) = pivot ms.
Proof. exact @pivot_recorded. Qed.
Theorem C78_same_lags : forall T (null : T) t0,
  (forall t x, recorded t (o_exec (lag_o null t0) t x) = lag_step t x) /\
  (forall t, recorded t (o_flush (lag_o null t0) t) = lag_flush null t).
Proof. intros T null t0. exact (conj (lag_recorded null t0) (lag_flush_recorded null t0)). Qed.
Theorem C78_same_filter : forall V idx (d : V) o,
  (forall s x, recorded s (o_exec (filter_o idx d o) s x) =
     let (l, r) := recorded s (o_exec o s (to_filtered idx d x)) in (map (to_transformed x) l, r)) /\
  (forall s, recorded s (o_flush (filter_o idx d o) s) =
     match recorded s (o_flush o s) with ([], r) => ([], r) | (_ :: _, _) => ([], Throw RuntimeError) end).
Proof. intros V idx d o. exact (conj (filter_recorded idx d o) (filter_flush_recorded idx d o)). Qed.
Theorem C78_same_pipeline : forall A B D (o1 : object A B) (o2 : object B D),
  (forall s1 s2 a, recorded (s1, s2) (o_exec (chain_o o1 o2) (s1, s2) a) =
     through (fun s b => recorded s (o_exec o2 s b)) s2 (recorded s1 (o_exec o1 s1 a))) /\
  (forall s1 s2, recorded (s1, s2) (o_flush (chain_o o1 o2) (s1, s2)) =
     match through (fun s b => recorded s (o_exec o2 s b)) s2 (recorded s1 (o_flush o1 s1)) with
     | (o, Ok (u, x)) => let (o', rx) := recorded x (o_flush o2 x) in (o ++ o', do x' <- rx; Ok (u, x'))
     | (o, rx) => (o, rx)
     end).
Proof. intros A B D o1 o2. exact (conj (chain_recorded o1 o2) (chain_flush_recorded o1 o2)). Qed.
Theorem C78_same_grains : forall K A B (keqb klt : K -> K -> bool), key_order keqb klt ->
  forall (o : object A B) create m x,
  let here := recorded m (grain_call keqb klt o create m x) in
  let there := keyed_exec keqb klt (grain_step (fun s a => recorded s (o_exec o s a)) create) m x in
  fst here = fst there /\
  match snd here, snd there with
  | Ok m1, Ok m2 => forall k, k_find keqb m1 k = k_find keqb m2 k
  | Throw e1, Throw e2 => e1 = e2
  | UB, UB => True
  | _, _ => False
  end.
Proof. exact @grain_recorded. Qed.
Theorem C78_same_grains_flush : forall K A B (o : object A B) (m pre : list (K * o_state o)),
  recorded (pre ++ m) (grain_drain o pre m) =
  let (l, r) := keyed_flush (fun s => recorded s (o_flush o s)) m in (l, do m' <- r; Ok (pre ++ m')).
Proof. exact @grain_flush_recorded. Qed.

(** ** What is not promised.  A consumer that refuses the value that comes after [n] others (and notes -1 then). *)
Definition picky (n : nat) (l : list Z) (b : Z) : list Z * res unit :=
  if Nat.eqb (length l) n then (l ++ [-1], Throw RuntimeError) else (l ++ [b], Ok tt).
(** The backward fill delivers again what was already accepted: a refusal of the second copy of 7, and then a row with 8, hand
    three values to the consumer for the two rows that were accepted. *)
Theorem C78_backward_fill_refuted :
  let '((_, accepted), _, rs) := session (bfill_o (T := Z) None) (accepting (picky 1)) ([], []) 0 [Row None; Row (Some 7); Row (Some 8)] in
  rs = [Ok tt; Throw RuntimeError; Ok tt] /\ accepted = [7; 8; 8].
Proof. exact (conj eq_refl eq_refl). Qed.
(** A window holds a row whose result was refused; the caller who tries the row again has it in the window twice. *)
Theorem C78_windows_refuted :
  let o := rolling_o (fun l => Ok (fold_left Z.add l 0)) (-9) 1 2 1 (mkBuf 3 0 [10; 20]) in
  let '(c1, s1, rs1) := session o (fun c b => (c ++ [b], match length c with O => Throw RuntimeError | _ => Ok tt end)) [] (o_cur o) [Row 30; Row 30; Row 40] in
  let '(c2, s2, rs2) := session o keep [] (o_cur o) [Row 30; Row 40] in
  rs1 = [Throw RuntimeError; Ok tt; Ok tt] /\ c2 = [[30]; [50]] /\ c1 = [[30]; [50]; [60]].
Proof. exact (conj eq_refl (conj eq_refl eq_refl)). Qed.
(** The normalizer uses up a norm for a row whose result was refused: tried again, the row is divided by the next row's norm. *)
Theorem C78_normalizer_refuted :
  let o := normalize_o (fun norm row => row / norm) [2; 5] in
  let '(c, _, rs) := session o (fun c b => (c ++ [b], match length c with O => Throw RuntimeError | _ => Ok tt end)) [] 0%nat [Row 20; Row 20; Row 20] in
  rs = [Throw RuntimeError; Ok tt; Throw RuntimeError] /\ c = [10; 4].
Proof. exact (conj eq_refl eq_refl). Qed.
(** A flush of the lag operator that fails does not reset it: later rows are combined with the ones before the flush. *)
Theorem C78_lag_flush_refuted :
  forall t, lag_new (None : option Z) 1 [1] = Ok t ->
  let o := lag_o None t in
  let refuse3 := fun c b => (c ++ [b], match length c with 1%nat => Throw RuntimeError | _ => Ok tt end) in
  let '(c1, _, rs1) := session o refuse3 [] t [Row (Some 1); Row (Some 2); Flush; Row (Some 8); Row (Some 9)] in
  let '(c2, _, rs2) := session o keep [] t [Row (Some 1); Row (Some 2); Flush; Row (Some 8); Row (Some 9)] in
  rs1 = [Ok tt; Ok tt; Throw RuntimeError; Ok tt; Ok tt] /\
  c2 = [[[Some 2]]; [[None]]; [[Some 9]]] /\ c1 = [[[Some 2]]; [[None]]; [[Some 8]]; [[Some 9]]].
Proof. intros t E. injection E as <-. exact (conj eq_refl (conj eq_refl eq_refl)). Qed.
(** A grain whose only row was refused is there afterwards, and it is saved (grains of forward fills, which save their default). *)
Theorem C78_grain_saved_refuted :
  let o := ffill_o (T := Z) None in
  let create := Some (Ok None) in
  let m := [(1, Some 5)] in
  let '(_, m', rs) := session (grain_o Z.eqb Z.ltb o create m) keep [] m [Row (2, None)] in
  let bytes := fun m => grain_save (fun k => [k]) (fun _ : option Z => [0]) (mkGrain true m create) in
  rs = [Throw RuntimeError] /\ bytes m = Ok [1; 0; 0; 0; 0; 0; 0; 0; 1; 0; 1; 0] /\ bytes m' = Ok [2; 0; 0; 0; 0; 0; 0; 0; 1; 0; 2; 0; 1; 0].
Proof. exact (conj eq_refl (conj eq_refl eq_refl)). Qed.
(** A stage that is not careful in front of another: a window in front of a stage that refuses. *)
Theorem C78_pipeline_refuted :
  ~ leaves_no_trace (chain_o (rolling_o (fun l : list Z => Ok (length l)) 0%nat 1 1 1 (mkBuf 2 0 []))
                             (stateless_o (fun _ => ([] : list Z, Throw RuntimeError)))) is_row.
Proof.
  exact (fun H => match H unit (fun c (_ : Z) => (c, Ok tt)) tt (mkBuf 2 0 [], tt) [Row 1] (Forall_cons (Row 1) (Logic.I : is_row (Row 1)) (Forall_nil _)) with
                  | ex_intro _ _ E => eq_ind (mkBuf 2 0 [], tt) (fun s => match s with (mkBuf _ _ [], _) => True | _ => False end) Logic.I
                                        _ (f_equal (fun p => snd (fst p)) E)
                  end).
Qed.

(** ** Examples. *)
Example C78_example_pipeline :
  leaves_no_trace
    (chain_o (stateless_o (fun x : option Z => match x with Some 0 => ([], Throw InvalidArgument) | y => ([y], Ok tt) end))
       (chain_o (ffill_o None) (stateless_o (fun v : Z => ([v; v + 1], if v <? 100 then Ok tt else Throw RuntimeError))))) is_row.
Proof.
  apply C78_pipeline; [apply stateless_careful; intros [[|p|p]|]; exact Logic.I|].
  apply C78_pipeline; [apply ffill_careful|].
  exact (fun C put c s us F => C78_stateless _ _ _ C put c s us (Forall_impl _ (fun _ _ => Logic.I) F)).
Qed.
Example C78_example_forward_fill :
  let '(c, s, rs) := session (ffill_o (T := Z) None) (picky 1) [] None [Row None; Row (Some 4); Row (Some 5); Row None] in
  rs = [Throw RuntimeError; Ok tt; Throw RuntimeError; Ok tt] /\ c = [4; -1; 4].
Proof. exact (conj eq_refl eq_refl). Qed.
Example C78_example_flush :
  let '(c, p, rs) := session (bfill_o (Some 3)) (accepting (picky 1)) ([], []) 4 [Flush; Flush] in
  rs = [Throw RuntimeError; Ok tt] /\ p = 0 /\ snd c = [3; 3; 3; 3].
Proof. exact (conj eq_refl (conj eq_refl eq_refl)). Qed.
Example C78_example_grains :
  let o := ffill_o (T := Z) None in
  let '(c, m, rs) := session (grain_o Z.eqb Z.ltb o (Some (Ok None)) []) keep [] [] [Row (2, None); Row (1, Some 6); Row (2, Some 9); Row (1, None)] in
  rs = [Throw RuntimeError; Ok tt; Ok tt; Ok tt] /\ c = [(1, 6); (2, 9); (1, 6)] /\ m = [(1, Some 6); (2, Some 9)].
Proof. exact (conj eq_refl (conj eq_refl eq_refl)). Qed.
