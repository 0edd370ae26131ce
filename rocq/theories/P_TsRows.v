(** C68: rows through the C interface of the time series imputer. *)
From Coq Require Import String Reals Lra.
From Flocq Require Import Core.Core IEEE754.BinarySingleNaN IEEE754.Binary IEEE754.Bits.
From Verif Require Import Base M_Archive M_Codec M_Stats S_Stats S_Impute M_Pipeline M_Save M_Keyed S_Keyed M_String M_TsImpute S_TsImpute M_Date S_Date S_Scale M_FloatText L_FloatText L_FloatText2 M_TimeText S_TimeText L_TimeText4
  M_TsSave S_TsSave M_TsRows S_TsRows L_TsRows L_TsRows3 L_TsRows4.
Open Scope Z_scope.

(** The answers to calls of Transform are those of the imputer on rows of values (not of texts), in the same encoding: refused rows included. *)
Theorem C68_calls : forall places rounding, (1 <= places <= 16)%nat -> nearest places rounding -> forall underflow duration_text m med,
  me_data m = se_types (me_settings m) -> (se_strategy (me_settings m) = Median -> medians_read places underflow m med) ->
  forall rows inputs, Forall2 (row_in places m) rows inputs ->
  api_calls places rounding underflow duration_text m [] inputs =
  map (rmap (map (row_out places m))) (answers key_eqb key_ltb (value_config (me_settings m) med) [] rows).
Proof. exact calls_ok. Qed.

Section Strategies.
  Variables (places : nat) (rounding : Z -> nat -> Z) (underflow : list Z -> bool) (duration_text : Z -> list Z).
  Hypothesis Hplaces : (1 <= places <= 16)%nat.
  Hypothesis Hround : nearest places rounding.
  Variable m : memory.
  Hypothesis Hdata : me_data m = se_types (me_settings m).
  Variables (rows : list (list (list Z) * (Z * list (option (list Z))))) (inputs : list (list Z)).
  Hypothesis Hrows : Forall2 (row_in places m) rows inputs.
  Notation f := (se_freq (me_settings m)).
  Hypothesis Htimes : Forall (fun r => in_i64 (fst (snd r) + f) = true) rows.
  Hypothesis Hfreq : 0 < f.
  Hypothesis Hchron : forall k, chronological (of_key key_eqb k rows).
  (** One answer per call, all successful, and together they hold the rows [out]. *)
  Definition returned (out : list (list (list Z) * (bool * Z * list (option (list Z))))) : Prop :=
    exists blocks, api_calls places rounding underflow duration_text m [] inputs = map Ok blocks /\ length blocks = length inputs /\
      concat blocks = map (row_out places m) out.

  (** Forward: all rows with the gaps filled, every null replaced by the last value before it. *)
  Theorem C68_forward : se_strategy (me_settings m) = Forward -> exists out, returned out /\
    forall k, filled (of_key key_eqb k out) (with_gaps f (of_key key_eqb k rows)) (fun _ col p => filled_forward None col p).
  Proof. exact (forward_calls places rounding underflow duration_text Hplaces Hround m (fun _ => None) Hdata rows inputs Hrows Htimes Hfreq Hchron). Qed.
  (** Backward: the complete rows; the others are held back. *)
  Theorem C68_backward : se_strategy (me_settings m) = Backward -> exists out held, returned out /\
    forall k, filled (of_key key_eqb k (out ++ held)) (with_gaps f (of_key key_eqb k rows)) (fun _ col p => filled_backward None col p) /\
      Forall complete (of_key key_eqb k out) /\ (forall r, hd_error (of_key key_eqb k held) = Some r -> ~ complete r).
  Proof. exact (backward_calls places rounding underflow duration_text Hplaces Hround m (fun _ => None) Hdata rows inputs Hrows Htimes Hfreq Hchron). Qed.
  (** Median: nulls of floating point columns become the median of the key, as far as its text holds it. *)
  Theorem C68_median : forall med, se_strategy (me_settings m) = Median -> medians_read places underflow m med ->
    covered (se_types (me_settings m)) med (se_suppress (me_settings m)) (length (me_data m)) (map fst rows) -> exists out, returned out /\
    forall k, filled (of_key key_eqb k out) (with_gaps f (of_key key_eqb k rows))
      (fun c col p => match nth p col None with
                      | Some v => Some v
                      | None => if float_column (nth c (se_types (me_settings m)) 0) then match med k with Some ms => nth_error ms c | None => None end else None
                      end).
  Proof. exact (fun med => median_calls places rounding underflow duration_text Hplaces Hround m med Hdata rows inputs Hrows Htimes Hfreq Hchron). Qed.
End Strategies.

(** A row cut short is refused and leaves no trace; what follows a row is not read. *)
Theorem C68_truncated : forall places rounding underflow duration_text, (1 <= places <= 16)%nat -> nearest places rounding ->
  forall m row data a b, row_bytes places m row data -> data = a ++ b -> b <> [] ->
  forall st, exists e, api_transform places rounding underflow duration_text m st a = (st, Throw e).
Proof. exact cut_row. Qed.
Theorem C68_trailing : forall places rounding underflow duration_text, (1 <= places <= 16)%nat -> nearest places rounding ->
  forall m row data more, row_bytes places m row data ->
  forall st, api_transform places rounding underflow duration_text m st (data ++ more) = api_transform places rounding underflow duration_text m st data.
Proof. exact trailing. Qed.

(** *** Examples: a clock of nanoseconds, String keys, Float64 and String columns, 1 second; median of "a": 2.5. *)
Definition the_settings (types : list Z) (st : strategy) : settings := mkSettings (10 ^ 9) types st [([chars "a"], [4612811918334230528; 0])] true.
Definition the_memory (st : strategy) : memory := mkMemory [1] [12; 1] (the_settings [12; 1] st).
Definition calls (m : memory) := api_calls 9 (half_up 9) (fun _ => false) (fun _ => []) m [].
Definition key_a : list Z := [1;0;0;0; 97].
Definition d15 : list Z := [0;0;0;0;0;0;248;63].       (* 1.5 *)
Definition d25 : list Z := [0;0;0;0;0;0;4;64].         (* 2.5 *)
Definition nan8 : list Z := [1;0;0;0;0;0;248;255].      (* a NaN *)
Definition nanq : list Z := [0;0;0;0;0;0;248;127].      (* the NaN that is written *)
Definition at_ (s : Z) : list Z := [s;0;0;0;0;0;0;0].
Definition text_x : list Z := [1;0;0;0; 120].
Definition the_rows : list (list (list Z) * (Z * list (option (list Z)))) :=
  [([key_a], (0, [Some d15; None])); ([key_a], (2000000000, [None; Some text_x]))].
Definition the_inputs : list (list Z) := [at_ 0 ++ key_a ++ d15 ++ [0]; at_ 2 ++ key_a ++ nan8 ++ [1] ++ text_x].
Lemma kept_15 : le_bytes 8 (double_bits (round_ratio false 3 2)) = d15 /\ kept (round_ratio false 3 2 : BinarySingleNaN.binary_float 53 1024).
Proof.
  split; [vm_compute; reflexivity|]. right. assert (F : BinarySingleNaN.is_finite (round_ratio false 3 2 : BinarySingleNaN.binary_float 53 1024) = true) by (vm_compute; reflexivity).
  split; [exact F|]. exists 1500000. destruct (round_ratio_ok (prec := 53) (emax := 1024) false 3 2) as [H1 H2].
  destruct (Rlt_dec (Rabs (rounded 53 1024 (ratio false 3 2))) (bpow radix2 1024)) as [H|H]; [|rewrite (H2 H) in F; discriminate].
  destruct (H1 H) as (_ & E & _). rewrite E. f_equal. unfold ratio. cbn. lra.
Qed.
Lemma a_key_text : key_text 9 1 key_a (chars "a").
Proof. left. left. exists TString, (VStr (chars "a")). repeat split; constructor. Qed.
Lemma d15_in : cell_in 9 12 (Some d15) d15.
Proof.
  destruct kept_15 as [E K]. split; [|left; split; [now right|reflexivity]]. exists (float_to_string (round_ratio false 3 2 : BinarySingleNaN.binary_float 53 1024)).
  right. right. left. split; [reflexivity|]. exists (round_ratio false 3 2). split; [exact K|]. split; [now rewrite E|reflexivity].
Qed.
Lemma x_in : cell_in 9 1 (Some text_x) (1 :: text_x).
Proof.
  split; [|right; split; [unfold is_float; lia|reflexivity]]. exists (chars "x"). left. exists TString, (VStr (chars "x")). repeat split; constructor.
Qed.
Lemma the_rows_bytes st : Forall2 (row_bytes 9 (the_memory st)) the_rows the_inputs.
Proof.
  constructor; [|constructor; [|constructor]].
  - exists 0, [d15; [0]]. split; [reflexivity|]. split; [reflexivity|]. split; [repeat constructor; exists (chars "a"); apply a_key_text|]. split; [|reflexivity].
    constructor; [apply d15_in|]. constructor; [|constructor]. right. right. split; [left; exists TString; constructor|reflexivity].
  - exists 2, [nan8; 1 :: text_x]. split; [reflexivity|]. split; [reflexivity|]. split; [repeat constructor; exists (chars "a"); apply a_key_text|]. split; [|reflexivity].
    constructor; [|constructor; [apply x_in|constructor]]. right. left. split; [reflexivity|]. exists 18444492273895866369.
    split; [split; [discriminate|reflexivity]|]. split; reflexivity.
Qed.
Lemma the_rows_in st : Forall2 (row_in 9 (the_memory st)) the_rows the_inputs.
Proof. generalize (the_rows_bytes st). induction 1 as [|r b rs bs H _ IH]; constructor; [|exact IH]. exists b, []. split; [exact H|now rewrite app_nil_r]. Qed.
Definition med_a (k : list (list Z)) : option (list (list Z)) := if key_eqb k [key_a] then Some [d25; []] else None.
Lemma med_a_read : medians_read 9 (fun _ => false) (the_memory Median) med_a.
Proof.
  intros keys texts H. inversion H as [|id b t ids bs ts Hb Hr]; subst. inversion Hr; subst. clear H Hr.
  assert (G : exists v, b = enc TString (VStr v) /\ t = v).
  { destruct Hb as [[(ty & v & Hid & Hw & -> & ->)|[(E & _)|[(E & _)|(E & _)]]]|([E|E] & _)]; try discriminate.
    inversion Hid; subst. destruct v; try discriminate Hw. eexists. split; reflexivity. }
  destruct G as (v & -> & ->). unfold med_a, the_memory, the_settings. cbn [me_settings se_medians m_find me_data].
  destruct key_is_order as (He & _).
  destruct (key_eqb [chars "a"] [v]) eqn:E.
  - apply He in E. injection E as <-. exists [d25; []]. split; [reflexivity|]. constructor; [|constructor; [|constructor]].
    + split; [discriminate|]. intros _.
      exists (match float_from_string (fun _ => false) (float_to_string (double_of_bits 4612811918334230528)) with Ok y => y | _ => BinarySingleNaN.B754_nan end).
      split; [|lazy; reflexivity].
      assert (O : is_ok (float_from_string (fun _ => false) (float_to_string (double_of_bits 4612811918334230528)) : res (BinarySingleNaN.binary_float 53 1024)) = true) by (lazy; reflexivity).
      destruct (float_from_string _ _); [reflexivity|discriminate|discriminate].
    + split; discriminate.
  - destruct (key_eqb [enc TString (VStr v)] [key_a]) eqn:E2; [|reflexivity]. exfalso. apply He in E2.
    assert (v = [97]) by (apply (f_equal (fun l => skipn 4 (hd [] l))) in E2; exact E2). subst v. discriminate.
Qed.
Example C68_case :
  (1 <= 9 <= 16)%nat /\ nearest 9 (half_up 9) /\ (forall st, me_data (the_memory st) = se_types (me_settings (the_memory st)) /\
    Forall2 (row_bytes 9 (the_memory st)) the_rows the_inputs /\ Forall2 (row_in 9 (the_memory st)) the_rows the_inputs) /\
  Forall (fun r => in_i64 (fst (snd r) + 10 ^ 9) = true) the_rows /\ (forall k, chronological (of_key key_eqb k the_rows)) /\
  medians_read 9 (fun _ => false) (the_memory Median) med_a /\ covered [12; 1] med_a true 2 (map fst the_rows) /\
  calls (the_memory Forward) the_inputs = [Ok [0 :: at_ 0 ++ key_a ++ d15 ++ [0]]; Ok [1 :: at_ 1 ++ key_a ++ d15 ++ [0]; 0 :: at_ 2 ++ key_a ++ d15 ++ [1] ++ text_x]] /\
  calls (the_memory Median) the_inputs = [Ok [0 :: at_ 0 ++ key_a ++ d15 ++ [0]]; Ok [1 :: at_ 1 ++ key_a ++ d25 ++ [0]; 0 :: at_ 2 ++ key_a ++ d25 ++ [1] ++ text_x]] /\
  calls (the_memory Backward) the_inputs = [Ok []; Ok [0 :: at_ 0 ++ key_a ++ d15 ++ [1] ++ text_x]].
Proof.
  split; [lia|]. split; [apply half_up_nearest|]. split; [intros st; split; [reflexivity|]; split; [apply the_rows_bytes|apply the_rows_in]|].
  split; [repeat constructor|]. split.
  { intros k. unfold of_key, the_rows, chronological. cbn [filter fst]. destruct (key_eqb [key_a] k); cbn [map snd]; repeat constructor; cbn; lia. }
  split; [apply med_a_read|]. split.
  { split; [reflexivity|]. intros k [<-|[<-|[]]]; cbn; lia. }
  split; [lazy; reflexivity|split; lazy; reflexivity].
Qed.

(** Flush returns nothing: the rows that Backward holds back never come out. *)
Theorem C68_flush_refuted :
  delivered (value_machine (the_settings [12; 1] Backward) (fun _ => None)) the_rows =
    ([([key_a], (false, 0, [Some d15; Some text_x])); ([key_a], (true, 1000000000, [None; Some text_x])); ([key_a], (false, 2000000000, [None; Some text_x]))], Ok tt) /\
  calls (the_memory Backward) the_inputs = [Ok []; Ok [0 :: at_ 0 ++ key_a ++ d15 ++ [1] ++ text_x]] /\
  forall st, api_flush (the_memory Backward) st = (st, Ok []).
Proof. split; [lazy; reflexivity|]. split; [lazy; reflexivity|]. reflexivity. Qed.
(** A duration column: every row with a value fails, but is remembered: here the value of the first row is in the second. *)
Theorem C68_duration_refuted : forall text,
  let m := mkMemory [1] [18; 1] (the_settings [18; 1] Forward) in
  api_calls 9 (half_up 9) (fun _ => false) text m [] [at_ 0 ++ key_a ++ [1; 5;0;0;0;0;0;0;0; 0]; at_ 1 ++ key_a ++ [0; 0]] = [Throw LogicError; Throw LogicError] /\
  api_calls 9 (half_up 9) (fun _ => false) text m [] [at_ 1 ++ key_a ++ [0; 0]] = [Ok [0 :: at_ 1 ++ key_a ++ [0; 0]]].
Proof. intros text. split; lazy; reflexivity. Qed.
(** Floats have six decimals afterwards, even when nothing is imputed; keys that differ in later digits become one key. *)
Theorem C68_digits_refuted :
  calls (mkMemory [1] [12] (the_settings [12] Forward)) [at_ 0 ++ key_a ++ [0;0;0;0;0;0;112;62]] = [Ok [0 :: at_ 0 ++ key_a ++ [0;0;0;0;0;0;0;0]]] /\
  (let m := mkMemory [12] [1] (the_settings [1] Forward) in
   calls m [at_ 0 ++ [0;0;0;0;0;0;112;62] ++ [1] ++ text_x; at_ 0 ++ [0;0;0;0;0;0;96;62] ++ [0]] =
   [Ok [0 :: at_ 0 ++ [0;0;0;0;0;0;0;0] ++ [1] ++ text_x]; Ok [0 :: at_ 0 ++ [0;0;0;0;0;0;0;0] ++ [1] ++ text_x]]).
Proof. split; lazy; reflexivity. Qed.
(** CreateEstimator accepts columns of Float16, BFloat16, Complex64 and Complex128, every row with such a column is refused. *)
Theorem C68_types_refuted : forall id, In id [10; 13; 14; 15] -> forall st data, (length data > 0)%nat ->
  ts_create true [id] [1] 1 true = Ok ([id], [1], Forward, true) /\
  forall places rounding underflow text, let m := mkMemory [id] [1] (the_settings [1] Forward) in
  match dec_systp (10 ^ Z.of_nat places) data with
  | Ok _ => api_transform places rounding underflow text m st data = (st, Throw RuntimeError)
  | Throw e => api_transform places rounding underflow text m st data = (st, Throw e)
  | UB => True
  end.
Proof.
  intros id Hid st data Hd. split; [destruct Hid as [<-|[<-|[<-|[<-|[]]]]]; reflexivity|]. intros places rounding underflow text. cbv zeta.
  assert (E : column_of id = None) by (destruct Hid as [<-|[<-|[<-|[<-|[]]]]]; reflexivity).
  unfold api_transform, load_row. destruct data as [|z data]; [cbn in Hd; lia|]. cbn [me_keys].
  destruct (dec_systp (10 ^ Z.of_nat places) (z :: data)) as [x|e|]; cbn [bind]; [|reflexivity|exact I]. cbn [load_all]. rewrite E. reflexivity.
Qed.
(** Median without medians for a key and errors not suppressed: the first row of the key is refused but remembered, so a later row that is
    earlier than it is refused as out of order. *)
Theorem C68_remembered_refuted :
  let m := mkMemory [1] [12] (mkSettings (10 ^ 9) [12] Median [] false) in
  calls m [at_ 5 ++ key_a ++ nan8; at_ 3 ++ key_a ++ d15] = [Throw RuntimeError; Throw RuntimeError] /\
  calls m [at_ 3 ++ key_a ++ d15] = [Ok [0 :: at_ 3 ++ key_a ++ d15]].
Proof. split; lazy; reflexivity. Qed.

Print Assumptions C68_calls.
Print Assumptions C68_forward.
Print Assumptions C68_backward.
Print Assumptions C68_median.
Print Assumptions C68_truncated.
Print Assumptions C68_trailing.
