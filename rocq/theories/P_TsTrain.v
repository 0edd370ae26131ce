(** C70: what the time series imputer learns. *)
From Coq Require Import String Reals Lra.
From Flocq Require Import Core.Core IEEE754.BinarySingleNaN.
From Coq.Floats Require SpecFloat.
From Verif Require Import Base M_Archive M_Codec M_Estimator M_Stats S_Stats S_Impute M_Pipeline M_Save M_Keyed S_Keyed M_String M_Scale S_Scale M_TsImpute S_TsImpute M_Date M_FloatText M_TimeText S_TimeText L_TimeText4
  M_TsSave M_TsRows S_TsRows S_FloatStats P_TsRows M_TsTrain S_TsTrain L_TsTrain L_TsTrain4 L_TsTrain5 L_TsTrain6 L_TsTrain7.
Open Scope string_scope.
Open Scope list_scope.
Open Scope Z_scope.

(** *** The estimator on rows of texts *)
Section Texts.
  Variables (underflow : list Z -> bool) (types : list Z) (how : strategy) (suppress : bool).
  Variable bs : list (list text_row).
  Hypothesis Hbs : bs <> [].
  Hypothesis Hall : Forall (fun b => b <> []) bs.
  Hypothesis Hw : of_width types (concat bs).
  Notation rows := (concat bs).
  Notation T := (train pipeline_impl bs).
  (** The transformer gets the smallest step and the means of every key, however the rows come in batches. *)
  Theorem C70_trained : types <> [] -> (forall k g, In g (steps_of k rows) -> 0 < g < i64_max) -> (exists k, steps_of k rows <> []) ->
    readable underflow types rows -> filled_columns types rows ->
    exists f m, learns underflow types how suppress T f m (mkSettings f types how (map (fun e => (fst e, map double_bits (snd e))) m) suppress) /\
      0 < f < i64_max /\ smallest_step f rows /\ means_of underflow types m rows.
  Proof. exact (outcome_ok underflow types how suppress T rows _ (fun ann fuel => train_steps underflow types how suppress ann bs Hbs Hall fuel) (concat_nonempty bs Hbs Hall) Hw). Qed.
  (** Two rows of a key in the wrong order, or at the same time. *)
  Theorem C70_unordered : (forall k g, In g (steps_of k rows) -> g <= i64_max) -> (exists k g, In g (steps_of k rows) /\ g <= 0) ->
    refuses underflow types how suppress T RuntimeError.
  Proof. exact (outcome_unordered underflow types how suppress T rows _ (fun ann fuel => train_steps underflow types how suppress ann bs Hbs Hall fuel)). Qed.
  (** A floating point column without any value for some key, whatever the strategy. *)
  Theorem C70_missing : (forall k g, In g (steps_of k rows) -> 0 < g < i64_max) -> readable underflow types rows ->
    (exists k c, of_key key_eqb k rows <> [] /\ (c < length types)%nat /\ float_column (nth c types 0) = true /\ column_of_key k c rows = []) ->
    refuses underflow types how suppress T RuntimeError.
  Proof. exact (outcome_missing underflow types how suppress T rows _ (fun ann fuel => train_steps underflow types how suppress ann bs Hbs Hall fuel) (concat_nonempty bs Hbs Hall) Hw). Qed.
  (** A text in a floating point column that is not a number. *)
  Theorem C70_unreadable : (forall k g, In g (steps_of k rows) -> 0 < g < i64_max) ->
    (exists k c s, (c < length types)%nat /\ float_column (nth c types 0) = true /\ In s (column_of_key k c rows) /\
       forall v : binary_float 53 1024, float_from_string underflow s <> Ok v) ->
    refuses underflow types how suppress T InvalidArgument \/ refuses underflow types how suppress T OutOfRange.
  Proof. exact (outcome_unreadable underflow types how suppress T rows _ (fun ann fuel => train_steps underflow types how suppress ann bs Hbs Hall fuel) (concat_nonempty bs Hbs Hall) Hw). Qed.
  (** No key with two rows. *)
  Theorem C70_single_rows : (forall k, steps_of k rows = []) -> readable underflow types rows -> filled_columns types rows ->
    refuses underflow types how suppress T RuntimeError.
  Proof. exact (outcome_single underflow types how suppress T rows _ (fun ann fuel => train_steps underflow types how suppress ann bs Hbs Hall fuel) (concat_nonempty bs Hbs Hall) Hw). Qed.
End Texts.
Print Assumptions C70_trained.
Print Assumptions C70_unordered.
Print Assumptions C70_missing.
Print Assumptions C70_unreadable.
Print Assumptions C70_single_rows.

(** A call of Fit with a row that is cut short is refused, and the estimator is what it was before the call. *)
Theorem C70_cut_row : forall places rounding (underflow : list Z -> bool) duration_text, (1 <= places <= 16)%nat -> nearest places rounding ->
  forall (m : memory) goods cut others (e : est (list (elem text_row))),
  Forall (fun d => exists r, row_in places m r d) goods -> (exists r rest, row_bytes places m r (cut ++ rest) /\ rest <> []) -> e_state e = Training ->
  exists x, fit (api_impl places duration_text m) e (Some (goods ++ cut :: others)) = (e, Throw x).
Proof. exact cut_batch. Qed.
Print Assumptions C70_cut_row.

(** *** The C interface on rows of values *)
Section Values.
  Variables (places : nat) (rounding : Z -> nat -> Z) (underflow : list Z -> bool) (duration_text : Z -> list Z).
  Hypothesis Hplaces : (1 <= places <= 16)%nat.
  Hypothesis Hround : nearest places rounding.
  Variables (keys_types types : list Z) (s0 : settings).
  Notation m := (mkMemory keys_types types s0).
  Variables (bs : list (list (list (list Z) * (Z * list (option (list Z)))))) (inputs : list (list (list Z))).
  Hypothesis Hgiven : Forall2 (Forall2 (row_given places keys_types types)) bs inputs.
  Hypothesis Hbs : bs <> [].
  Hypothesis Hall : Forall (fun b => b <> []) bs.
  Variables (how : strategy) (suppress : bool).
  Notation rows := (concat bs).
  Notation T := (train (api_impl places duration_text m) inputs).
  (** The numbers of a floating point column are those that were given, with six decimals. *)
  Theorem C70_interface : types <> [] -> (forall k g, In g (steps_of k rows) -> 0 < g < i64_max) -> (exists k, steps_of k rows <> []) ->
    filled_columns types rows ->
    exists f md, learns underflow types how suppress T f md (mkSettings f types how (map (fun e => (fst e, map double_bits (snd e))) md) suppress) /\
      0 < f < i64_max /\ smallest_step f rows /\ means_given places keys_types types md rows.
  Proof. exact (interface_ok places rounding Hplaces Hround underflow duration_text m bs inputs Hgiven Hbs Hall how suppress). Qed.
  Theorem C70_interface_unordered : (forall k g, In g (steps_of k rows) -> g <= i64_max) -> (exists k g, In g (steps_of k rows) /\ g <= 0) ->
    refuses underflow types how suppress T RuntimeError.
  Proof. exact (interface_unordered places rounding Hplaces Hround underflow duration_text m bs inputs Hgiven Hbs Hall how suppress). Qed.
  Theorem C70_interface_missing : (forall k g, In g (steps_of k rows) -> 0 < g < i64_max) ->
    (exists k c, of_key key_eqb k rows <> [] /\ (c < length types)%nat /\ float_column (nth c types 0) = true /\ column_of_key k c rows = []) ->
    refuses underflow types how suppress T RuntimeError.
  Proof. exact (interface_missing places rounding Hplaces Hround underflow duration_text m bs inputs Hgiven Hbs Hall how suppress). Qed.
  Theorem C70_interface_single_rows : (forall k, steps_of k rows = []) -> filled_columns types rows -> refuses underflow types how suppress T RuntimeError.
  Proof. exact (interface_single places rounding Hplaces Hround underflow duration_text m bs inputs Hgiven Hbs Hall how suppress). Qed.

  (** *** Training, then Transform on new rows (C68) *)
  Hypothesis Htypes : types <> [].
  Hypothesis Hsteps : forall k g, In g (steps_of k rows) -> 0 < g < i64_max.
  Hypothesis Hsome : exists k, steps_of k rows <> [].
  Hypothesis Hfilled : filled_columns types rows.
  Variables (news : list (list (list Z) * (Z * list (option (list Z))))) (data : list (list Z)).
  Hypothesis Hchron : forall k, chronological (of_key key_eqb k news).
  Hypothesis Hrange : forall f, smallest_step f rows -> Forall (fun r => in_i64 (fst (snd r) + f) = true) news.
  Hypothesis Hnews : Forall2 (row_in places m) news data.
  Notation with_settings s := (mkMemory keys_types types s).
  Theorem C70_then_forward : how = Forward -> exists f md s, learns underflow types how suppress T f md s /\ smallest_step f rows /\
    exists out, returned places rounding underflow duration_text (with_settings s) data out /\
    forall k, filled (of_key key_eqb k out) (with_gaps f (of_key key_eqb k news)) (fun _ col p => filled_forward None col p).
  Proof. exact (then_forward places rounding Hplaces Hround underflow duration_text keys_types types s0 bs inputs Hgiven Hbs Hall how suppress Htypes Hsteps Hsome Hfilled news data Hchron Hrange Hnews). Qed.
  Theorem C70_then_backward : how = Backward -> exists f md s, learns underflow types how suppress T f md s /\ smallest_step f rows /\
    exists out held, returned places rounding underflow duration_text (with_settings s) data out /\
    forall k, filled (of_key key_eqb k (out ++ held)) (with_gaps f (of_key key_eqb k news)) (fun _ col p => filled_backward None col p) /\
      Forall complete (of_key key_eqb k out) /\ (forall r, hd_error (of_key key_eqb k held) = Some r -> ~ complete r).
  Proof. exact (then_backward places rounding Hplaces Hround underflow duration_text keys_types types s0 bs inputs Hgiven Hbs Hall how suppress Htypes Hsteps Hsome Hfilled news data Hchron Hrange Hnews). Qed.
  (** Without Float32 columns: nulls of Float64 columns become the mean of the training rows of the key, with six decimals. *)
  Theorem C70_then_median : ~ In 11 types -> (suppress = true \/ forall k, In k (map fst news) -> of_key key_eqb k rows <> []) ->
    how = Median -> exists f md s, learns underflow types how suppress T f md s /\ smallest_step f rows /\
    exists med out, medians_given places keys_types types med rows /\ returned places rounding underflow duration_text (with_settings s) data out /\
    forall k, filled (of_key key_eqb k out) (with_gaps f (of_key key_eqb k news))
      (fun c col p => match nth p col None with
                      | Some v => Some v
                      | None => if float_column (nth c types 0) then match med k with Some ms => nth_error ms c | None => None end else None
                      end).
  Proof. exact (then_median places rounding Hplaces Hround underflow duration_text keys_types types s0 bs inputs Hgiven Hbs Hall how suppress Htypes Hsteps Hsome Hfilled news data Hchron Hrange Hnews). Qed.
End Values.
Print Assumptions C70_interface.
Print Assumptions C70_interface_unordered.
Print Assumptions C70_interface_missing.
Print Assumptions C70_interface_single_rows.
Print Assumptions C70_then_forward.
Print Assumptions C70_then_backward.
Print Assumptions C70_then_median.

(** A finite mean is near the exact one. *)
Theorem C70_mean : forall col : list (binary_float 53 1024), col <> [] -> Z.of_nat (length col) <= 2 ^ 53 -> is_finite (float_mean col) = true ->
  Forall (fun x => is_finite x = true) col /\
  (Rabs (B2R (float_mean col) - total col / INR (length col)) <= ((1 + unit_error 53) ^ length col - 1) * (magnitude col / INR (length col)) + bpow radix2 (-1075))%R.
Proof. exact mean_near. Qed.
Print Assumptions C70_mean.
(** A double with at most six decimals is taken as it is ... *)
Theorem C70_kept : forall x v : binary_float 53 1024, kept x -> six_places x v -> v = x.
Proof. exact six_places_kept. Qed.
Print Assumptions C70_kept.
(** ... but numbers below half a millionth count as zero: a column of those has mean zero. *)
Theorem C70_small_refuted : forall (x v : binary_float 53 1024), (Rabs (B2R x) < / 2000000)%R -> is_finite x = true -> six_places x v -> B2R v = 0%R.
Proof. exact small_lost. Qed.
Print Assumptions C70_small_refuted.

(** *** Example: String key, a Float64 and a String column; batches of two rows and one. *)
Definition train_rows : list (list (list (list Z) * (Z * list (option (list Z))))) :=
  [[([key_a], (0, [Some d15; None])); ([key_a], (2000000000, [Some d25; Some text_x]))]; [([key_a], (3000000000, [None; None]))]].
Definition train_inputs : list (list (list Z)) :=
  [[at_ 0 ++ key_a ++ d15 ++ [0]; at_ 2 ++ key_a ++ d25 ++ [1] ++ text_x]; [at_ 3 ++ key_a ++ nan8 ++ [0; 7; 7]]].
Lemma key_a_given : each2 (fun id b => exists s, key_text 9 id b s) [1] [key_a].
Proof. constructor; [exists (chars "a"); apply a_key_text|constructor]. Qed.
Lemma d_given bits b : BinarySingleNaN.is_nan (double_of_bits bits) = false -> b = le_bytes 8 (double_bits (double_of_bits bits)) -> cell_given 9 12 (Some b) b.
Proof. intros H ->. split; [|left; split; [now right|reflexivity]]. eexists. right. right. split; [reflexivity|]. exists (double_of_bits bits). auto. Qed.
Lemma x_given : cell_given 9 1 (Some text_x) (1 :: text_x).
Proof.
  split; [|right; split; [unfold is_float; lia|reflexivity]]. exists (chars "x"). left. left. exists TString, (VStr (chars "x")). repeat split; constructor.
Qed.
Lemma null_text : cell_given 9 1 None [0].
Proof. right. right. split; [left; exists TString; constructor|reflexivity]. Qed.
Lemma train_given : Forall2 (Forall2 (row_given 9 [1] [12; 1])) train_rows train_inputs.
Proof.
  constructor; [constructor; [|constructor; [|constructor]]|constructor; [constructor; [|constructor]|constructor]].
  - exists 0, [d15; [0]], []. split; [reflexivity|]. split; [reflexivity|]. split; [apply key_a_given|]. split; [|reflexivity].
    constructor; [apply (d_given 4609434218613702656); reflexivity|]. constructor; [apply null_text|constructor].
  - exists 2, [d25; 1 :: text_x], []. split; [reflexivity|]. split; [reflexivity|]. split; [apply key_a_given|]. split; [|reflexivity].
    constructor; [apply (d_given 4612811918334230528); reflexivity|]. constructor; [apply x_given|constructor].
  - exists 3, [nan8; [0]], [7; 7]. split; [reflexivity|]. split; [reflexivity|]. split; [apply key_a_given|]. split; [|reflexivity].
    constructor; [|constructor; [apply null_text|constructor]]. right. left. split; [reflexivity|]. exists 18444492273895866369.
    split; [split; [discriminate|reflexivity]|]. split; reflexivity.
Qed.
Example C70_case : (1 <= 9 <= 16)%nat /\ nearest 9 (half_up 9) /\ Forall2 (Forall2 (row_given 9 [1] [12; 1])) train_rows train_inputs /\
  train_rows <> [] /\ Forall (fun b => b <> []) train_rows /\ (forall k g, In g (steps_of k (concat train_rows)) -> 0 < g < i64_max) /\ (exists k, steps_of k (concat train_rows) <> []) /\
  filled_columns [12; 1] (concat train_rows) /\ smallest_step (10 ^ 9) (concat train_rows) /\
  column_of_key [key_a] 0 (concat train_rows) = [d15; d25] /\ B2SF (float_mean [double_of_bits 4609434218613702656; double_of_bits 4612811918334230528]) = SpecFloat.S754_finite false 4503599627370496 (-51) /\
  (forall f, smallest_step f (concat train_rows) -> Forall (fun r => in_i64 (fst (snd r) + f) = true) the_rows) /\
  (forall k, In k (map fst the_rows) -> of_key key_eqb k (concat train_rows) <> []) /\
  (exists s0, Forall2 (row_in 9 (mkMemory [1] [12; 1] s0)) the_rows the_inputs).
Proof.
  assert (G : forall k, steps_of k (concat train_rows) = if key_eqb [key_a] k then [2000000000; 1000000000] else []).
  { intros k. unfold steps_of, of_key, train_rows. cbn [concat app filter fst]. destruct (key_eqb [key_a] k); reflexivity. }
  split; [lia|]. split; [apply half_up_nearest|]. split; [apply train_given|]. split; [discriminate|]. split; [repeat constructor; discriminate|].
  split. { intros k g. rewrite G. destruct (key_eqb [key_a] k); [|intros []]. intros [<-|[<-|[]]]; split; reflexivity. }
  split; [exists [key_a]; rewrite G; discriminate|].
  split. { intros k c. unfold column_of_key, of_key, train_rows. cbn [concat app filter fst]. destruct (key_eqb [key_a] k); [|intros H; now exfalso]. intros _ Hc Hf.
           destruct c as [|[|c]]; [discriminate|discriminate Hf|cbn in Hc; lia]. }
  assert (S : smallest_step (10 ^ 9) (concat train_rows)).
  { split; [exists [key_a]; rewrite G; right; left; reflexivity|]. intros k g. rewrite G. destruct (key_eqb [key_a] k); [|intros []]. intros [<-|[<-|[]]]; discriminate. }
  split; [exact S|]. split; [reflexivity|]. split; [lazy; reflexivity|].
  split. { intros f [(k & H) _]. rewrite G in H. destruct (key_eqb [key_a] k); [|destruct H]. destruct H as [<-|[<-|[]]]; repeat constructor. }
  split. { intros k [<-|[<-|[]]]; discriminate. }
  exists (the_settings [12; 1] Forward). exact (the_rows_in Forward).
Qed.
(** Training for Forward fails because a mean that is not needed cannot be computed: key "a" has only nulls. *)
Theorem C70_unneeded_mean_refuted : forall underflow suppress,
  refuses underflow [12] Forward suppress (train pipeline_impl [[([chars "a"], (0, [None])); ([chars "a"], (1, [None]))]]) RuntimeError.
Proof.
  intros underflow suppress.
  assert (G : forall k, of_key key_eqb k [([chars "a"], (0, [@None (list Z)])); ([chars "a"], (1, [None]))] = if key_eqb [chars "a"] k then [(0, [None]); (1, [None])] else []).
  { intros k. unfold of_key. cbn [filter fst]. destruct (key_eqb [chars "a"] k); reflexivity. }
  apply C70_missing; [discriminate|repeat constructor; discriminate|repeat constructor| | |]; cbn [concat app].
  - intros k g. unfold steps_of. rewrite G. destruct (key_eqb [chars "a"] k); [|intros []]. intros [<-|[]]. split; reflexivity.
  - intros k c _ _. unfold column_of_key. rewrite G. destruct (key_eqb [chars "a"] k); [|constructor]. destruct c as [|[|c]]; constructor.
  - exists [chars "a"], 0%nat. split; [discriminate|]. split; [constructor|]. split; reflexivity.
Qed.
Print Assumptions C70_unneeded_mean_refuted.
