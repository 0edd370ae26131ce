(** Truncated rows; corollaries (C68). *)
From Verif Require Import Base L_List M_Archive L_Archive M_Codec L_Codec M_Pipeline M_Keyed S_Keyed L_Keyed M_Stats S_Stats S_Impute M_Save M_String M_TsImpute S_TsImpute
  L_TsImpute3 L_TsImpute4 M_FloatText M_TimeText S_TimeText M_TsSave L_TsSave M_TsRows S_TsRows L_TsRows L_TsRows2 L_TsRows3.
Open Scope Z_scope.

Lemma dec_systp_mono q : mono (dec_systp q).
Proof.
  unfold dec_systp.
  apply (bind_mono (dec (TSInt 8)) (fun v r => match v with VInt us => if in_i64 (us * q) then Ok (us * q, r) else UB | _ => UB end)); [apply dec_mono|].
  intros bs v r _ bs' e. right. destruct v; try reflexivity. now destruct (in_i64 _).
Qed.
Lemma throw_parser_mono {A} e : mono (fun _ : list Z => Throw e : res (A * list Z)).
Proof. intros bs x. left. eauto. Qed.

Lemma each_length {A B} (R : A -> B -> Prop) l l' : Forall2 R l l' -> length l = length l'.
Proof. induction 1; cbn; congruence. Qed.
Lemma widths places ids cells cs : each3 (cell_in places) ids cells cs -> length cells = length ids.
Proof. induction 1; cbn; congruence. Qed.
Lemma regular_of places m f rows inputs : Forall2 (row_in places m) rows inputs -> Forall (fun r => in_i64 (fst (snd r) + f) = true) rows ->
  regular f (length (me_data m)) rows.
Proof.
  unfold regular. induction 1 as [|r b rows bs Hr _ IH]; intros Ht; [constructor|]. inversion Ht as [|? ? H1 H2]; subst. constructor; [|exact (IH H2)].
  split; [exact H1|]. destruct r as [k [t c]]. destruct Hr as (by_ & rest & (sec & cs & _ & _ & _ & Hc & _) & _). cbn [snd]. exact (widths _ _ _ _ Hc).
Qed.
Section Cut.
  Variable places : nat.
  Variable duration_text : Z -> list Z.
  Lemma load_text_mono c : mono (load_text places duration_text c).
  Proof.
    destruct c; [apply (map_mono (dec t) (to_string t)), dec_mono| | | | ].
    - apply (map_mono (get_fixed 4) (fun b => float_to_string (single_of_bits b))), get_fixed_mono.
    - apply (map_mono (get_fixed 8) (fun b => float_to_string (double_of_bits b))), get_fixed_mono.
    - apply (map_mono (dec_systp _) (time_to_string places)), dec_systp_mono.
    - apply (map_mono (dec_sysdur _) duration_text), dec_sysdur_mono.
  Qed.
  Lemma flagged_mono c : mono (fun bs => do b <- get_bool bs; if fst b then do x <- load_text places duration_text c (snd b); Ok (Some (fst x), snd x) else Ok (None, snd b)).
  Proof.
    apply (bind_mono get_bool (fun b r => if b then do x <- load_text places duration_text c r; Ok (Some (fst x), snd x) else Ok (None, r))); [apply get_bool_mono|].
    intros bs b r _. destruct b; [apply (map_mono (load_text places duration_text c) Some), load_text_mono|apply ret_mono].
  Qed.
  Lemma load_cell_mono c : mono (load_cell places duration_text c).
  Proof.
    destruct c; [apply (flagged_mono (Plain t))| | |apply (flagged_mono Time)|apply (flagged_mono Span)].
    - apply (map_mono (get_fixed 4) (fun b => if BinarySingleNaN.is_nan (single_of_bits b) then None else Some (float_to_string (single_of_bits b)))), get_fixed_mono.
    - apply (map_mono (get_fixed 8) (fun b => if BinarySingleNaN.is_nan (double_of_bits b) then None else Some (float_to_string (double_of_bits b)))), get_fixed_mono.
  Qed.
  Lemma load_all_mono {A} (f : M_TsRows.column -> parser A) ids : (forall c, mono (f c)) -> mono (load_all f ids).
  Proof.
    intros Hf. induction ids as [|id ids IH]; [apply ret_mono|]. cbn [load_all]. destruct (column_of id) as [c|]; [|apply throw_parser_mono].
    apply (bind_mono (f c) (fun x r => do xs <- load_all f ids r; Ok (x :: fst xs, snd xs))); [apply Hf|]. intros bs x r _.
    apply (map_mono (load_all f ids) (fun l => x :: l)), IH.
  Qed.
  (** [load_row] with what it does not read. *)
  Definition load_row_rest (m : memory) : parser (list (list Z) * (Z * list (option (list Z)))) := fun bs =>
    do t <- dec_systp (10 ^ Z.of_nat places) bs;
    do keys <- load_all (load_text places duration_text) (me_keys m) (snd t);
    do cells <- load_all (load_cell places duration_text) (me_data m) (snd keys);
    Ok ((fst keys, (fst t, fst cells)), snd cells).
  Lemma load_row_rest_mono m : mono (load_row_rest m).
  Proof.
    apply (bind_mono (dec_systp _) (fun t r => do keys <- load_all (load_text places duration_text) (me_keys m) r;
      do cells <- load_all (load_cell places duration_text) (me_data m) (snd keys); Ok ((fst keys, (t, fst cells)), snd cells))); [apply dec_systp_mono|].
    intros bs t r _. apply (bind_mono (load_all _ (me_keys m)) (fun keys r => do cells <- load_all (load_cell places duration_text) (me_data m) r; Ok ((keys, (t, fst cells)), snd cells)));
      [apply load_all_mono, load_text_mono|].
    intros bs' keys r' _. apply (map_mono (load_all _ (me_data m)) (fun cells => (keys, (t, cells)))), load_all_mono, load_cell_mono.
  Qed.
  Lemma load_row_is m bs : load_row places duration_text m bs = rmap fst (load_row_rest m bs).
  Proof.
    unfold load_row, load_row_rest, rmap. destruct (dec_systp _ bs) as [t|e|]; cbn [bind]; try reflexivity.
    destruct (load_all _ (me_keys m) _) as [k|e|]; cbn [bind]; try reflexivity.
    destruct (load_all _ (me_data m) _) as [c|e|]; cbn [bind]; reflexivity.
  Qed.
End Cut.

Section Calls.
  Variable places : nat.
  Variable rounding : Z -> nat -> Z.
  Variable underflow : list Z -> bool.
  Variable duration_text : Z -> list Z.
  Hypothesis Hplaces : (1 <= places <= 16)%nat.
  Hypothesis Hround : nearest places rounding.
  Notation transform := (api_transform places rounding underflow duration_text).

  Lemma load_exact m row data : row_bytes places m row data -> exists x, load_row_rest places duration_text m data = Ok (x, []).
  Proof.
    destruct row as [keys [t cells]]. intros (sec & cs & -> & Hi & Hk & Hc & ->).
    destruct (load_keys places rounding Hplaces Hround underflow duration_text _ _ Hk) as (texts & _ & LK).
    destruct (load_cells places rounding Hplaces Hround underflow duration_text _ _ _ Hc) as (ts & _ & LC).
    exists (texts, (sec * 10 ^ Z.of_nat places, ts)). unfold load_row_rest. rewrite (systp_text places Hplaces sec _ Hi). cbn [bind fst snd]. rewrite LK. cbn [bind fst snd].
    specialize (LC []). rewrite app_nil_r in LC. rewrite LC. reflexivity.
  Qed.
  (** A row cut short is refused and leaves no trace. *)
  Theorem cut_row m row data a b : row_bytes places m row data -> data = a ++ b -> b <> [] ->
    forall st, exists e, transform m st a = (st, Throw e).
  Proof.
    intros Hr -> Hb st. destruct (load_exact m row _ Hr) as (x & E). unfold api_transform.
    destruct a as [|z a]; [eauto|]. rewrite load_row_is.
    destruct (load_row_rest_mono places duration_text m (z :: a) b) as [(e & E')|E'].
    - rewrite E'. cbn. eauto.
    - rewrite E in E'. destruct (load_row_rest places duration_text m (z :: a)) as [[y r]|e|]; try discriminate.
      injection E' as _ E'. symmetry in E'. apply app_eq_nil in E' as [_ E']. contradiction.
  Qed.
  (** What follows a row is not read. *)
  Theorem trailing m row data more : row_bytes places m row data -> forall st, transform m st (data ++ more) = transform m st data.
  Proof.
    intros Hr st. destruct (load_exact m row _ Hr) as (x & E). destruct (load_row_rest_mono places duration_text m data more) as [(e & E')|E']; [congruence|].
    assert (Hne : data <> []) by (destruct row as [k [t c]]; destruct Hr as (sec & cs & _ & _ & _ & _ & ->); discriminate).
    destruct data as [|z data]; [congruence|]. unfold api_transform. cbn [app]. rewrite !load_row_is. change (z :: data ++ more) with ((z :: data) ++ more).
    rewrite E', E. reflexivity.
  Qed.
  (** A call that fails before the conversion of its results leaves the transformer as it was, but for a new key without medians. *)
  Lemma answers_run {K C} (keqb klt : K -> K -> bool) (cfg : config (K := K) (C := C)) rows : forall st o st',
    feed (t_exec (ts_transformer keqb klt cfg)) st rows = (o, Ok st') ->
    exists blocks, answers keqb klt cfg st rows = map Ok blocks /\ concat blocks = o /\ length blocks = length rows.
  Proof.
    induction rows as [|r rs IH]; intros st o st'; cbn [feed answers].
    - intros E. injection E as <- <-. exists []. repeat split.
    - destruct (t_exec (ts_transformer keqb klt cfg) st r) as [o1 [st1|e|]] eqn:E1; cbn [t_exec ts_transformer] in E1 |- *; rewrite ?E1; try discriminate.
      destruct (feed _ st1 rs) as [o2 r2] eqn:E2. intros E. injection E as <- ->.
      destruct (IH _ _ _ E2) as (bl & A & B & L). exists (o1 :: bl). cbn [map concat length]. rewrite A, B, L. repeat split.
  Qed.

  Variable m : memory.
  Variable med : list (list Z) -> option (list (list Z)).
  Hypothesis Hdata : me_data m = se_types (me_settings m).
  Notation s := (me_settings m).
  Notation T := (value_machine s med).
  Notation calls := (api_calls places rounding underflow duration_text m []).
  Variable rows : list (list (list Z) * (Z * list (option (list Z)))).
  Variable inputs : list (list Z).
  Hypothesis Hrows : Forall2 (row_in places m) rows inputs.

  Lemma calls_run o st' : (se_strategy s = Median -> medians_read places underflow m med) ->
    run_exec T (t_cur T) rows = (o, Ok st') ->
    exists blocks, calls inputs = map Ok blocks /\ length blocks = length inputs /\ concat blocks = map (row_out places m) o.
  Proof.
    intros Hmed E. destruct (answers_run _ _ _ _ _ _ _ E) as (bl & A & B & L).
    exists (map (map (row_out places m)) bl). rewrite (calls_ok places rounding Hplaces Hround underflow duration_text m med Hdata Hmed rows inputs Hrows).
    unfold value_machine in *. cbn [t_cur ts_transformer] in A. rewrite A. split; [rewrite !map_map; reflexivity|]. split; [rewrite map_length, L; exact (each_length _ _ _ Hrows)|].
    rewrite <- B, concat_map. reflexivity.
  Qed.
  Hypothesis Htimes : Forall (fun r => in_i64 (fst (snd r) + se_freq s) = true) rows.
  Lemma rows_regular : regular (se_freq s) (length (me_data m)) rows.
  Proof. exact (regular_of places m (se_freq s) rows inputs Hrows Htimes). Qed.
  Hypothesis Hfreq : 0 < se_freq s.
  Hypothesis Hchron : forall k, chronological (of_key key_eqb k rows).
  Notation result o := (exists blocks, calls inputs = map Ok blocks /\ length blocks = length inputs /\ concat blocks = map (row_out places m) o).

  Lemma delivered_run o : delivered T rows = (o, Ok tt) -> run_exec T (t_cur T) rows = (o, snd (run_exec T (t_cur T) rows)) -> exists st', run_exec T (t_cur T) rows = (o, Ok st').
  Proof.
    unfold delivered, run_all. destruct (run_exec T (t_cur T) rows) as [o1 [st1|e|]]; cbn [snd]; [|discriminate|discriminate]. intros _ E. injection E as ->. eauto.
  Qed.
  Theorem forward_calls : se_strategy s = Forward -> exists out, result out /\
    forall k, filled (of_key key_eqb k out) (with_gaps (se_freq s) (of_key key_eqb k rows)) (fun _ col p => filled_forward None col p).
  Proof.
    intros Hs. destruct (forward_top _ _ key_is_order (value_config s med) Hfreq _ _ rows_regular Hchron Hs) as (out & D & R & F).
    destruct (delivered_run out D R) as (st' & E). exists out. split; [|exact F]. apply (calls_run out st'); [congruence|exact E].
  Qed.
  (** The rows that Transform returns are complete; for every key, those still held back start with an incomplete row. *)
  Theorem backward_calls : se_strategy s = Backward -> exists out held, result out /\
    forall k, filled (of_key key_eqb k (out ++ held)) (with_gaps (se_freq s) (of_key key_eqb k rows)) (fun _ col p => filled_backward None col p) /\
      Forall complete (of_key key_eqb k out) /\ (forall r, hd_error (of_key key_eqb k held) = Some r -> ~ complete r).
  Proof.
    intros Hs. destruct (emission_top _ _ key_is_order (value_config s med) Hfreq _ _ rows_regular Hchron Hs) as (o1 & st & o2 & E & _ & _ & _ & F).
    exists o1, o2. split; [|exact F]. apply (calls_run o1 st); [congruence|exact E].
  Qed.
  Theorem median_calls : se_strategy s = Median -> medians_read places underflow m med ->
    covered (se_types s) med (se_suppress s) (length (me_data m)) (map fst rows) -> exists out, result out /\
    forall k, filled (of_key key_eqb k out) (with_gaps (se_freq s) (of_key key_eqb k rows))
      (fun c col p => match nth p col None with
                      | Some v => Some v
                      | None => if float_column (nth c (se_types s) 0) then match med k with Some ms => nth_error ms c | None => None end else None
                      end).
  Proof.
    intros Hs Hmed Hcov. destruct (median_top _ _ key_is_order (value_config s med) Hfreq _ _ rows_regular Hchron Hs Hcov) as (out & D & R & F).
    destruct (delivered_run out D R) as (st' & E). exists out. split; [|exact F]. apply (calls_run out st'); [auto|exact E].
  Qed.
End Calls.
