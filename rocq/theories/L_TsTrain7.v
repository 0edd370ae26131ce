(** The accuracy of the means, and training followed by inference (C70). *)
From Coq Require Import Reals Lra.
From Flocq Require Import Core.Core IEEE754.BinarySingleNaN.
From Verif Require Import Base L_List M_Archive L_Archive M_Codec L_Codec M_Estimator M_Pipeline M_Keyed S_Keyed L_Keyed M_Stats S_Stats M_Save M_String M_Scale L_Float M_TsImpute S_Impute S_TsImpute M_FloatText L_FloatText4
  M_TimeText S_TimeText S_Date S_Scale L_Scale2 M_TsSave M_TsRows S_TsRows L_TsRows L_TsRows2 L_TsRows3 L_TsRows4 M_FloatStats S_FloatStats L_FloatStats L_FloatStats2 L_FloatStats4
  M_TsTrain S_TsTrain L_TsTrain5 L_TsTrain6.
Open Scope Z_scope.

Lemma mean_near (col : list (binary_float 53 1024)) : col <> [] -> Z.of_nat (length col) <= 2 ^ 53 -> is_finite (float_mean col) = true ->
  Forall (fun x => is_finite x = true) col /\
  (Rabs (B2R (float_mean col) - total col / INR (length col)) <= ((1 + unit_error 53) ^ length col - 1) * (magnitude col / INR (length col)) + bpow radix2 (-1075))%R.
Proof.
  intros N L F. unfold float_mean in *.
  assert (Ff : is_finite (fold_left fadd col fzero : binary_float 53 1024) = true).
  { destruct (of_int_exact (prec := 53) (emax := 1024) (Z.of_nat (length col))) as [_ B]; [lia|]. destruct (of_int (Z.of_nat (length col))) as [s|s| |s m e X]; try discriminate B;
      destruct (fold_left fadd col fzero) as [s'|s'| |s' m' e' X']; try reflexivity; discriminate F. }
  destruct (fadd_zero _ Ff) as [Z1 Z2]. change (fadd fzero (fold_left fadd col fzero)) with (fsum_calc col) in Z1, Z2.
  destruct (fmean_spec col ltac:(lia) ltac:(lia) N L Z2) as (A & _ & C). split; [exact A|].
  assert (Hn1 : (1 <= length col)%nat) by (destruct col; [contradiction|cbn; lia]).
  assert (E : fmean_calc col = fdiv (convert (fsum_calc col) : binary_float 53 1024) (of_int (Z.of_nat (length col)))) by (destruct col; [contradiction|reflexivity]).
  destruct (@convert_widen 53 1024 53 1024 _ _ _ _ (fsum_calc col) (Z.le_refl 53) (Z.le_refl 1024) Z2) as [C1 C2].
  destruct (div_count (lp := 53) (le := 1024) (convert (fsum_calc col)) (length col) C2 Hn1 L) as [_ Q2].
  destruct (div_count (lp := 53) (le := 1024) (fold_left fadd col fzero) (length col) Ff Hn1 L) as [_ Q1].
  rewrite E, Q2, C1, Z1 in C. rewrite Q1. clear - C Hn1. replace (length col) with (S (length col - 1)) at 3 by lia.
  replace ((1 + unit_error 53) ^ S (length col - 1))%R with ((1 + unit_error 53) ^ (length col - 1) * (1 + unit_error 53))%R by (cbn [pow]; ring). exact C.
Qed.

Section Then.
  Variable places : nat.
  Variable rounding : Z -> nat -> Z.
  Hypothesis Hplaces : (1 <= places <= 16)%nat.
  Hypothesis Hround : nearest places rounding.
  Variable underflow : list Z -> bool.
  Variable duration_text : Z -> list Z.
  Notation double := (binary_float 53 1024).

  Lemma all_readable (x : double) : exists y : double, float_from_string underflow (float_to_string x) = Ok y /\ (is_nan x = false -> six_places x y) /\ (is_nan x = true -> y = x).
  Proof using Type.
    destruct (is_nan x) eqn:E.
    - exists x. split; [|split; [discriminate|reflexivity]]. destruct x; try discriminate. reflexivity.
    - destruct (read_double underflow x E) as (v & A & B). exists v. split; [exact A|]. split; [intros _; exact B|discriminate].
  Qed.
  (** The median as a value of a column of doubles. *)
  Definition read_back (x : double) : double := match float_from_string underflow (float_to_string x) with Ok y => y | _ => x end.
  Lemma read_back_ok x : float_from_string underflow (float_to_string x) = Ok (read_back x) /\ (is_nan x = false -> six_places x (read_back x)) /\ (is_nan x = true -> read_back x = x).
  Proof using Type. destruct (all_readable x) as (y & A & B). unfold read_back. rewrite A. split; [reflexivity|exact B]. Qed.
  Definition median_bytes (x : double) : list Z := le_bytes 8 (double_bits (read_back x)).

  Variable m : memory.
  Variable md : text_medians.
  (** The medians as a function of the keys. *)
  Definition med_of (keys : list (list Z)) : option (list (list Z)) :=
    match load_all (load_text places duration_text) (me_keys m) (concat keys) with
    | Ok (t, _) => option_map (map median_bytes) (m_find key_eqb md t)
    | _ => None
    end.
  Lemma texts_of keys texts : each3 (key_text places) (me_keys m) keys texts -> load_all (load_text places duration_text) (me_keys m) (concat keys) = Ok (texts, []).
  Proof using Hplaces Hround underflow.
    intros H. assert (G : each2 (fun id b => exists s, key_text places id b s) (me_keys m) keys) by (clear - H; induction H; constructor; eauto).
    destruct (load_keys places rounding Hplaces Hround underflow duration_text _ _ G) as (t & HK & L). specialize (L []). rewrite app_nil_r in L. rewrite L. f_equal. f_equal.
    pose proof (keys_alike places rounding Hplaces Hround underflow duration_text _ _ _ _ _ HK H) as A. destruct key_is_order as (He & _). apply He. rewrite A. now apply He.
  Qed.
  Lemma med_of_ok keys texts : each3 (key_text places) (me_keys m) keys texts -> med_of keys = option_map (map median_bytes) (m_find key_eqb md texts).
  Proof using Hplaces Hround underflow duration_text. intros H. unfold med_of. now rewrite (texts_of _ _ H). Qed.
  Lemma find_map (l : text_medians) t : m_find key_eqb (map (fun e => (fst e, map double_bits (snd e))) l) t = option_map (map double_bits) (m_find key_eqb l t).
  Proof using Type. induction l as [|[k v] l IH]; [reflexivity|]. cbn [map m_find fst snd]. destruct (key_eqb k t); [reflexivity|exact IH]. Qed.
End Then.

Lemma each2_texts places ids keys : each2 (fun id b => exists s, key_text places id b s) ids keys -> exists texts, each3 (key_text places) ids keys texts.
Proof. induction 1 as [|id b ids keys (s & Hs) _ (t & IH)]; [exists []; constructor|]. exists (s :: t). now constructor. Qed.

Section Both.
  Variable places : nat.
  Variable rounding : Z -> nat -> Z.
  Hypothesis Hplaces : (1 <= places <= 16)%nat.
  Hypothesis Hround : nearest places rounding.
  Variable underflow : list Z -> bool.
  Variable duration_text : Z -> list Z.
  Variables (keys_types types : list Z) (s0 : settings).
  Notation m := (mkMemory keys_types types s0).
  Variables (bs : list (list (list (list Z) * (Z * list (option (list Z)))))) (inputs : list (list (list Z))).
  Hypothesis Hgiven : Forall2 (Forall2 (row_given places keys_types types)) bs inputs.
  Hypothesis Hbs : bs <> [].
  Hypothesis Hall : Forall (fun b => b <> []) bs.
  Variables (how : strategy) (suppress : bool).
  Notation rows := (concat bs).
  Notation T := (train (api_impl places duration_text m) inputs).
  Hypothesis Htypes : types <> [].
  Hypothesis Hsteps : forall k g, In g (steps_of k rows) -> 0 < g < i64_max.
  Hypothesis Hsome : exists k, steps_of k rows <> [].
  Hypothesis Hfilled : filled_columns types rows.
  Variables (news : list (list (list Z) * (Z * list (option (list Z))))) (data : list (list Z)).
  Hypothesis Hchron : forall k, chronological (of_key key_eqb k news).
  Hypothesis Hrange : forall f, smallest_step f rows -> Forall (fun r => in_i64 (fst (snd r) + f) = true) news.
  Notation the_settings f md := (mkSettings f types how (map (fun e => (fst e, map double_bits (snd e))) md) suppress).
  Notation trained_memory s := (mkMemory keys_types types s).
  Hypothesis Hnews : Forall2 (row_in places m) news data.
  Notation result m' o := (exists blocks, api_calls places rounding underflow duration_text m' [] data = map Ok blocks /\ length blocks = length data /\ concat blocks = map (row_out places m') o).

  Lemma news_in s : Forall2 (row_in places (trained_memory s)) news data.
  Proof using Hnews. exact Hnews. Qed.
  Theorem then_forward : how = Forward -> exists f md s, learns underflow types how suppress T f md s /\ smallest_step f rows /\
    exists out, result (trained_memory s) out /\
    forall k, filled (of_key key_eqb k out) (with_gaps f (of_key key_eqb k news)) (fun _ col p => filled_forward None col p).
  Proof using All.
    intros Hh. destruct (interface_ok places rounding Hplaces Hround underflow duration_text m bs inputs Hgiven Hbs Hall how suppress Htypes Hsteps Hsome Hfilled) as (f & md & HL & Hf & Hs & HM).
    cbn [me_data me_keys] in *. exists f, md, (the_settings f md). split; [exact HL|]. split; [exact Hs|].
    exact (forward_calls places rounding underflow duration_text Hplaces Hround (trained_memory (the_settings f md)) (fun _ => None) eq_refl news data (news_in _) (Hrange f Hs) (proj1 Hf) Hchron Hh).
  Qed.
  Theorem then_backward : how = Backward -> exists f md s, learns underflow types how suppress T f md s /\ smallest_step f rows /\
    exists out held, result (trained_memory s) out /\
    forall k, filled (of_key key_eqb k (out ++ held)) (with_gaps f (of_key key_eqb k news)) (fun _ col p => filled_backward None col p) /\
      Forall complete (of_key key_eqb k out) /\ (forall r, hd_error (of_key key_eqb k held) = Some r -> ~ complete r).
  Proof using All.
    intros Hh. destruct (interface_ok places rounding Hplaces Hround underflow duration_text m bs inputs Hgiven Hbs Hall how suppress Htypes Hsteps Hsome Hfilled) as (f & md & HL & Hf & Hs & HM).
    cbn [me_data me_keys] in *. exists f, md, (the_settings f md). split; [exact HL|]. split; [exact Hs|].
    exact (backward_calls places rounding underflow duration_text Hplaces Hround (trained_memory (the_settings f md)) (fun _ => None) eq_refl news data (news_in _) (Hrange f Hs) (proj1 Hf) Hchron Hh).
  Qed.
  Hypothesis Hids : ~ In 11 types.
  Hypothesis Hknown : suppress = true \/ forall k, In k (map fst news) -> of_key key_eqb k rows <> [].
  Theorem then_median : how = Median -> exists f md s, learns underflow types how suppress T f md s /\ smallest_step f rows /\
    exists med out, medians_given places keys_types types med rows /\ result (trained_memory s) out /\
    forall k, filled (of_key key_eqb k out) (with_gaps f (of_key key_eqb k news))
      (fun c col p => match nth p col None with
                      | Some v => Some v
                      | None => if float_column (nth c types 0) then match med k with Some ms => nth_error ms c | None => None end else None
                      end).
  Proof using All.
    intros Hh. destruct (interface_ok places rounding Hplaces Hround underflow duration_text m bs inputs Hgiven Hbs Hall how suppress Htypes Hsteps Hsome Hfilled) as (f & md & HL & Hf & Hs & HM).
    cbn [me_data me_keys] in *. exists f, md, (the_settings f md). split; [exact HL|]. split; [exact Hs|].
    assert (Hlen : forall t v, m_find key_eqb md t = Some v -> (exists keys, each3 (key_text places) keys_types keys t) -> length v = length types).
    { intros t v E (keys & H). specialize (HM keys t H). rewrite E in HM. apply HM. }
    set (med := fun keys => match load_all (load_text places duration_text) keys_types (concat keys) with Ok (t, _) => option_map (map (median_bytes underflow)) (m_find key_eqb md t) | _ => None end).
    assert (Hmed : forall keys texts, each3 (key_text places) keys_types keys texts -> med keys = option_map (map (median_bytes underflow)) (m_find key_eqb md texts)).
    { intros keys texts H. exact (med_of_ok places rounding Hplaces Hround underflow duration_text m md keys texts H). }
    assert (Hgm : medians_given places keys_types types med rows).
    { intros keys H. destruct (each2_texts _ _ _ H) as (texts & H3). rewrite (Hmed keys texts H3). specialize (HM keys texts H3). destruct (m_find key_eqb md texts) as [v|]; cbn [option_map]; [|exact HM].
      destruct HM as (H1 & H2 & H4). split; [exact H1|]. split; [now rewrite map_length|]. intros c Hc Hid.
      destruct (H4 c Hc) as (col & Hcol & Ev); [rewrite Hid; reflexivity|]. rewrite Hid in Hcol. exists col, (read_back underflow (float_mean col)). split; [exact Hcol|]. split.
      - destruct (read_back_ok underflow (float_mean col)) as (_ & A & B). destruct (is_nan (float_mean col)) eqn:En; [left; split; [exact En|rewrite (B eq_refl); exact En]|right; exact (A eq_refl)].
      - rewrite nth_error_map, (nth_error_nth' v fzero) by (rewrite H2; exact Hc). cbn [option_map]. rewrite Ev. reflexivity. }
    exists med. 
    set (s := mkSettings f types how (map (fun e => (fst e, map double_bits (snd e))) md) suppress).
    assert (Hread : medians_read places underflow (trained_memory s) med).
    { intros keys texts H. cbn [me_keys me_settings se_medians me_data s] in *. rewrite find_map, (Hmed keys texts H). destruct (m_find key_eqb md texts) as [v|] eqn:E; cbn [option_map]; [|reflexivity].
      exists (map (median_bytes underflow) v). split; [reflexivity|]. assert (L : length v = length types) by (apply (Hlen _ _ E); now exists keys).
      clear - L Hids. revert v L. induction types as [|id ids IH]; intros [|x v] Hl; try discriminate Hl; cbn [map]; [constructor|].
      constructor; [|apply IH; [intros X; apply Hids; now right|now injection Hl]]. split; [intros ->; exfalso; apply Hids; now left|]. intros _.
      exists (read_back underflow x). split; [|reflexivity]. rewrite double_back. apply read_back_ok. }
    assert (Hcov : covered types med suppress (length types) (map fst news)).
    { split; [reflexivity|]. intros k Hk. assert (H : each2 (fun id b => exists s, key_text places id b s) keys_types k).
      { clear - Hk Hnews. pose proof Hnews as Hn. clear Hnews. induction Hn as [|[k' [t' c']] d news data Hr _ IH]; [destruct Hk|]. destruct Hk as [<-|Hk]; [|exact (IH Hk)].
        destruct Hr as (by_ & rest & (sec & cs & _ & _ & Hk' & _) & _). exact Hk'. }
      specialize (Hgm k H). destruct (med k) as [v|]; [destruct Hgm as (_ & L & _); rewrite L; constructor|]. destruct Hknown as [Hk'|Hk']; [exact Hk'|]. exfalso. exact (Hk' k Hk Hgm). }
    destruct (median_calls places rounding underflow duration_text Hplaces Hround (trained_memory s) med eq_refl news data (news_in s) (Hrange f Hs) (proj1 Hf) Hchron Hh Hread Hcov) as (out & HO & HF).
    exists out. split; [exact Hgm|]. split; [exact HO|exact HF].
  Qed.
End Both.

Lemma small_lost (x v : binary_float 53 1024) : (Rabs (B2R x) < / 2000000)%R -> is_finite x = true -> six_places x v -> B2R v = 0%R.
Proof.
  intros H F [(s & -> & _)|(_ & _ & _ & E)]; [discriminate|]. rewrite E. replace (ZnearestE (B2R x * 1000000)) with 0%Z.
  - unfold Rdiv. rewrite Rmult_0_l. apply (rnd_0 (prec := 53) (emax := 1024)).
  - symmetry. apply Znearest_imp. rewrite Rminus_0_r, Rabs_mult, (Rabs_right 1000000) by lra. lra.
Qed.

(** A batch with a row that is cut short is refused and leaves the estimator as it was. *)
Section CutBatch.
  Variables (places : nat) (rounding : Z -> nat -> Z) (underflow : list Z -> bool) (duration_text : Z -> list Z).
  Hypothesis Hplaces : (1 <= places <= 16)%nat.
  Hypothesis Hround : nearest places rounding.
  Lemma cut_load (m : memory) row a b : row_bytes places m row (a ++ b) -> b <> [] -> exists e, load_row places duration_text m a = Throw e.
  Proof.
    intros Hr Hb. destruct (load_exact places rounding underflow duration_text Hplaces Hround m row _ Hr) as (x & E). rewrite load_row_is.
    destruct (load_row_rest_mono places duration_text m a b) as [(e & E')|E'].
    - rewrite E'. cbn. eauto.
    - rewrite E in E'. destruct (load_row_rest places duration_text m a) as [[y r]|e|]; try discriminate.
      injection E' as _ E'. symmetry in E'. apply app_eq_nil in E' as [_ E']. contradiction.
  Qed.
  Lemma good_load (m : memory) row data : row_in places m row data -> exists x, load_row places duration_text m data = Ok x.
  Proof.
    intros (bytes & rest & Hr & ->). destruct (load_exact places rounding underflow duration_text Hplaces Hround m row _ Hr) as (x & E). rewrite load_row_is.
    destruct (load_row_rest_mono places duration_text m bytes rest) as [(e & E')|E']; [congruence|]. rewrite E', E. cbn. eauto.
  Qed.
  Theorem cut_batch (m : memory) goods cut others (e : est (list (elem text_row))) :
    Forall (fun d => exists r, row_in places m r d) goods -> (exists r rest, row_bytes places m r (cut ++ rest) /\ rest <> []) -> e_state e = Training ->
    exists x, fit (api_impl places duration_text m) e (Some (goods ++ cut :: others)) = (e, Throw x).
  Proof.
    intros Hg (r & rest & Hr & Hne) He. destruct (cut_load m r cut rest Hr Hne) as (x & Hx). exists x.
    assert (Hm : mapM (load_row places duration_text m) (goods ++ cut :: others) = Throw x).
    { induction Hg as [|d goods (r' & Hd) Hg IH]; cbn [app mapM]; [rewrite Hx; reflexivity|].
      destruct (good_load m r' d Hd) as (y & ->). cbn [bind]. rewrite IH. reflexivity. }
    unfold fit. rewrite He. destruct (goods ++ cut :: others) as [|d l] eqn:El; [destruct goods; discriminate|].
    unfold api_impl. cbn [i_fit]. rewrite Hm. destruct e as [s c im]. cbn in *. subst s. reflexivity.
  Qed.
End CutBatch.
