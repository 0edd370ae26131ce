(** The C interface on rows of values (C68). *)
From Coq Require Import Reals.
From Flocq Require Import Core.Core IEEE754.BinarySingleNaN IEEE754.Binary IEEE754.Bits.
From Verif Require Import Base L_List M_Archive L_Archive M_Codec L_Codec M_Pipeline M_Keyed S_Keyed L_Keyed M_Stats M_Save M_String M_TsImpute M_FloatText
  M_TimeText S_TimeText S_Date S_Scale M_TsSave M_TsRows S_TsRows L_TsRows L_TsRows2.
Open Scope Z_scope.

Lemma get_flag (b : bool) r : get_bool ((if b then 1 else 0) :: r) = Ok (b, r).
Proof. destruct b; reflexivity. Qed.
Lemma float_column_of id c : column_of id = Some c -> (is_float id <-> c = Single \/ c = Double).
Proof.
  unfold is_float, column_of. intros H.
  repeat match type of H with (if ?a =? ?b then _ else _) = _ => destruct (Z.eqb_spec a b); [injection H as <-; subst; split; [intros [?|?]; subst; try discriminate; try lia; auto|intros [?|?]; try discriminate; auto]|] end.
  discriminate.
Qed.
Lemma float_test id : is_float id <-> (id =? 11) || (id =? 12) = true.
Proof. unfold is_float. lia. Qed.

Section Rows.
  Variable places : nat.
  Variable rounding : Z -> nat -> Z.
  Hypothesis Hplaces : (1 <= places <= 16)%nat.
  Hypothesis Hround : nearest places rounding.
  Variable underflow : list Z -> bool.
  Variable duration_text : Z -> list Z.
  Notation second := (10 ^ Z.of_nat places).
  Notation load_text := (load_text places duration_text).
  Notation load_cell := (load_cell places duration_text).
  Notation save_text := (save_text places rounding underflow).
  Notation save_cell := (save_cell places rounding underflow).
  Notation holds := (holds places rounding underflow duration_text).

  (** The text [s] in a column of type [id] is written as [b]. *)
  Definition written (id : Z) (s b : list Z) : Prop := exists c, column_of id = Some c /\ save_text c s = Ok b.
  Definition KR (ids : list Z) (texts keys : list (list Z)) : Prop := each3 (key_text places) ids keys texts.

  Lemma keys_alike ids a b a' b' : KR ids a b -> KR ids a' b' -> key_eqb a a' = key_eqb b b'.
  Proof.
    intros H H'. destruct key_is_order as (He & _).
    assert (G : a = a' <-> b = b').
    { revert a' b' H'. unfold KR in *. induction H as [|id x s ids b a Hx _ IH]; intros a' b' H'; inversion H' as [|? x' s' ? b2 a2 Hx' Ha]; subst; [tauto|].
      destruct (IH _ _ Ha) as [I1 I2].
      destruct (key_holds places rounding Hplaces Hround underflow duration_text _ _ _ Hx) as (c & Hc & L1 & S1).
      destruct (key_holds places rounding Hplaces Hround underflow duration_text _ _ _ Hx') as (c' & Hc' & L2 & S2).
      assert (c = c') by congruence. subst c'. split; intros E; injection E as E1 E2.
      - subst s'. assert (x = x') by congruence. subst. now rewrite (I1 eq_refl).
      - subst x'. specialize (L1 []). specialize (L2 []). assert (s = s') by congruence. subst. now rewrite (I2 eq_refl). }
    destruct (key_eqb a a') eqn:E1, (key_eqb b b') eqn:E2; try reflexivity; exfalso.
    - apply He in E1. apply G, He in E1. congruence.
    - apply He in E2. apply G, He in E2. congruence.
  Qed.

  Lemma load_keys ids keys : each2 (fun id b => exists s, key_text places id b s) ids keys ->
    exists texts, KR ids texts keys /\ forall r, load_all load_text ids (concat keys ++ r) = Ok (texts, r).
  Proof.
    induction 1 as [|id b ids keys (s & Hs) _ (texts & HK & IH)]; [exists []; split; [constructor|reflexivity]|].
    exists (s :: texts). split; [constructor; assumption|]. intros r. cbn [load_all concat].
    destruct (key_holds places rounding Hplaces Hround underflow duration_text _ _ _ Hs) as (c & Hc & L & _). rewrite Hc, <- app_assoc, L. cbn [bind fst snd].
    rewrite IH. reflexivity.
  Qed.
  Lemma load_one id cell b : cell_in places id cell b -> exists c t, column_of id = Some c /\ orel written id t cell /\ forall r, load_cell c (b ++ r) = Ok (t, r).
  Proof.
    destruct cell as [v|].
    - intros ((s & Hs) & Hb). destruct (value_holds places rounding Hplaces Hround underflow duration_text _ _ _ Hs) as (c & Hc & L & S). exists c, (Some s).
      split; [exact Hc|]. split; [exists c; auto|]. intros r. pose proof (float_column_of id c Hc) as Hf.
      destruct Hb as [(Hi & ->)|(Hi & ->)].
      + destruct Hs as [(t & v' & Hid & _)|[(-> & x & Hk & -> & ->)|[(-> & x & Hk & -> & ->)|(-> & _)]]].
        * exfalso. now apply (plain_column id t Hid).
        * injection Hc as <-. cbn [M_TsRows.load_cell]. rewrite fixed4 by apply single_range. cbn [bind fst snd]. rewrite single_back, (kept_not_nan _ _ _ Hk). reflexivity.
        * injection Hc as <-. cbn [M_TsRows.load_cell]. rewrite fixed8 by apply double_range. cbn [bind fst snd]. rewrite double_back, (kept_not_nan _ _ _ Hk). reflexivity.
        * exfalso. unfold is_float in Hi. lia.
      + assert (E : load_cell c ((1 :: v) ++ r) = (do b <- get_bool (1 :: v ++ r); if fst b then do x <- load_text c (snd b); Ok (Some (fst x), snd x) else Ok (None, snd b))).
        { destruct c; try reflexivity; exfalso; apply Hi, Hf; auto. }
        rewrite E, (get_flag true). cbn [bind fst snd]. rewrite L. reflexivity.
    - intros [(-> & bits & Hb & Hn & ->)|[(-> & bits & Hb & Hn & ->)|(Hid & ->)]].
      + exists Single, None. split; [reflexivity|]. split; [exact I|]. intros r. cbn [M_TsRows.load_cell]. rewrite fixed4 by exact Hb. cbn [bind fst snd].
        unfold single_of_bits. rewrite is_nan_B2BSN, Hn. reflexivity.
      + exists Double, None. split; [reflexivity|]. split; [exact I|]. intros r. cbn [M_TsRows.load_cell]. rewrite fixed8 by exact Hb. cbn [bind fst snd].
        unfold double_of_bits. rewrite is_nan_B2BSN, Hn. reflexivity.
      + destruct Hid as [(t & Hid)|[-> | ->]]; [destruct (plain_column _ _ Hid) as (Hc & _); exists (Plain t), None|exists Time, None|exists Span, None];
          (split; [first [exact Hc|reflexivity]|]); (split; [exact I|]); intros r; cbn [M_TsRows.load_cell app]; rewrite (get_flag false); reflexivity.
  Qed.
  Lemma load_cells ids cells cs : each3 (cell_in places) ids cells cs ->
    exists ts, crel written ids ts cells /\ forall r, load_all load_cell ids (concat cs ++ r) = Ok (ts, r).
  Proof.
    induction 1 as [|id x b ids cells cs Hx _ (ts & HR & IH)]; [exists []; split; [constructor|reflexivity]|].
    destruct (load_one id x b Hx) as (c & t & Hc & Ht & L). exists (t :: ts). split; [constructor; assumption|]. intros r. cbn [load_all concat].
    rewrite Hc, <- app_assoc, L. cbn [bind fst snd]. rewrite IH. reflexivity.
  Qed.
  Notation row_rel m := (krel (KR (me_keys m)) (irel written (me_data m))).
  Lemma load_row_ok m row data : row_in places m row data ->
    exists x, load_row places duration_text m data = Ok x /\ row_rel m x row.
  Proof.
    destruct row as [keys [t cells]]. intros (bytes & rest & (sec & cs & -> & Hi & Hk & Hc & ->) & ->). rewrite <- !app_assoc.
    destruct (load_keys _ _ Hk) as (texts & HK & LK). destruct (load_cells _ _ _ Hc) as (ts & HC & LC).
    exists (texts, (sec * second, ts)). split.
    - unfold load_row. rewrite (systp_text places Hplaces sec _ Hi). cbn [bind fst snd]. rewrite LK. cbn [bind fst snd]. rewrite LC. reflexivity.
    - split; [exact HK|]. split; [reflexivity|exact HC].
  Qed.
  Lemma row_not_empty m row data : row_in places m row data -> data <> [].
  Proof. destruct row as [keys [t cells]]. intros (bytes & rest & (sec & cs & _ & _ & _ & _ & ->) & ->). discriminate. Qed.

  Lemma save_keys ids texts keys : KR ids texts keys -> save_all save_text ids texts = Ok (concat keys).
  Proof.
    unfold KR. induction 1 as [|id b s ids keys texts Hs _ IH]; [reflexivity|]. cbn [save_all concat].
    destruct (key_holds places rounding Hplaces Hround underflow duration_text _ _ _ Hs) as (c & Hc & _ & S). rewrite Hc, S. cbn [bind]. rewrite IH. reflexivity.
  Qed.
  Lemma save_cells ids ts cells : crel written ids ts cells -> Forall (fun id => column_of id <> None) ids ->
    save_all save_cell ids ts = Ok (concat (map (fun x => cell_out (fst x) (snd x)) (combine ids cells))).
  Proof.
    unfold crel. induction 1 as [|id t x ids ts cells Hx _ IH]; intros Hall; [reflexivity|]. inversion Hall as [|? ? H1 H2]; subst.
    cbn [save_all concat map combine fst snd]. destruct (column_of id) as [c|] eqn:Hc; [|congruence].
    pose proof (float_column_of id c Hc) as Hf.
    assert (E : save_cell c t = Ok (cell_out id x)).
    { destruct t as [s|], x as [b|]; try contradiction.
      - destruct Hx as (c' & Hc' & S). assert (c' = c) by congruence. subst c'. unfold cell_out. destruct ((id =? 11) || (id =? 12)) eqn:Ef.
        + assert (Hc2 : c = Single \/ c = Double) by (apply Hf, float_test; exact Ef). destruct Hc2; subst c; exact S.
        + assert (Hc2 : ~ (c = Single \/ c = Double)) by (intros G; apply Hf, float_test in G; congruence).
          destruct c; try (exfalso; apply Hc2; auto; fail); cbn [M_TsRows.save_cell]; rewrite S; reflexivity.
      - unfold cell_out. destruct ((id =? 11) || (id =? 12)) eqn:Ef.
        + apply float_test in Ef as [-> | ->]; injection Hc as <-; reflexivity.
        + assert (Hc2 : ~ (c = Single \/ c = Double)) by (intros G; apply Hf, float_test in G; congruence).
          destruct c; try (exfalso; apply Hc2; auto; fail); reflexivity. }
    rewrite E. cbn [bind]. rewrite (IH H2). reflexivity.
  Qed.
  Notation result_rel m := (krel (KR (me_keys m)) (trel written (me_data m))).
  Lemma save_row_ok m r s : Forall (fun id => column_of id <> None) (me_data m) -> result_rel m r s -> save_row places rounding underflow m r = Ok (row_out places m s).
  Proof.
    destruct r as [k [[a t] c]], s as [k' [[a' t'] c']]. intros Hall (HK & Ha & Ht & HC). cbn in HK, Ha, Ht, HC. subst a' t'.
    unfold save_row, row_out. rewrite (save_keys _ _ _ HK). cbn [bind]. rewrite (save_cells _ _ _ HC Hall). cbn [bind].
    unfold enc_systp. destruct a; reflexivity.
  Qed.
  Lemma save_rows_ok m l l' : Forall (fun id => column_of id <> None) (me_data m) -> Forall2 (result_rel m) l l' ->
    mapM (save_row places rounding underflow m) l = Ok (map (row_out places m) l').
  Proof. intros Hall. induction 1 as [|r s l l' H _ IH]; [reflexivity|]. cbn [mapM map]. rewrite (save_row_ok _ _ _ Hall H). cbn [bind]. rewrite IH. reflexivity. Qed.

  (** *** Configurations *)
  Variable m : memory.
  Variable med : list (list Z) -> option (list (list Z)).
  Hypothesis Hdata : me_data m = se_types (me_settings m).
  Hypothesis Hmed : se_strategy (me_settings m) = Median -> medians_read places underflow m med.
  Notation s := (me_settings m).

  Lemma supports_float id : column_of id <> None -> supports_median id = true -> is_float id.
  Proof.
    unfold supports_median, is_float. intros H1 H2. assert (H : id = 10 \/ id = 11 \/ id = 12 \/ id = 15) by lia.
    destruct H as [-> |[-> |[-> | ->]]]; auto; exfalso; apply H1; reflexivity.
  Qed.
  Lemma configs_related : Forall (fun id => column_of id <> None) (me_data m) ->
    medians_related (KR (me_keys m)) written (me_data m) (config_of s) (value_config s med).
  Proof.
    intros Hall Hs texts keys HK. cbn in Hs. pose proof (Hmed Hs keys texts HK) as H. unfold config_of, value_config. cbn [ts_medians].
    destruct (m_find key_eqb (se_medians s) texts) as [ms|]; cbn [option_map]; [|rewrite H; exact I].
    destruct H as (bs & -> & H). cbn [some_rel]. clear Hdata. revert Hall. unfold mrel. induction H as [|id x b ids ms bs Hx _ IH]; intros Hall; cbn [map]; [constructor|].
    inversion Hall; subst. constructor; [|now apply IH]. intros Hsup. destruct (supports_float id H1 Hsup) as [-> | ->]; destruct Hx as [X1 X2].
    - destruct (X1 eq_refl) as (y & E & ->). exists Single. split; [reflexivity|]. cbn [M_TsRows.save_text]. rewrite E. reflexivity.
    - destruct (X2 eq_refl) as (y & E & ->). exists Double. split; [reflexivity|]. cbn [M_TsRows.save_text]. rewrite E. reflexivity.
  Qed.

  Notation smap := (map_rel key_eqb key_eqb (KR (me_keys m)) written (me_data m)).
  Lemma cells_supported ids cells cs : each3 (cell_in places) ids cells cs -> Forall (fun id => column_of id <> None) ids.
  Proof. induction 1 as [|id x b ids cells cs Hx _ IH]; [constructor|constructor; [|exact IH]]. destruct (load_one id x b Hx) as (c & t & Hc & _). congruence. Qed.
  Lemma row_supported row data : row_in places m row data -> Forall (fun id => column_of id <> None) (me_data m).
  Proof. destruct row as [keys [t cells]]. intros (bytes & rest & (sec & cs & _ & _ & _ & Hc & _) & _). now apply cells_supported in Hc. Qed.

  Lemma calls_related rows inputs : Forall2 (row_in places m) rows inputs -> forall st st', smap st st' ->
    api_calls places rounding underflow duration_text m st inputs =
    map (rmap (map (row_out places m))) (answers key_eqb key_ltb (value_config s med) st' rows).
  Proof.
    induction 1 as [|row data rows inputs Hrow _ IH]; intros st st' Hst; [reflexivity|].
    pose proof (row_supported _ _ Hrow) as Hall. pose proof (configs_related Hall) as Hcfg.
    destruct (load_row_ok m row data Hrow) as (x & El & Hx).
    cbn [api_calls answers]. unfold api_transform. destruct data as [|d data]; [exfalso; now apply (row_not_empty _ _ _ Hrow)|].
    rewrite El.
    pose proof (exec_related key_eqb key_ltb key_eqb key_ltb (KR (me_keys m)) written (me_data m) (config_of s) (value_config s med)
      eq_refl eq_refl (eq_sym Hdata) (eq_sym Hdata) Hcfg eq_refl key_is_order key_is_order (keys_alike (me_keys m)) st st' x row Hst Hx) as G.
    pose proof (refused_related key_eqb key_ltb key_eqb key_ltb (KR (me_keys m)) written (me_data m) (config_of s) (value_config s med)
      eq_refl key_is_order key_is_order (keys_alike (me_keys m)) st st' x row Hst Hx) as G'.
    cbv zeta in G. unfold ts_machine.
    destruct (t_exec (ts_transformer key_eqb key_ltb (config_of s)) st x) as [o [st1|e|]],
             (t_exec (ts_transformer key_eqb key_ltb (value_config s med)) st' row) as [o' [st1'|e'|]]; cbn [fst snd rres] in G; try (destruct G; contradiction).
    - destruct G as [G1 G2]. rewrite (save_rows_ok m o o' Hall G1). cbn [map]. f_equal. now apply IH.
    - destruct G as [_ <-]. cbn [map]. f_equal. now apply IH.
    - reflexivity.
  Qed.
  Theorem calls_ok rows inputs : Forall2 (row_in places m) rows inputs ->
    api_calls places rounding underflow duration_text m [] inputs =
    map (rmap (map (row_out places m))) (answers key_eqb key_ltb (value_config s med) [] rows).
  Proof. intros H. apply calls_related; [exact H|]. intros a b _. exact I. Qed.
End Rows.
