(** Training through the C interface, on rows of values (C70). *)
From Coq Require Import Reals.
From Flocq Require Import Core.Core IEEE754.BinarySingleNaN IEEE754.Binary IEEE754.Bits.
From Verif Require Import Base L_List M_Archive L_Archive M_Codec L_Codec M_Estimator M_Pipeline M_Keyed S_Keyed L_Keyed M_Stats S_Stats M_Save M_String M_Scale M_TsImpute S_TsImpute L_TsImpute3 M_FloatText
  M_TimeText S_TimeText L_TimeText4 S_Date S_Scale M_TsSave M_TsRows S_TsRows L_TsRows L_TsRows2 L_TsRows3 M_TsTrain S_TsTrain L_TsTrain L_TsTrain2 L_TsTrain3 L_TsTrain4 L_TsTrain5.
Open Scope Z_scope.

Lemma float_id id : column_of id <> None -> float_column id = true -> is_float id.
Proof.
  unfold float_column, is_float. cbn [existsb]. intros H1 H2. assert (H : id = 10 \/ id = 11 \/ id = 12 \/ id = 15) by lia.
  destruct H as [-> |[-> |[-> | ->]]]; auto; exfalso; apply H1; reflexivity.
Qed.
Section Given.
  Variable places : nat.
  Variable rounding : Z -> nat -> Z.
  Hypothesis Hplaces : (1 <= places <= 16)%nat.
  Hypothesis Hround : nearest places rounding.
  Variable underflow : list Z -> bool.
  Variable duration_text : Z -> list Z.
  Variable m : memory.
  Notation second := (10 ^ Z.of_nat places).
  Notation load_text := (load_text places duration_text).
  Notation load_cell := (load_cell places duration_text).
  Notation KR := (KR places).
  (** The text of a cell. *)
  Definition texted (id : Z) (s b : list Z) : Prop := text_of places id b s.

  Lemma float_not_nan24 (x : BinarySingleNaN.binary_float 24 128) r : BinarySingleNaN.is_nan x = false -> load_cell Single (le_bytes 4 (single_bits x) ++ r) = Ok (Some (float_to_string x), r).
  Proof using Type. intros H. cbn [M_TsRows.load_cell]. rewrite fixed4 by apply single_range. cbn [bind fst snd]. rewrite single_back, H. reflexivity. Qed.
  Lemma float_not_nan53 (x : BinarySingleNaN.binary_float 53 1024) r : BinarySingleNaN.is_nan x = false -> load_cell Double (le_bytes 8 (double_bits x) ++ r) = Ok (Some (float_to_string x), r).
  Proof using Type. intros H. cbn [M_TsRows.load_cell]. rewrite fixed8 by apply double_range. cbn [bind fst snd]. rewrite double_back, H. reflexivity. Qed.
  Lemma given_one id cell b : cell_given places id cell b -> exists c t, column_of id = Some c /\ orel texted id t cell /\ forall r, load_cell c (b ++ r) = Ok (t, r).
  Proof using Hplaces Hround underflow duration_text.
    destruct cell as [v|].
    2:{ intros H. destruct (load_one places rounding Hplaces Hround underflow duration_text id None b H) as (c & t & Hc & Ht & L). exists c, t. split; [exact Hc|]. split; [|exact L].
        destruct t; [contradiction|exact I]. }
    intros ((s & Hs) & Hb). destruct Hs as [Hs|[(-> & x & Hk & -> & ->)|(-> & x & Hk & -> & ->)]].
    - destruct (value_holds places rounding Hplaces Hround underflow duration_text _ _ _ Hs) as (c & Hc & L & _). exists c, (Some s).
      split; [exact Hc|]. split; [left; exact Hs|]. intros r. pose proof (float_column_of id c Hc) as Hf.
      destruct Hb as [(Hi & ->)|(Hi & ->)].
      + destruct Hs as [(t & v' & Hid & _)|[(-> & x & Hk & -> & ->)|[(-> & x & Hk & -> & ->)|(-> & _)]]].
        * exfalso. now apply (plain_column id t Hid).
        * injection Hc as <-. apply float_not_nan24, kept_not_nan, Hk.
        * injection Hc as <-. apply float_not_nan53, kept_not_nan, Hk.
        * exfalso. unfold is_float in Hi. lia.
      + assert (E : load_cell c ((1 :: v) ++ r) = (do b <- get_bool (1 :: v ++ r); if fst b then do x <- load_text c (snd b); Ok (Some (fst x), snd x) else Ok (None, snd b))).
        { destruct c; try reflexivity; exfalso; apply Hi, Hf; auto. }
        rewrite E, (get_flag true). cbn [bind fst snd]. rewrite L. reflexivity.
    - destruct Hb as [(_ & ->)|(Hi & _)]; [|exfalso; apply Hi; now left]. exists Single, (Some (float_to_string x)). split; [reflexivity|].
      split; [right; left; eauto|]. intros r. now apply float_not_nan24.
    - destruct Hb as [(_ & ->)|(Hi & _)]; [|exfalso; apply Hi; now right]. exists Double, (Some (float_to_string x)). split; [reflexivity|].
      split; [right; right; eauto|]. intros r. now apply float_not_nan53.
  Qed.
  Lemma given_cells ids cells cs : each3 (cell_given places) ids cells cs ->
    exists ts, crel texted ids ts cells /\ forall r, load_all load_cell ids (concat cs ++ r) = Ok (ts, r).
  Proof using Hplaces Hround underflow duration_text.
    induction 1 as [|id x b ids cells cs Hx _ (ts & HR & IH)]; [exists []; split; [constructor|reflexivity]|].
    destruct (given_one id x b Hx) as (c & t & Hc & Ht & L). exists (t :: ts). split; [constructor; assumption|]. intros r. cbn [load_all concat].
    rewrite Hc, <- app_assoc, L. cbn [bind fst snd]. rewrite IH. reflexivity.
  Qed.
  Notation row_rel := (krel (KR (me_keys m)) (irel texted (me_data m))).
  Notation given := (row_given places (me_keys m) (me_data m)).
  Lemma given_row row data : given row data -> exists x, load_row places duration_text m data = Ok x /\ row_rel x row.
  Proof using Hplaces Hround underflow duration_text.
    destruct row as [keys [t cells]]. intros (sec & cs & rest & -> & Hi & Hk & Hc & ->). rewrite <- !app_assoc.
    destruct (load_keys places rounding Hplaces Hround underflow duration_text _ _ Hk) as (texts & HK & LK). destruct (given_cells _ _ _ Hc) as (ts & HC & LC).
    exists (texts, (sec * second, ts)). split.
    - unfold load_row. rewrite (systp_text places Hplaces sec _ Hi). cbn [bind fst snd]. rewrite LK. cbn [bind fst snd]. rewrite LC. reflexivity.
    - split; [exact HK|]. split; [reflexivity|exact HC].
  Qed.
  Lemma given_batch rows inputs : Forall2 given rows inputs -> exists xs, mapM (load_row places duration_text m) inputs = Ok xs /\ Forall2 row_rel xs rows.
  Proof using Hplaces Hround underflow duration_text.
    induction 1 as [|row data rows inputs H _ (xs & E & HR)]; [exists []; split; [reflexivity|constructor]|]. destruct (given_row row data H) as (x & Ex & Hx).
    exists (x :: xs). split; [|now constructor]. cbn [mapM]. rewrite Ex. cbn [bind]. rewrite E. reflexivity.
  Qed.
  Lemma given_batches bs inputs : Forall2 (Forall2 given) bs inputs ->
    exists xs, Forall2 (fun b r => mapM (load_row places duration_text m) b = Ok r) inputs xs /\ Forall2 (Forall2 row_rel) xs bs.
  Proof using Hplaces Hround underflow duration_text.
    induction 1 as [|b i bs is H _ (xs & E & HR)]; [exists []; split; constructor|]. destruct (given_batch b i H) as (x & Ex & Hx).
    exists (x :: xs). split; constructor; assumption.
  Qed.

  (** *** What the rows of values say about the rows of texts *)
  Lemma key_rows (xs : list text_row) rows k keys : KR (me_keys m) k keys -> Forall2 row_rel xs rows ->
    Forall2 (irel texted (me_data m)) (of_key key_eqb k xs) (of_key key_eqb keys rows).
  Proof using Hplaces Hround underflow duration_text.
    intros HK. induction 1 as [|x r xs rows [H1 H2] _ IH]; [constructor|]. rewrite !of_key_cons.
    rewrite (keys_alike places rounding Hplaces Hround underflow duration_text _ _ _ _ _ H1 HK). destruct (key_eqb (fst r) keys); [constructor; assumption|exact IH].
  Qed.
  Lemma times_alike (l : list (Z * list (option (list Z)))) l' : Forall2 (irel texted (me_data m)) l l' -> map fst l = map fst l'.
  Proof using Type. induction 1 as [|x y l l' [H _] _ IH]; [reflexivity|]. cbn [map]. now rewrite H, IH. Qed.
  Lemma steps_alike (xs : list text_row) rows k keys : KR (me_keys m) k keys -> Forall2 row_rel xs rows -> steps_of k xs = steps_of keys rows.
  Proof using Hplaces Hround underflow duration_text. intros HK H. unfold steps_of. f_equal. apply times_alike. now apply key_rows. Qed.
  Lemma nth_cells ids : forall (ts cells : list (option (list Z))) c, crel texted ids ts cells -> (c < length ids)%nat -> orel texted (nth c ids 0) (nth c ts None) (nth c cells None).
  Proof using Type.
    intros ts cells c H. revert c. induction H as [|id t x ids ts cells Hx _ IH]; intros c Hc; [inversion Hc|].
    destruct c as [|c]; [exact Hx|]. cbn [nth]. apply IH. exact (le_S_n _ _ Hc).
  Qed.
  Lemma cells_alike (l : list (Z * list (option (list Z)))) l' c : (c < length (me_data m))%nat -> Forall2 (irel texted (me_data m)) l l' ->
    Forall2 (fun s b => texted (nth c (me_data m) 0) s b) (somes (cells_of c (map snd l))) (somes (cells_of c (map snd l'))).
  Proof using Type.
    intros Hc. unfold cells_of. induction 1 as [|x y l l' [_ H] _ IH]; [constructor|]. cbn [map somes].
    pose proof (nth_cells _ _ _ c H Hc) as G. destruct (nth c (snd x) None) as [s|], (nth c (snd y) None) as [b|]; try contradiction; [constructor; assumption|exact IH].
  Qed.
  Lemma columns_alike (xs : list text_row) rows k keys c : KR (me_keys m) k keys -> (c < length (me_data m))%nat -> Forall2 row_rel xs rows ->
    Forall2 (fun s b => texted (nth c (me_data m) 0) s b) (column_of_key k c xs) (column_of_key keys c rows).
  Proof using Hplaces Hround underflow duration_text. intros HK Hc H. apply cells_alike; [exact Hc|]. now apply key_rows. Qed.
  (** A key with rows is the key of a row. *)
  Lemma of_key_in {X} (xs : list (list (list Z) * X)) k : of_key key_eqb k xs <> [] -> exists x, In x xs /\ fst x = k.
  Proof using Type.
    destruct key_is_order as (He & _). induction xs as [|x xs IH]; [intros H; now exfalso|]. rewrite of_key_cons. destruct (key_eqb (fst x) k) eqn:E.
    - intros _. exists x. split; [now left|]. now apply He.
    - intros H. destruct (IH H) as (y & Hy & Ey). exists y. split; [now right|exact Ey].
  Qed.
  Lemma key_text_known (xs : list text_row) rows k : Forall2 row_rel xs rows -> of_key key_eqb k xs <> [] -> exists keys, KR (me_keys m) k keys.
  Proof using Type.
    intros H N. destruct (of_key_in xs k N) as (x & Hin & <-). clear N. induction H as [|y r xs rows [H1 _] _ IH]; [destruct Hin|].
    destruct Hin as [<-|Hin]; [eexists; exact H1|exact (IH Hin)].
  Qed.
  Lemma key_value_known (xs : list text_row) rows k : Forall2 row_rel xs rows -> of_key key_eqb k rows <> [] -> exists texts, KR (me_keys m) texts k.
  Proof using Type.
    intros H N. destruct (of_key_in rows k N) as (x & Hin & <-). clear N. induction H as [|y r xs rows [H1 _] _ IH]; [destruct Hin|].
    destruct Hin as [<-|Hin]; [eexists; exact H1|exact (IH Hin)].
  Qed.
  Lemma step_key {X} (rows : list (list (list Z) * (Z * X))) k g : In g (steps_of k rows) -> of_key key_eqb k rows <> [].
  Proof using Type. unfold steps_of. intros H E. rewrite E in H. destruct H. Qed.
  Lemma float_ids : Forall (fun id => column_of id <> None) (me_data m) -> forall c, (c < length (me_data m))%nat -> float_column (nth c (me_data m) 0) = true -> is_float (nth c (me_data m) 0).
  Proof using Type.
    intros H c Hc Hf. assert (G : column_of (nth c (me_data m) 0) <> None) by (rewrite Forall_forall in H; apply H; now apply nth_In).
    clear H Hc. revert Hf G. generalize (nth c (me_data m) 0). intros id Hf G. exact (float_id id G Hf).
  Qed.
  Lemma given_supported row data : given row data -> Forall (fun id => column_of id <> None) (me_data m).
  Proof using Hplaces Hround underflow duration_text.
    destruct row as [keys [t cells]]. intros (sec & cs & rest & _ & _ & _ & Hc & _). induction Hc as [|id x b ids cells cs Hx _ IH]; [constructor|constructor; [|exact IH]].
    destruct (given_one id x b Hx) as (c & t' & Hcc & _). congruence.
  Qed.

  (** *** Outcomes *)
  Variables (bs : list (list (list (list Z) * (Z * list (option (list Z)))))) (inputs : list (list (list Z))).
  Hypothesis Hgiven : Forall2 (Forall2 given) bs inputs.
  Hypothesis Hbs : bs <> [].
  Hypothesis Hall : Forall (fun b => b <> []) bs.
  Variables (how : strategy) (suppress : bool).
  Notation rows := (concat bs).
  Notation T := (train (api_impl places duration_text m) inputs).
  Notation learns := (learns underflow (me_data m) how suppress T).
  Notation refuses := (refuses underflow (me_data m) how suppress T).

  Lemma forall2_concat {A B} (R : A -> B -> Prop) l l' : Forall2 (Forall2 R) l l' -> Forall2 R (concat l) (concat l').
  Proof using Type. induction 1 as [|a b l l' H _ IH]; [constructor|]. cbn [concat]. now apply Forall2_app. Qed.
  Lemma nonempty2 {A B} (R : A -> B -> Prop) l l' : Forall2 (Forall2 R) l l' -> Forall (fun b => b <> []) l' -> Forall (fun b => b <> []) l.
  Proof using Type. induction 1 as [|a b l l' H _ IH]; intros G; [constructor|]. inversion G as [|? ? G1 G2]; subst. constructor; [|now apply IH]. destruct H; [congruence|discriminate]. Qed.
  Lemma width_alike (xs : list text_row) rs : Forall2 row_rel xs rs -> of_width (me_data m) xs.
  Proof using Type. unfold of_width. induction 1 as [|x r xs rs [_ [_ H]] _ IH]; constructor; [|exact IH]. now destruct (crel_length _ _ _ _ H). Qed.

  Lemma text_rows : exists xs : list text_row, Forall2 row_rel xs rows /\ xs <> [] /\
    exists n, forall ann fuel, (n <= fuel)%nat -> T fuel (est_new (ts_chain underflow (me_data m) how suppress ann)) = Some (steps underflow (me_data m) how suppress ann xs).
  Proof using Hplaces Hround underflow duration_text Hgiven Hbs Hall.
    destruct (given_batches bs inputs Hgiven) as (ts & Hm & HR). exists (concat ts). split; [now apply forall2_concat|].
    assert (N : ts <> []) by (intros ->; inversion HR; congruence). assert (A : Forall (fun b => b <> []) ts) by (eapply nonempty2; eassumption).
    split; [now apply concat_nonempty|]. exists (length ts + (length ts + 1))%nat. intros ann fuel Hf. rewrite (train_bytes _ _ _ _ _ Hm). now apply train_steps.
  Qed.
  Lemma some_row : exists row data, given row data.
  Proof using Hgiven Hbs Hall.
    destruct Hgiven as [|b i bs' is H _]; [congruence|]. inversion Hall as [|? ? N _]; subst. destruct H as [|r d b i H _]; [congruence|]. now exists r, d.
  Qed.
  Lemma readable_rows (xs : list text_row) : Forall2 row_rel xs rows -> readable underflow (me_data m) xs.
  Proof using Hplaces Hround underflow duration_text Hgiven Hbs Hall.
    intros HR k c Hc Hf. destruct some_row as (row & data & Hr). pose proof (float_ids (given_supported _ _ Hr) c Hc Hf) as Hi.
    destruct (of_key key_eqb k xs) as [|x0 l0] eqn:Ek; [unfold column_of_key; rewrite Ek; constructor|].
    destruct (key_text_known xs _ k HR) as (keys & HK); [congruence|].
    pose proof (columns_alike xs _ k keys c HK Hc HR) as G. rewrite Forall_forall. intros s Hs.
    assert (E : exists b, texted (nth c (me_data m) 0) s b).
    { clear - G Hs. induction G as [|t b l l' Ht _ IH]; [destruct Hs|]. destruct Hs as [<-|Hs]; [now exists b|now apply IH]. }
    destruct E as (b & Hb). destruct (text_readable _ b s underflow Hi) as (v & Ev & _); [now exists places|]. now exists v.
  Qed.
  Lemma known_step (xs : list text_row) : Forall2 row_rel xs rows -> forall k g, In g (steps_of k xs) -> exists keys, In g (steps_of keys rows).
  Proof using Hplaces Hround underflow duration_text.
    intros HR k g H. destruct (key_text_known xs _ k HR (step_key _ _ _ H)) as (keys & HK). exists keys. now rewrite <- (steps_alike xs _ k keys HK HR).
  Qed.
  Lemma text_step (xs : list text_row) : Forall2 row_rel xs rows -> forall k g, In g (steps_of k rows) -> exists t, In g (steps_of t xs).
  Proof using Hplaces Hround underflow duration_text.
    intros HR k g H. destruct (key_value_known xs _ k HR (step_key _ _ _ H)) as (t & HK). exists t. now rewrite (steps_alike xs _ t k HK HR).
  Qed.
  Lemma filled_rows (xs : list text_row) : Forall2 row_rel xs rows -> filled_columns (me_data m) rows -> filled_columns (me_data m) xs.
  Proof using Hplaces Hround underflow duration_text.
    intros HR Hf k c Hk Hc Hfc. destruct (key_text_known xs _ k HR Hk) as (keys & HK).
    pose proof (key_rows xs _ k keys HK HR) as G. assert (N : of_key key_eqb keys rows <> []) by (intros E; rewrite E in G; inversion G; congruence).
    pose proof (columns_alike xs _ k keys c HK Hc HR) as Q. intros E. rewrite E in Q. apply (Hf keys c N Hc Hfc). inversion Q. reflexivity.
  Qed.

  Theorem interface_ok : me_data m <> [] -> (forall k g, In g (steps_of k rows) -> 0 < g < i64_max) -> (exists k, steps_of k rows <> []) ->
    filled_columns (me_data m) rows ->
    exists f md, learns f md (mkSettings f (me_data m) how (map (fun e => (fst e, map double_bits (snd e))) md) suppress) /\
      0 < f < i64_max /\ smallest_step f rows /\ means_given places (me_keys m) (me_data m) md rows.
  Proof using Hplaces Hround underflow duration_text Hgiven Hbs Hall.
    intros Ht Hg (k0 & Hk0) Hf. destruct text_rows as (xs & HR & N & n & HT). pose proof (width_alike xs _ HR) as Hw.
    destruct (outcome_ok underflow (me_data m) how suppress T xs n HT N Hw Ht) as (f & md & HL & Hff & (Hs1 & Hs2) & HM).
    - intros k g H. destruct (known_step xs HR k g H) as (keys & H'). exact (Hg keys g H').
    - destruct (steps_of k0 rows) as [|g l] eqn:E; [congruence|]. destruct (text_step xs HR k0 g) as (t & H); [rewrite E; now left|]. exists t. intros E2. rewrite E2 in H. destruct H.
    - now apply readable_rows.
    - now apply filled_rows.
    - exists f, md. split; [exact HL|]. split; [exact Hff|]. split; [split|].
      + destruct Hs1 as (k & H). destruct (known_step xs HR k f H) as (keys & H'). now exists keys.
      + intros k g H. destruct (text_step xs HR k g H) as (t & H'). exact (Hs2 t g H').
      + intros keys texts HK. specialize (HM texts). pose proof (key_rows xs _ texts keys HK HR) as G. destruct (m_find key_eqb md texts) as [v|].
        * destruct HM as (H1 & H2 & H3). split; [intros E; rewrite E in G; inversion G; congruence|]. split; [exact H2|]. intros c Hc Hfc.
          destruct (H3 c Hc Hfc) as (col & Hcol & Ev). exists col. split; [|exact Ev].
          destruct some_row as (row & data & Hr). pose proof (float_ids (given_supported _ _ Hr) c Hc Hfc) as Hi.
          pose proof (columns_alike xs _ texts keys c HK Hc HR) as Q. clear - Q Hcol Hi. revert col Hcol. induction Q as [|s b l l' Hb _ IH]; intros col Hcol.
          -- inversion Hcol; constructor.
          -- inversion Hcol as [|? v ? col' Hv Hcol']; subst. constructor; [|now apply IH].
             destruct (text_readable _ b s underflow Hi) as (v' & Ev' & Hn); [now exists places|]. rewrite Ev' in Hv. injection Hv as ->. exact Hn.
        * rewrite HM in G. inversion G. reflexivity.
  Qed.
  Theorem interface_unordered : (forall k g, In g (steps_of k rows) -> g <= i64_max) -> (exists k g, In g (steps_of k rows) /\ g <= 0) -> refuses RuntimeError.
  Proof using Hplaces Hround underflow duration_text Hgiven Hbs Hall.
    intros Hg (k0 & g0 & Hk0 & Hg0). destruct text_rows as (xs & HR & N & n & HT). apply (outcome_unordered underflow (me_data m) how suppress T xs n HT).
    - intros k g H. destruct (known_step xs HR k g H) as (keys & H'). exact (Hg keys g H').
    - destruct (text_step xs HR k0 g0 Hk0) as (t & H). now exists t, g0.
  Qed.
  Theorem interface_missing : (forall k g, In g (steps_of k rows) -> 0 < g < i64_max) ->
    (exists k c, of_key key_eqb k rows <> [] /\ (c < length (me_data m))%nat /\ float_column (nth c (me_data m) 0) = true /\ column_of_key k c rows = []) -> refuses RuntimeError.
  Proof using Hplaces Hround underflow duration_text Hgiven Hbs Hall.
    intros Hg (k0 & c & H1 & H2 & H3 & H4). destruct text_rows as (xs & HR & N & n & HT). pose proof (width_alike xs _ HR) as Hw.
    apply (outcome_missing underflow (me_data m) how suppress T xs n HT N Hw).
    - intros k g H. destruct (known_step xs HR k g H) as (keys & H'). exact (Hg keys g H').
    - now apply readable_rows.
    - destruct (key_value_known xs _ k0 HR H1) as (t & HK). exists t, c. pose proof (key_rows xs _ t k0 HK HR) as G. pose proof (columns_alike xs _ t k0 c HK H2 HR) as Q.
      split; [intros E; rewrite E in G; inversion G; congruence|]. split; [exact H2|]. split; [exact H3|]. rewrite H4 in Q. inversion Q. reflexivity.
  Qed.
  Theorem interface_single : (forall k, steps_of k rows = []) -> filled_columns (me_data m) rows -> refuses RuntimeError.
  Proof using Hplaces Hround underflow duration_text Hgiven Hbs Hall.
    intros Hg Hf. destruct text_rows as (xs & HR & N & n & HT). pose proof (width_alike xs _ HR) as Hw.
    apply (outcome_single underflow (me_data m) how suppress T xs n HT N Hw).
    - intros k. destruct (steps_of k xs) as [|g l] eqn:E; [reflexivity|]. destruct (known_step xs HR k g) as (keys & H'); [rewrite E; now left|]. rewrite Hg in H'. destruct H'.
    - now apply readable_rows.
    - now apply filled_rows.
  Qed.
End Given.
