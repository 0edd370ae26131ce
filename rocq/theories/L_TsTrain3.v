(** Training on rows of texts (C70): the outcome. *)
From Flocq Require Import IEEE754.BinarySingleNaN.
From Verif Require Import Base L_List M_Archive M_Codec M_Estimator M_Stats S_Stats L_Stats L_Stats3 M_Pipeline M_Keyed S_Keyed L_Keyed M_Scale M_TsImpute S_TsImpute L_TsImpute3 L_TsMedian
  M_FloatText L_FloatText4 M_TsSave M_TsRows L_TsRows M_TsTrain S_TsTrain L_TsTrain L_TsTrain2.
Open Scope Z_scope.

Section Fold.
  Variable underflow : list Z -> bool.
  Variable types : list Z.
  Notation w := (length types).
  Notation key := (list (list Z)).
  Notation tmed := (list (key * list (double * Z))).
  Definition wide (m : tmed) : Prop := forall k s, k_find key_eqb m k = Some s -> length s = w.
  Definition reading (r : text_row) (r' : key * list (option double)) : Prop := fst r' = fst r /\ parse_row underflow types (snd (snd r)) = Ok (snd r').

  Lemma one_row m r r' : wide m -> length (snd (snd r)) = w -> reading r r' ->
    med_text_fit underflow types m r = med_fit key_eqb key_ltb types m r' /\ exists m', med_fit key_eqb key_ltb types m r' = Ok m' /\ wide m'.
  Proof.
    intros Hm Hr [E1 E2]. unfold med_text_fit, med_fit. rewrite E1. pose proof (parse_length _ _ _ _ E2) as L. rewrite L.
    set (s := match k_find key_eqb m (fst r) with Some s => s | None => _ end).
    assert (Hs : length s = w) by (unfold s; destruct (k_find key_eqb m (fst r)) as [x|] eqn:E; [exact (Hm _ _ E)|rewrite repeat_length; exact Hr]).
    rewrite (text_row_parsed underflow _ _ s _ E2) by congruence. split; [reflexivity|].
    destruct (med_row_ok (snd r') types s) as (s' & -> & Hs' & _); [congruence|congruence|]. cbn [bind]. eexists. split; [reflexivity|].
    intros k x. rewrite (find_set _ _ key_is_order). destruct (key_eqb (fst r) k); [intros [= <-]; congruence|apply Hm].
  Qed.
  Lemma fold_parsed : forall rows rows', Forall2 reading rows rows' -> Forall (fun r => length (snd (snd r)) = w) rows -> forall m, wide m ->
    foldM (med_text_fit underflow types) m rows = foldM (med_fit key_eqb key_ltb types) m rows'.
  Proof.
    induction 1 as [|r r' rows rows' Hr _ IH]; intros Hw m Hm; [reflexivity|]. inversion Hw as [|? ? H1 H2]; subst. cbn [foldM].
    destruct (one_row m r r' Hm H1 Hr) as (-> & m' & -> & Hm'). cbn [bind]. now apply IH.
  Qed.
  Lemma fold_bad : forall rows, Forall (fun r : text_row => length (snd (snd r)) = w) rows -> (exists r e, In r rows /\ parse_row underflow types (snd (snd r)) = Throw e) -> forall m, wide m ->
    exists e, foldM (med_text_fit underflow types) m rows = Throw e /\ (e = InvalidArgument \/ e = OutOfRange).
  Proof.
    induction rows as [|r rows IH]; intros Hw (x & e & Hx & He) m Hm; [destruct Hx|]. inversion Hw as [|? ? H1 H2]; subst. cbn [foldM].
    destruct (parse_defined underflow (snd (snd r)) types (eq_sym H1)) as [(ys & Ey)|(e' & Ee & He')].
    - destruct (one_row m r (fst r, ys) Hm H1) as (-> & m' & -> & Hm'); [split; [reflexivity|exact Ey]|]. cbn [bind]. apply IH; [exact H2| |exact Hm'].
      destruct Hx as [<-|Hx]; [congruence|eauto].
    - exists e'. split; [|exact He']. unfold med_text_fit at 1.
      set (s := match k_find key_eqb m (fst r) with Some s => s | None => _ end).
      assert (Hs : length s = w) by (unfold s; destruct (k_find key_eqb m (fst r)) as [z|] eqn:E; [exact (Hm _ _ E)|rewrite repeat_length; exact H1]).
      rewrite (text_row_bad underflow _ _ s e' Ee) by congruence. reflexivity.
  Qed.
  Lemma wide_nil : wide [].
  Proof. intros k s H. discriminate. Qed.

  (** Columns of parsed rows. *)
  Lemma parsed_column : forall rows rows', Forall2 reading rows rows' -> Forall (fun r => length (snd (snd r)) = w) rows -> forall k c, (c < w)%nat -> supports_median (nth c types 0) = true ->
    Forall2 (fun s v => float_from_string underflow s = Ok v) (column_of_key k c rows) (somes (cells_of c (of_key key_eqb k rows'))).
  Proof.
    induction 1 as [|r r' rows rows' [E1 E2] _ IH]; intros Hw k c Hc Hs; [constructor|]. inversion Hw as [|? ? H1 H2]; subst.
    specialize (IH H2 k c Hc Hs). unfold column_of_key in *. rewrite !of_key_cons, E1. destruct (key_eqb (fst r) k); [|exact IH].
    cbn [map cells_of]. pose proof (parse_nth underflow _ _ _ E2 c ltac:(lia)) as G. unfold somes at 1 2. cbn [flat_map]. fold (somes (cells_of c (map snd (of_key key_eqb k rows)))).
    fold (somes (cells_of c (of_key key_eqb k rows'))). destruct (nth c (snd (snd r)) None) as [s|].
    - rewrite Hs in G. destruct G as (v & G1 & ->). cbn [app]. constructor; assumption.
    - rewrite G. exact IH.
  Qed.
  Lemma parsed_keys : forall rows rows', Forall2 reading rows rows' -> forall k, of_key key_eqb k rows = [] <-> of_key key_eqb k rows' = [].
  Proof.
    induction 1 as [|r r' rows rows' [E1 E2] _ IH]; intros k; [tauto|]. rewrite !of_key_cons, E1. destruct (key_eqb (fst r) k); [|apply IH]. split; discriminate.
  Qed.
End Fold.

(** The frequency stage is the one of C24. *)
Notation times := (map (fun r : text_row => (fst r, fst (snd r)))).
Lemma freq_fold : forall rows p, foldM (fun (p : Z * list (list (list Z) * Z)) (r : text_row) => tsfreq_fit key_eqb p (fst r, fst (snd r))) p rows = foldM (tsfreq_fit key_eqb) p (times rows).
Proof. induction rows as [|r rows IH]; intros p; [reflexivity|]. cbn [foldM map]. destruct (tsfreq_fit key_eqb p _) as [q|e|]; cbn [bind]; [apply IH|reflexivity|reflexivity]. Qed.
Lemma steps_grain (rows : list text_row) k : gaps (grain key_eqb k (times rows)) = steps_of k rows.
Proof.
  unfold steps_of. f_equal. unfold grain, of_key. induction rows as [|r rows IH]; [reflexivity|]. cbn [map filter fst].
  rewrite (keqb_sym _ _ key_is_order k (fst r)). destruct (key_eqb (fst r) k); cbn [map]; [f_equal|]; exact IH.
Qed.
Lemma freq_trained (rows : list text_row) : rows <> [] ->
  trained (tsfreq_policy key_eqb) (length rows) [times rows] = do q <- foldM (tsfreq_fit key_eqb) (i64_max, []) (times rows); Ok (Some (fst q)).
Proof.
  intros N. unfold tsfreq_policy. assert (P : proper_training (length rows) [times rows]).
  { destruct rows as [|r rows]; [congruence|]. split; [cbn [length]; lia|]. repeat constructor. discriminate. }
  rewrite trained_simple by exact P. unfold items. cbn [concat]. rewrite app_nil_r.
  replace (firstn (length rows) (times rows)) with (times rows) by (symmetry; rewrite <- (map_length (fun r : text_row => (fst r, fst (snd r)))); apply firstn_all). reflexivity.
Qed.
Lemma freq_items (rows : list text_row) : rows <> [] -> proper_training (length rows) [times rows] /\ items (length rows) [times rows] = times rows.
Proof.
  intros N. split.
  - destruct rows as [|r rows]; [congruence|]. split; [cbn [length]; lia|]. repeat constructor. discriminate.
  - unfold items. cbn [concat]. rewrite app_nil_r. rewrite <- (map_length (fun r : text_row => (fst r, fst (snd r)))). apply firstn_all.
Qed.
Lemma freq_ok (rows : list text_row) : rows <> [] -> (forall k g, In g (steps_of k rows) -> 0 < g < i64_max) ->
  exists q, foldM (tsfreq_fit key_eqb) (i64_max, []) (times rows) = Ok q /\
    ((fst q = i64_max /\ forall k, steps_of k rows = []) \/ ((exists k, In (fst q) (steps_of k rows)) /\ forall k g, In g (steps_of k rows) -> fst q <= g)).
Proof.
  intros N H. destruct (freq_items rows N) as [P E].
  destruct (tsfreq_spec key_eqb (proj1 key_is_order) (length rows) [times rows] P) as (f & Ef & G).
  { intros k g. rewrite E, steps_grain. apply H. }
  rewrite freq_trained in Ef by exact N. destruct (foldM _ _ _) as [q|e|]; cbn [bind] in Ef; try discriminate. injection Ef as <-.
  exists q. split; [reflexivity|]. destruct G as [[G1 G2]|[(k & G1) G2]].
  - left. split; [exact G1|]. intros k. rewrite <- steps_grain, <- E. apply G2.
  - right. split; [exists k; rewrite <- steps_grain, <- E; exact G1|]. intros k' g Hg. apply (G2 k'). rewrite E, steps_grain. exact Hg.
Qed.
Lemma freq_bad (rows : list text_row) : (forall k g, In g (steps_of k rows) -> g <= i64_max) -> (exists k g, In g (steps_of k rows) /\ g <= 0) ->
  foldM (tsfreq_fit key_eqb) (i64_max, []) (times rows) = Throw RuntimeError.
Proof.
  intros H (k & g & Hg & Hle). assert (N : rows <> []) by (intros ->; destruct Hg). destruct (freq_items rows N) as [P E].
  pose proof (tsfreq_bad key_eqb (proj1 key_is_order) (length rows) [times rows] P) as G. rewrite freq_trained in G by exact N.
  destruct (foldM _ _ _) as [q|e|]; cbn [bind] in G.
  - discriminate G; [intros k' g'; rewrite E, steps_grain; apply H|]. exists k, g. rewrite E, steps_grain. auto.
  - f_equal. assert (X : @Throw (option Z) e = Throw RuntimeError); [|congruence]. apply G; [intros k' g'; rewrite E, steps_grain; apply H|]. exists k, g. rewrite E, steps_grain. auto.
  - discriminate G; [intros k' g'; rewrite E, steps_grain; apply H|]. exists k, g. rewrite E, steps_grain. auto.
Qed.

(** The median stage. *)
Section Medians.
  Variable underflow : list Z -> bool.
  Variable types : list Z.
  Notation w := (length types).
  Notation key := (list (list Z)).
  Notation finish := (mapM (fun e : key * list (double * Z) => do v <- med_finish types (snd e); Ok (fst e, v))).
  Notation readable := (readable underflow types).
  Notation filled_columns := (filled_columns types).
  Lemma row_readable rows r : readable rows -> In r rows -> length (snd (snd r)) = w -> exists ys, parse_row underflow types (snd (snd r)) = Ok ys.
  Proof.
    intros H Hin Hr. apply parse_good; [congruence|]. intros i c Hi Hs Hc. rewrite supports_float in Hs. specialize (H (fst r) i ltac:(lia) Hs). rewrite Forall_forall in H. apply H.
    unfold column_of_key, cells_of, somes. apply in_flat_map. exists (Some c). split; [|now left].
    apply in_map_iff. exists (snd (snd r)). split; [exact Hc|]. apply in_map_iff. exists (snd r). split; [reflexivity|]. unfold of_key. apply in_map_iff. exists r. split; [reflexivity|].
    apply filter_In. split; [exact Hin|apply (keqb_refl _ _ key_is_order)].
  Qed.
  Lemma rows_readable : forall rows, (forall r, In r rows -> exists ys, parse_row underflow types (snd (snd r)) = Ok ys) -> exists rows', Forall2 (reading underflow types) rows rows'.
  Proof.
    induction rows as [|r rows IH]; intros H; [exists []; constructor|]. destruct IH as (rows' & IH); [intros x Hx; apply H; now right|].
    destruct (H r) as (ys & E); [now left|]. exists ((fst r, ys) :: rows'). constructor; [split; [reflexivity|exact E]|exact IH].
  Qed.
  Variable rows : list text_row.
  Hypothesis N : rows <> [].
  Hypothesis Hw : Forall (fun r => length (snd (snd r)) = w) rows.
  Lemma med_trained rows' : Forall2 (reading underflow types) rows rows' ->
    proper_training (length rows) [rows'] /\ items (length rows) [rows'] = rows' /\ Forall (fun x => length (snd x) = w) rows' /\
    trained (med_policy key_eqb key_ltb types) (length rows) [rows'] = do p <- foldM (med_text_fit underflow types) [] rows; do m <- finish p; Ok (Some m).
  Proof.
    intros H. assert (L : length rows' = length rows) by (clear -H; induction H; cbn; congruence).
    assert (P : proper_training (length rows) [rows']).
    { destruct H; [congruence|]. split; [cbn [length]; lia|]. repeat constructor. discriminate. }
    assert (E : items (length rows) [rows'] = rows') by (unfold items; cbn [concat]; rewrite app_nil_r, <- L; apply firstn_all).
    split; [exact P|]. split; [exact E|]. split.
    - clear -H Hw. induction H as [|r r' a b [H1 H2] _ IH]; [constructor|]. inversion Hw; subst. constructor; [|now apply IH]. rewrite (parse_length _ _ _ _ H2). assumption.
    - unfold med_policy. rewrite trained_simple by exact P. rewrite E. rewrite (fold_parsed underflow types rows rows' H Hw [] (wide_nil types)). reflexivity.
  Qed.
  Lemma medians_ok : readable rows -> filled_columns rows ->
    exists p m, foldM (med_text_fit underflow types) [] rows = Ok p /\ finish p = Ok m /\ forall k,
      match m_find key_eqb m k with
      | Some v => of_key key_eqb k rows <> [] /\ length v = w /\ forall c, (c < w)%nat -> float_column (nth c types 0) = true ->
          exists col, Forall2 (fun s x => float_from_string underflow s = Ok x) (column_of_key k c rows) col /\ nth c v fzero = float_mean col
      | None => of_key key_eqb k rows = []
      end.
  Proof using N Hw.
    intros Hr Hf. destruct (rows_readable rows) as (rows' & H).
    { intros r Hin. apply (row_readable rows r Hr Hin). rewrite Forall_forall in Hw. now apply Hw. }
    destruct (med_trained rows' H) as (P & E & W & T).
    destruct (training_ok key_eqb key_ltb key_is_order types (length rows) [rows'] P) as (m & Em & G).
    { rewrite E. exact W. }
    { intros k c Hk Hc Hfl. rewrite E in *. assert (K : of_key key_eqb k rows <> []) by (intros X; apply Hk; now apply (parsed_keys underflow types rows rows' H)).
      specialize (Hf k c K Hc Hfl). rewrite <- supports_float in Hfl. pose proof (parsed_column underflow types rows rows' H Hw k c Hc Hfl) as F. intros X. rewrite X in F. inversion F. congruence. }
    rewrite T in Em. destruct (foldM _ _ _) as [p|e|]; cbn [bind] in Em; try discriminate. destruct (finish p) as [m'|e|] eqn:Ef; cbn [bind] in Em; try discriminate. injection Em as <-.
    exists p, m'. split; [reflexivity|]. split; [exact Ef|]. intros k. specialize (G k). rewrite E in G. destruct (m_find key_eqb m' k) as [v|].
    - destruct G as (G1 & G2 & G3). split; [intros X; apply G1; now apply (parsed_keys underflow types rows rows' H)|]. split; [exact G2|]. intros c Hc Hfl.
      exists (somes (cells_of c (of_key key_eqb k rows'))). split; [apply (parsed_column underflow types rows rows' H Hw); [exact Hc|now rewrite supports_float]|]. exact (G3 c Hc Hfl).
    - now apply (parsed_keys underflow types rows rows' H).
  Qed.
  Lemma medians_missing : readable rows -> forall k c, of_key key_eqb k rows <> [] -> (c < w)%nat -> float_column (nth c types 0) = true -> column_of_key k c rows = [] ->
    (do p <- foldM (med_text_fit underflow types) [] rows; finish p) = Throw RuntimeError.
  Proof using N Hw.
    intros Hr k c Hk Hc Hfl Hn. destruct (rows_readable rows) as (rows' & H).
    { intros r Hin. apply (row_readable rows r Hr Hin). rewrite Forall_forall in Hw. now apply Hw. }
    destruct (med_trained rows' H) as (P & E & W & T).
    assert (G : trained (med_policy key_eqb key_ltb types) (length rows) [rows'] = Throw RuntimeError).
    { apply (training_bad key_eqb key_ltb key_is_order types (length rows) [rows'] P) with (k := k) (c := c); try assumption; rewrite E; [exact W| |].
      - intros X. apply Hk. now apply (parsed_keys underflow types rows rows' H).
      - rewrite <- supports_float in Hfl. pose proof (parsed_column underflow types rows rows' H Hw k c Hc Hfl) as F. rewrite Hn in F. now inversion F. }
    rewrite T in G. destruct (foldM _ _ _) as [p|e|]; cbn [bind] in *; [destruct (finish p) as [m|e|]; cbn [bind] in *| |]; congruence.
  Qed.
  Lemma medians_unreadable : (exists k c s, (c < w)%nat /\ float_column (nth c types 0) = true /\ In s (column_of_key k c rows) /\ forall v : double, float_from_string underflow s <> Ok v) ->
    exists e, foldM (med_text_fit underflow types) [] rows = Throw e /\ (e = InvalidArgument \/ e = OutOfRange).
  Proof using N Hw.
    intros (k & c & s & Hc & Hfl & Hin & Hb). apply fold_bad; [exact Hw| |apply wide_nil].
    unfold column_of_key, cells_of, somes in Hin. apply in_flat_map in Hin as (o & Ho & Hs). destruct o as [x|]; [|destruct Hs]. destruct Hs as [->|[]].
    apply in_map_iff in Ho as (cells & Ec & Ho). apply in_map_iff in Ho as (tc & <- & Ho). unfold of_key in Ho. apply in_map_iff in Ho as (r & <- & Ho). apply filter_In in Ho as [Ho _].
    pose proof Hw as Hw'. rewrite Forall_forall in Hw'. specialize (Hw' r Ho).
    destruct (parse_fails underflow (snd (snd r)) types c s) as (e & Ee & _); [congruence|lia|now rewrite supports_float|exact Ec|exact Hb|]. eauto.
  Qed.
End Medians.
