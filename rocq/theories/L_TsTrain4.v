(** The outcome of training (C70). *)
From Flocq Require Import IEEE754.BinarySingleNaN.
From Verif Require Import Base L_List M_Archive M_Codec M_Estimator M_Stats S_Stats L_Stats L_Stats3 M_Pipeline M_Keyed S_Keyed L_Keyed M_Scale M_TsImpute S_TsImpute L_TsImpute3 L_TsMedian
  M_FloatText L_FloatText4 M_TsSave M_TsRows L_TsRows M_TsTrain S_TsTrain L_TsTrain L_TsTrain2 L_TsTrain3.
Open Scope Z_scope.

Lemma concat_nonempty {A} (bs : list (list A)) : bs <> [] -> Forall (fun b => b <> []) bs -> concat bs <> [].
Proof. intros N H. destruct H as [|b bs Hb _]; [congruence|]. destruct b; [congruence|discriminate]. Qed.

Section Outcome.
  Variable underflow : list Z -> bool.
  Variables (types : list Z) (how : strategy) (suppress : bool).
  Variable T : nat -> chain_est -> option (res chain_est).
  Variable rows : list text_row.
  Variable n : nat.
  Hypothesis HT : forall ann fuel, (n <= fuel)%nat -> T fuel (est_new (ts_chain underflow types how suppress ann)) = Some (steps underflow types how suppress ann rows).
  Hypothesis N : rows <> [].
  Hypothesis Hw : of_width types rows.
  Notation learns := (learns underflow types how suppress T).
  Notation refuses := (refuses underflow types how suppress T).

  Lemma outcome_ok : types <> [] -> (forall k g, In g (steps_of k rows) -> 0 < g < i64_max) -> (exists k, steps_of k rows <> []) ->
    readable underflow types rows -> filled_columns types rows ->
    exists f m, learns f m (mkSettings f types how (map (fun e => (fst e, map double_bits (snd e))) m) suppress) /\
      0 < f < i64_max /\ smallest_step f rows /\ means_of underflow types m rows.
  Proof using HT N Hw.
    intros Ht Hg (k & Hk) Hr Hf. destruct (freq_ok rows N Hg) as (q & Eq & Gq). destruct (medians_ok underflow types rows N Hw Hr Hf) as (p & m & Ep & Em & Gm).
    destruct Gq as [[_ X]|Gq]; [exfalso; now apply Hk|]. assert (Hq : 0 < fst q < i64_max) by (destruct Gq as [(k' & Hin) _]; exact (Hg k' _ Hin)).
    exists (fst q), m. split; [|split; [exact Hq|split; [exact Gq|exact Gm]]].
    exists n, q, p. intros fuel Hfu. rewrite HT by exact Hfu. unfold steps. rewrite freq_fold, Eq. cbn [bind]. rewrite Ep. cbn [bind]. rewrite Em. cbn [bind].
    unfold se_construct, ann_settings. cbn [se_types se_freq fst snd]. destruct types as [|t ts]; [congruence|].
    destruct (Z.eqb_spec (fst q) i64_max) as [E|_]; [lia|]. reflexivity.
  Qed.
  Lemma refused e : (forall ann, steps underflow types how suppress ann rows = Throw e) -> refuses e.
  Proof using HT.
    intros H. split; [exists 0, [], n; intros fuel Hf; rewrite HT by exact Hf; now rewrite H|]. intros f m. exists n. intros fuel Hf. left. rewrite HT by exact Hf. now rewrite H.
  Qed.
  Lemma outcome_unordered : (forall k g, In g (steps_of k rows) -> g <= i64_max) -> (exists k g, In g (steps_of k rows) /\ g <= 0) -> refuses RuntimeError.
  Proof using HT. intros H1 H2. apply refused. intros ann. unfold steps. rewrite freq_fold, (freq_bad rows H1 H2). reflexivity. Qed.
  Lemma outcome_missing : (forall k g, In g (steps_of k rows) -> 0 < g < i64_max) -> readable underflow types rows ->
    (exists k c, of_key key_eqb k rows <> [] /\ (c < length types)%nat /\ float_column (nth c types 0) = true /\ column_of_key k c rows = []) -> refuses RuntimeError.
  Proof using HT N Hw.
    intros Hg Hr (k & c & H1 & H2 & H3 & H4). apply refused. intros ann. unfold steps. destruct (freq_ok rows N Hg) as (q & Eq & _). rewrite freq_fold, Eq. cbn [bind].
    pose proof (medians_missing underflow types rows N Hw Hr k c H1 H2 H3 H4) as M. destruct (foldM _ [] rows) as [p|e|]; cbn [bind] in *; [|congruence|congruence].
    rewrite M. reflexivity.
  Qed.
  Lemma outcome_unreadable : (forall k g, In g (steps_of k rows) -> 0 < g < i64_max) ->
    (exists k c s, (c < length types)%nat /\ float_column (nth c types 0) = true /\ In s (column_of_key k c rows) /\ forall v : double, float_from_string underflow s <> Ok v) ->
    refuses InvalidArgument \/ refuses OutOfRange.
  Proof using HT N Hw.
    intros Hg Hb. destruct (medians_unreadable underflow types rows N Hw Hb) as (e & Ee & He). destruct (freq_ok rows N Hg) as (q & Eq & _).
    assert (G : refuses e) by (apply refused; intros ann; unfold steps; rewrite freq_fold, Eq; cbn [bind]; rewrite Ee; reflexivity).
    destruct He as [-> | ->]; auto.
  Qed.
  Lemma outcome_single : (forall k, steps_of k rows = []) -> readable underflow types rows -> filled_columns types rows -> refuses RuntimeError.
  Proof using HT N Hw.
    intros Hs Hr Hf. destruct (freq_ok rows N) as (q & Eq & Gq); [intros k g; rewrite Hs; intros []|]. destruct (medians_ok underflow types rows N Hw Hr Hf) as (p & m & Ep & Em & _).
    destruct Gq as [[Hq _]|[(k & X) _]]; [|rewrite Hs in X; destruct X].
    assert (G : forall ann, steps underflow types how suppress ann rows = do s <- se_construct (ann_settings types how suppress ann); Ok (mkEst Completed false [e1 Completed q (Some (fst q)); e2 underflow types Completed p (Some m); e3 types how suppress ann Completed true (Some s)])).
    { intros ann. unfold steps. rewrite freq_fold, Eq. cbn [bind]. rewrite Ep. cbn [bind]. rewrite Em. reflexivity. }
    assert (C : forall ann, se_construct (ann_settings types how suppress ann) = Throw RuntimeError \/ (fst ann <> i64_max /\ exists s, se_construct (ann_settings types how suppress ann) = Ok s)).
    { intros ann. unfold se_construct, ann_settings. cbn [se_types se_freq]. destruct types; [now left|]. destruct (Z.eqb_spec (fst ann) i64_max); [now left|right; eauto]. }
    split.
    - exists i64_max, [], n. intros fuel Hfu. rewrite HT by exact Hfu. rewrite G. destruct (C (i64_max, [])) as [-> |[X _]]; [reflexivity|cbn in X; congruence].
    - intros f m'. exists n. intros fuel Hfu. rewrite HT by exact Hfu. rewrite G. destruct (C (f, m')) as [-> |[X (s & ->)]]; [now left|]. right. exists (mkEst Completed false [e1 Completed q (Some (fst q)); e2 underflow types Completed p (Some m); e3 types how suppress (f, m') Completed true (Some s)]), (fst q), m. split; [reflexivity|].
      split; [exists q, p; eexists; reflexivity|]. cbn in X. intros [= E _]. congruence.
  Qed.
End Outcome.
