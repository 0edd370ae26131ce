(** C81: training rows of the time series imputer, with the rows of different keys interleaved differently. *)
From Coq Require Import Reals Lra.
From Flocq Require Import Core.Core IEEE754.BinarySingleNaN.
From Verif Require Import Base L_Docs M_Archive M_Codec M_Estimator M_Stats S_Stats M_Pipeline M_Keyed S_Keyed L_Keyed M_Scale S_Scale M_TsImpute S_TsImpute M_FloatText
  M_TsSave M_TsRows S_TsRows M_TsTrain S_TsTrain L_TsTrain L_TsTrain4.
Open Scope Z_scope.

Lemma key_eqb_eq a : forall b, key_eqb a b = true <-> a = b.
Proof.
  unfold key_eqb. induction a as [|x a IH]; intros [|y b]; cbn [M_Codec.list_eqb]; try (split; [discriminate|discriminate]); [now split|].
  rewrite andb_true_iff, IH, str_eqb_eq. split; [intros [-> ->]; reflexivity|intros E; injection E as -> ->; now split].
Qed.
Lemma key_refl k : key_eqb k k = true.
Proof. now apply key_eqb_eq. Qed.
Section TimeSeries.
  Variables (underflow : list Z -> bool) (types : list Z) (how : strategy) (suppress : bool).
  Variables (bs bs' : list (list text_row)).
  Hypothesis Hbs : bs <> [].
  Hypothesis Hbs' : bs' <> [].
  Hypothesis Hall : Forall (fun b => b <> []) bs.
  Hypothesis Hall' : Forall (fun b => b <> []) bs'.
  Hypothesis Hw : of_width types (concat bs).
  Hypothesis Hk : forall k, of_key key_eqb k (concat bs) = of_key key_eqb k (concat bs').
  Lemma row_there r : In r (concat bs') -> In r (concat bs).
  Proof using Hk.
    intros H. assert (I : In (snd r) (of_key key_eqb (fst r) (concat bs'))).
    { unfold of_key. apply in_map. apply filter_In. split; [exact H|apply key_refl]. }
    rewrite <- Hk in I. unfold of_key in I. apply in_map_iff in I. destruct I as (q & E & I). apply filter_In in I. destruct I as [I K].
    apply key_eqb_eq in K. destruct r, q. cbn in *. subst. exact I.
  Qed.
  Lemma interleaved : types <> [] -> (forall k g, In g (steps_of k (concat bs)) -> 0 < g < i64_max) -> (exists k, steps_of k (concat bs) <> []) ->
    readable underflow types (concat bs) -> filled_columns types (concat bs) ->
    let settings_of f m := mkSettings f types how (map (fun e => (fst e, map double_bits (snd e))) m) suppress in
    exists f m m', learns underflow types how suppress (train pipeline_impl bs) f m (settings_of f m) /\
      learns underflow types how suppress (train pipeline_impl bs') f m' (settings_of f m') /\
      forall k, match m_find key_eqb m k, m_find key_eqb m' k with
                | Some v, Some v' => length v = length types /\ length v' = length types /\
                    forall c, (c < length types)%nat -> float_column (nth c types 0) = true -> nth c v fzero = nth c v' fzero
                | None, None => True
                | _, _ => False
                end.
  Proof using All.
    intros Ht Hg Hs Hr Hf settings_of.
    assert (S : forall k, steps_of k (concat bs') = steps_of k (concat bs)) by (intros k; unfold steps_of; now rewrite Hk).
    assert (C : forall k c, column_of_key k c (concat bs') = column_of_key k c (concat bs)) by (intros k c; unfold column_of_key; now rewrite Hk).
    assert (Hw' : of_width types (concat bs')).
    { unfold of_width in *. rewrite Forall_forall in Hw |- *. intros r Hr'. apply Hw. now apply row_there. }
    destruct (outcome_ok underflow types how suppress (train pipeline_impl bs) (concat bs) _ (fun ann fuel => train_steps underflow types how suppress ann bs Hbs Hall fuel) (concat_nonempty bs Hbs Hall) Hw Ht Hg Hs Hr Hf)
      as (f & m & L & _ & Sm & M).
    destruct (outcome_ok underflow types how suppress (train pipeline_impl bs') (concat bs') _ (fun ann fuel => train_steps underflow types how suppress ann bs' Hbs' Hall' fuel) (concat_nonempty bs' Hbs' Hall') Hw' Ht)
      as (f' & m' & L' & _ & Sm' & M').
    { intros k g. rewrite S. apply Hg. } { destruct Hs as (k & Hs). exists k. now rewrite S. }
    { intros k c H1 H2. rewrite C. now apply Hr. } { intros k c H0 H1 H2. rewrite C. apply Hf; try assumption. now rewrite Hk. }
    assert (f' = f) as ->.
    { destruct Sm as [(k & A) B], Sm' as [(k' & A') B']. rewrite S in A'. apply Z.le_antisymm; [apply (B' k); now rewrite S|now apply (B k')]. }
    exists f, m, m'. split; [exact L|]. split; [exact L'|]. intros k. specialize (M k). specialize (M' k).
    destruct (m_find key_eqb m k) as [v|], (m_find key_eqb m' k) as [v'|].
    - destruct M as (_ & Lv & Mv), M' as (_ & Lv' & Mv'). split; [exact Lv|]. split; [exact Lv'|]. intros c Hc Hfl.
      destruct (Mv c Hc Hfl) as (col & F1 & ->). destruct (Mv' c Hc Hfl) as (col' & F2 & ->). rewrite C in F2. f_equal.
      clear - F1 F2. revert col' F2. induction F1; intros col' F2; inversion F2; subst; [reflexivity|]. f_equal; [congruence|now apply IHF1].
    - destruct M as (M & _). rewrite Hk in M. contradiction.
    - destruct M' as (M' & _). rewrite <- Hk in M'. contradiction.
    - exact Logic.I.
  Qed.
End TimeSeries.
