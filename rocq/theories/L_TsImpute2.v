From Verif Require Import Base L_List M_Estimator M_Stats S_Stats M_Pipeline M_Keyed S_Keyed L_Keyed S_Impute M_TsImpute S_TsImpute L_TsImpute.

Section Machine.
  Context {K C : Type}.
  Notation cells := (list (option C)).
  Notation row := (bool * Z * cells)%type.
  Variable cfg : config (K := K) (C := C).
  Notation freq := (ts_freq cfg).
  Hypothesis Hf : 0 < freq.
  Variable k : K.
  Variable w : nat.

  (** Rows of this key. *)
  Definition fit_rows (l : list (Z * cells)) : Prop := Forall (fun x => in_i64 (fst x + freq) = true /\ length (snd x) = w) l.
  Definition from (a : Z) (l : list (Z * cells)) : Prop := StronglySorted Z.le (a :: map fst l).
  Lemma from_cons : forall a t c l, from a ((t, c) :: l) -> a <= t /\ from t l.
  Proof using Type. clear. intros a t c l H. unfold from in *. cbn [map fst] in H. inversion H as [|? ? H1 H2]; subst. inversion H2; subst. auto. Qed.
  Lemma gaps_wide : forall l a, fit_rows l -> wide w (gaps_after freq a l).
  Proof using Type.
    clear. induction l as [|[t c] l IH]; intros a H; [constructor|]. inversion H as [|? ? [H1 H1'] H2]; subst. cbn [gaps_after]. apply Forall_app. split.
    - apply Forall_forall. intros x Hx. apply in_map_iff in Hx. destruct Hx as [m [<- _]]. cbn [snd]. rewrite repeat_length. exact H1'.
    - constructor; [exact H1'|]. now apply IH.
  Qed.
  Lemma chunk_wide : forall t (c : cells) a, length c = w -> wide w (map (gap_row (length c)) (missing freq a t) ++ [(false, t, c)]).
  Proof using Type.
    clear. intros t c a H. apply Forall_app. split; [|constructor; [exact H|constructor]]. apply Forall_forall. intros x Hx. apply in_map_iff in Hx. destruct Hx as [m [<- _]]. cbn [gap_row snd]. now rewrite repeat_length.
  Qed.
  Lemma gaps_after_cons : forall a t c l, gaps_after freq a ((t, c) :: l) = (map (gap_row (length c)) (missing freq a t) ++ [(false, t, c)]) ++ gaps_after freq t (l : list (Z * cells)).
  Proof using Type. clear. intros. cbn [gaps_after]. rewrite <- app_assoc. reflexivity. Qed.

  Lemma step_some : forall prev buf x, r_time prev <= fst x -> ts_step cfg k (Some (prev, buf)) x =
    match ts_body cfg k (prev, buf) x with Ok (out, st) => (out, Ok st) | Throw e => ([], Throw e) | UB => ([], UB) end.
  Proof using Type. clear. intros prev buf x H. unfold ts_step. cbn [fst]. destruct (fst x <? r_time prev) eqn:E; [lia|reflexivity]. Qed.

  (** Forward. *)
  Lemma forward_run : ts_strategy cfg = Forward -> forall l prev, in_i64 (r_time prev + freq) = true -> length (r_cells prev) = w ->
    fit_rows l -> from (r_time prev) l ->
    exists prev', alone (ts_step cfg k) (Some (prev, [])) l = (ff (r_cells prev) (gaps_after freq (r_time prev) l), Ok (Some (prev', []))) /\
      r_time prev' = last (map fst l) (r_time prev).
  Proof using Hf.
    intros Hs. induction l as [|[t c] l IH]; intros prev Hp Hc Hl Ho.
    - exists prev. split; reflexivity.
    - destruct (from_cons _ _ _ _ Ho) as [Hle Ho']. inversion Hl as [|? ? [H1 H1'] H2]; subst. cbn [fst snd] in H1, H1'.
      rewrite alone_cons, step_some by exact Hle. unfold ts_body. rewrite Hs, (generate_rows_ok cfg Hf) by assumption. cbn [bind].
      pose proof (chunk_wide t c (r_time prev) H1') as Wd. set (g := map (gap_row (length c)) (missing freq (r_time prev) t) ++ [(false, t, c)]) in *.
      rewrite (impute_rows_ok w g _ Wd Hc). cbn [bind].
      assert (Hb : exists c', back (ff (r_cells prev) g) prev = (false, t, c') /\ c' = lastc (r_cells prev) (ff (r_cells prev) g)).
      { unfold g. rewrite ff_app. cbn [ff]. unfold back. rewrite last_last. eexists. split; [reflexivity|]. rewrite lastc_app. reflexivity. }
      destruct Hb as [c' [-> Hc']]. destruct (IH (false, t, c')) as [prev' [E Et]]; try assumption.
      { unfold r_cells. cbn [snd]. subst c'. apply lastc_wide; [now apply ff_wide|exact Hc]. }
      change (r_cells (false, t, c')) with c' in E. change (r_time (false, t, c')) with t in *.
      exists prev'. rewrite E, gaps_after_cons. fold g. rewrite ff_app, <- Hc'. split; [reflexivity|].
      rewrite Et. cbn [map fst]. rewrite last_cons'. reflexivity.
  Qed.

  (** Median. *)
  Lemma median_run : ts_strategy cfg = Median -> length (ts_types cfg) = w ->
    match ts_medians cfg k with Some ms => (w <= length ms)%nat | None => ts_suppress cfg = true end ->
    forall l prev, in_i64 (r_time prev + freq) = true -> fit_rows l -> from (r_time prev) l ->
    exists out prev', alone (ts_step cfg k) (Some (prev, [])) l = (out, Ok (Some (prev', []))) /\
      Forall2 (med_row_of cfg (ts_medians cfg k)) out (gaps_after freq (r_time prev) l) /\ r_time prev' = last (map fst l) (r_time prev).
  Proof using Hf.
    intros Hs Ht Hm. induction l as [|[t c] l IH]; intros prev Hp Hl Ho.
    - exists [], prev. split; [reflexivity|]. split; [constructor|reflexivity].
    - destruct (from_cons _ _ _ _ Ho) as [Hle Ho']. inversion Hl as [|? ? [H1 H1'] H2]; subst. cbn [fst snd] in H1, H1'.
      rewrite alone_cons, step_some by exact Hle. unfold ts_body. rewrite Hs, (generate_rows_ok cfg Hf) by assumption. cbn [bind].
      pose proof (chunk_wide t c (r_time prev) H1') as Wd. set (g := map (gap_row (length c)) (missing freq (r_time prev) t) ++ [(false, t, c)]) in *.
      destruct (median_rows_ok cfg k _ g Wd Ht Hm) as [rows [Er Fr]]. rewrite Er. cbn [bind].
      assert (Hb : r_time (back rows prev) = t).
      { unfold g in Fr. apply Forall2_app_inv_r in Fr. destruct Fr as [l1 [l2 [_ [F2 ->]]]]. inversion F2 as [|x ? ? ? Hx F3]; subst. inversion F3; subst.
        unfold back. rewrite last_last. exact (proj1 (proj2 Hx)). }
      destruct (IH (back rows prev)) as [out [prev' [E [F Et]]]]; try assumption; try (rewrite Hb; assumption).
      rewrite E, Hb in *. exists (rows ++ out), prev'. split; [reflexivity|]. split.
      + rewrite gaps_after_cons. fold g. apply Forall2_app; assumption.
      + rewrite Et. cbn [map fst]. now rewrite last_cons'.
  Qed.

  (** Backward. *)
  Notation split := (split_complete (C := C)).
  Lemma backward_run : ts_strategy cfg = Backward -> forall l g prev, in_i64 (r_time prev + freq) = true -> wide w g ->
    fit_rows l -> from (r_time prev) l ->
    exists out prev', alone (ts_step cfg k) (Some (prev, snd (split (bf [] g)))) l =
        (out, Ok (Some (prev', snd (split (bf [] (g ++ gaps_after freq (r_time prev) l)))))) /\
      fst (split (bf [] g)) ++ out = fst (split (bf [] (g ++ gaps_after freq (r_time prev) l))) /\
      r_time prev' = last (map fst l) (r_time prev).
  Proof using Hf.
    intros Hs. induction l as [|[t c] l IH]; intros g prev Hp Hg Hl Ho.
    - exists [], prev. cbn [gaps_after]. rewrite !app_nil_r. split; [reflexivity|]. split; reflexivity.
    - destruct (from_cons _ _ _ _ Ho) as [Hle Ho']. inversion Hl as [|? ? [H1 H1'] H2]; subst. cbn [fst snd] in H1, H1'.
      rewrite alone_cons, step_some by exact Hle. unfold ts_body. rewrite Hs, (generate_rows_ok cfg Hf) by assumption. cbn [bind].
      pose proof (chunk_wide t c (r_time prev) H1') as Wd. rewrite H1' in *.
      assert (Ew : exists X : list row, map (gap_row w) (missing freq (r_time prev) t) = X) by eauto. destruct Ew as [X EX].
      assert (Eg : gaps_after freq (r_time prev) ((t, c) :: l) = (X ++ [(false, t, c)]) ++ gaps_after freq t l) by (rewrite gaps_after_cons, H1', EX; reflexivity).
      rewrite EX in *. clear EX. rewrite Eg, (app_assoc g (X ++ [(false, t, c)])). clear Eg.
      set (D := snd (split (bf [] g))) in *.
      assert (WD : wide w D).
      { pose proof (bf_wide w g [] Hg) as B. rewrite <- (split_app (bf [] g)) in B. apply Forall_app in B. exact (proj2 B). }
      assert (WB : wide w (D ++ X ++ [(false, t, c)])) by (apply Forall_app; split; assumption).
      assert (Eb : back (D ++ X ++ [(false, t, c)]) prev = (false, t, c)) by (unfold back; rewrite app_assoc; apply last_last).
      cbv zeta. rewrite Eb. unfold r_cells. cbn [snd].
      rewrite (impute_rows_ok w); [|apply Forall_rev; exact WB|exact H1']. cbn [bind]. rewrite rev_ff. pose proof (bf_last (D ++ X) (false, t, c)) as BL. cbn [snd] in BL. rewrite <- app_assoc in BL. rewrite BL. clear BL.
      pose proof (bf_step w g (X ++ [(false, t, c)]) Hg) as St. fold D in St.
      set (R := bf [] (D ++ X ++ [(false, t, c)])) in *.
      assert (Et : r_time (back R prev) = t).
      { unfold R. rewrite app_assoc, bf_app. cbn [bf]. unfold back. rewrite last_last. reflexivity. }
      pose proof (split_complete_app (fst (split (bf [] g))) R (split_fst_complete _)) as Sp. rewrite <- St in Sp.
      destruct (split R) as [o kp] eqn:ER. cbn [fst snd] in Sp.
      destruct (IH (g ++ X ++ [(false, t, c)]) (back R prev)) as [out [prev' [E [Eo Et']]]]; try assumption; try (rewrite Et; assumption).
      { apply Forall_app. split; assumption. }
      rewrite Sp in E, Eo. cbn [fst snd] in E, Eo. rewrite Et in E, Eo, Et'. rewrite E. exists (o ++ out), prev'. split; [reflexivity|]. split.
      + rewrite app_assoc. exact Eo.
      + rewrite Et'. cbn [map fst]. now rewrite last_cons'.
  Qed.

  (** The first row of a key. *)
  Lemma alone_first : forall t c l, alone (ts_step cfg k) None ((t, c) :: l) = alone (ts_step cfg k) (Some ((false, t, c), [])) ((t, c) :: l).
  Proof using Type.
    clear. intros t c l. rewrite !alone_cons. rewrite step_some by (unfold r_time; cbn [fst snd]; lia). unfold ts_step. reflexivity.
  Qed.
  Lemma with_gaps_first : forall t c l, gaps_after freq t ((t, c) :: l) = with_gaps freq ((t, c) :: l : list (Z * cells)).
  Proof using Hf. intros t c l. cbn [gaps_after with_gaps]. rewrite (missing_none cfg Hf) by lia. reflexivity. Qed.
  Lemma chronological_from : forall t c l, chronological ((t, c) :: l : list (Z * cells)) -> from t ((t, c) :: l).
  Proof using Type.
    clear. intros t c l H. unfold from. assert (G : StronglySorted Z.le (map fst ((t, c) :: l))).
    { clear -H. unfold chronological in H. induction H as [|a l1 H IH F]; [constructor|]. cbn [map]. constructor; [exact IH|]. apply Forall_map. exact F. }
    constructor; [exact G|]. cbn [map fst] in *. inversion G; subst. constructor; [lia|assumption].
  Qed.

  (** What one key gets, by strategy; the state at the end. *)
  Definition ends (l : list (Z * cells)) (st : option (row * list row)) (b : list row) : Prop :=
    match l with [] => st = None /\ b = [] | _ => exists p, st = Some (p, b) /\ time p = last (map fst l) 0 end.
  Lemma last_default : forall (l : list (Z * cells)) d d', l <> [] -> last (map fst l) d = last (map fst l) d'.
  Proof using Type. clear. intros [|x l] d d' H; [contradiction|]. cbn [map]. now rewrite !last_cons'. Qed.
  Lemma forward_alone : ts_strategy cfg = Forward -> forall l, fit_rows l -> chronological l ->
    exists st, alone (ts_step cfg k) None l = (ff [] (with_gaps freq l), Ok st) /\ ends l st [].
  Proof using Hf.
    intros Hs [|[t c] l] Hl Ho; [exists None; split; [reflexivity|split; reflexivity]|]. rewrite alone_first.
    pose proof Hl as Hl'. inversion Hl as [|? ? [H1 H1'] H2]; subst.
    destruct (forward_run Hs ((t, c) :: l) (false, t, c)) as [p [E Et]]; try assumption.
    { now apply chronological_from. }
    exists (Some (p, [])). rewrite E. unfold r_cells, r_time. cbn [fst snd]. rewrite with_gaps_first. split.
    - cbn [with_gaps ff snd]. now rewrite orz_refl, orz_nil.
    - exists p. split; [reflexivity|]. change (time p) with (r_time p). rewrite Et. apply last_default. discriminate.
  Qed.
  Lemma median_alone : ts_strategy cfg = Median -> length (ts_types cfg) = w ->
    match ts_medians cfg k with Some ms => (w <= length ms)%nat | None => ts_suppress cfg = true end ->
    forall l, fit_rows l -> chronological l ->
    exists out st, alone (ts_step cfg k) None l = (out, Ok st) /\ Forall2 (med_row_of cfg (ts_medians cfg k)) out (with_gaps freq l) /\ ends l st [].
  Proof using Hf.
    intros Hs Ht Hm [|[t c] l] Hl Ho; [exists [], None; split; [reflexivity|split; [constructor|split; reflexivity]]|]. rewrite alone_first.
    pose proof Hl as Hl'. inversion Hl as [|? ? [H1 H1'] H2]; subst.
    destruct (median_run Hs Ht Hm ((t, c) :: l) (false, t, c)) as [out [p [E [F Et]]]]; try assumption.
    { now apply chronological_from. }
    exists out, (Some (p, [])). rewrite E. unfold r_time in F. cbn [fst snd] in F. rewrite with_gaps_first in F. split; [reflexivity|]. split; [exact F|].
    exists p. split; [reflexivity|]. change (time p) with (r_time p). rewrite Et. apply last_default. discriminate.
  Qed.
  Lemma backward_alone : ts_strategy cfg = Backward -> forall l, fit_rows l -> chronological l ->
    exists st, alone (ts_step cfg k) None l = (fst (split (bf [] (with_gaps freq l))), Ok st) /\ ends l st (snd (split (bf [] (with_gaps freq l)))).
  Proof using Hf.
    intros Hs [|[t c] l] Hl Ho; [exists None; split; [reflexivity|split; reflexivity]|]. rewrite alone_first.
    pose proof Hl as Hl'. inversion Hl as [|? ? [H1 H1'] H2]; subst.
    destruct (backward_run Hs ((t, c) :: l) [] (false, t, c)) as [out [p [E [Eo Et]]]]; try assumption.
    { constructor. }
    { now apply chronological_from. }
    change (r_time (false, t, c)) with t in *. cbn [app] in E, Eo. rewrite with_gaps_first in E, Eo. cbn [bf split_complete fst snd app] in E, Eo.
    eexists. rewrite <- Eo. split; [exact E|]. exists p. split; [reflexivity|]. change (time p) with (r_time p). rewrite Et. apply last_default. discriminate.
  Qed.
End Machine.
