From Verif Require Import Base L_List M_Estimator M_Stats S_Stats M_Pipeline M_Keyed S_Keyed L_Keyed S_Impute M_TsImpute S_TsImpute L_TsImpute L_TsImpute2.

(** ** Columns *)
Section Columns.
  Context {C : Type}.
  Notation cells := (list (option C)).
  Notation row := (bool * Z * cells)%type.
  Definition ov (x d : option C) : option C := match x with Some v => Some v | None => d end.
  Lemma forward_0 : forall d x (l : list (option C)), filled_forward d (x :: l) 0 = ov x d.
  Proof. intros d [v|] l; reflexivity. Qed.
  Lemma forward_S : forall d x (l : list (option C)) i, filled_forward d (x :: l) (S i) = filled_forward (ov x d) l i.
  Proof.
    intros d x l i. unfold filled_forward. change (firstn (S (S i)) (x :: l)) with (x :: firstn (S i) l). destruct x as [v|]; cbn [somes flat_map app ov].
    - fold (somes (firstn (S i) l)). cbn [rev]. destruct (rev (somes (firstn (S i) l))); reflexivity.
    - reflexivity.
  Qed.
  Lemma backward_0 : forall d x (l : list (option C)), filled_backward d (x :: l) 0 = ov x (filled_backward d l 0).
  Proof. intros d [v|] l; reflexivity. Qed.
  Lemma backward_S : forall d x (l : list (option C)) i, filled_backward d (x :: l) (S i) = filled_backward d l i.
  Proof. reflexivity. Qed.

  Lemma nth_column : forall c i (rows : list row), nth_error (column c rows) i = option_map (fun r : row => nth c (snd r) None) (nth_error rows i).
  Proof. intros c i rows. unfold column. revert i. induction rows as [|r rows IH]; intros [|i]; cbn [map nth_error option_map]; auto. Qed.
  Lemma column_length : forall c (rows : list row), length (column c rows) = length rows.
  Proof. intros. unfold column. apply map_length. Qed.
  Lemma column_narrow : forall c w (rows : list row), wide w rows -> (w <= c)%nat -> column c rows = repeat None (length rows).
  Proof.
    intros c w rows H Hc. induction H as [|r rows Hr H IH]; [reflexivity|]. cbn [column map length repeat]. fold (column c rows). rewrite IH. f_equal. apply nth_overflow. lia.
  Qed.
  Lemma somes_nones : forall n, somes (repeat (@None C) n) = [].
  Proof. induction n; cbn [repeat somes flat_map app]; auto. Qed.
  Lemma nones_forward : forall n i, filled_forward None (repeat (@None C) n) i = None.
  Proof.
    intros n i. unfold filled_forward. assert (H : somes (firstn (S i) (repeat (@None C) n)) = []).
    { generalize (S i). clear. intros m. revert m. induction n as [|n IH]; intros [|m]; cbn [repeat firstn somes flat_map app]; auto. apply IH. }
    now rewrite H.
  Qed.
  Lemma nones_backward : forall n i, filled_backward None (repeat (@None C) n) i = None.
  Proof.
    intros n i. unfold filled_backward. assert (H : somes (skipn i (repeat (@None C) n)) = []).
    { revert n. induction i as [|i IH]; intros [|n]; try reflexivity; [apply (somes_nones (S n))|cbn [repeat skipn]; apply IH]. }
    now rewrite H.
  Qed.
  Lemma nones_nth : forall n i, (i < n)%nat -> nth_error (repeat (@None C) n) i = Some None.
  Proof. induction n as [|n IH]; intros [|i] H; cbn [repeat nth_error]; try lia; [reflexivity|]. apply IH. lia. Qed.

  Lemma ff_column : forall w c (rows : list row), wide w rows -> (c < w)%nat -> forall prev i, (i < length rows)%nat ->
    nth_error (column c (ff prev rows)) i = Some (filled_forward (nth c prev None) (column c rows) i).
  Proof.
    intros w c rows H Hc. induction H as [|r rows Hr H IH]; intros prev i Hi; [cbn [length] in Hi; lia|]. cbn [ff column map]. fold (column c (ff (orz (snd r) prev) rows)). fold (column c rows).
    assert (E : nth c (orz (snd r) prev) None = ov (nth c (snd r) None) (nth c prev None)).
    { rewrite orz_nth, Hr. apply Nat.ltb_lt in Hc. rewrite Hc. reflexivity. }
    destruct i as [|i]; cbn [nth_error].
    - unfold put. cbn [snd]. now rewrite E, forward_0.
    - cbn [length] in Hi. rewrite IH by lia. now rewrite E, forward_S.
  Qed.
  Lemma hdc_column : forall w c (rows : list row), wide w rows -> (c < w)%nat -> nth c (hdc [] (bf [] rows)) None = filled_backward None (column c rows) 0.
  Proof.
    intros w c rows H Hc. induction H as [|r rows Hr H IH]; cbn [bf hdc column map]; [now destruct c|]. fold (column c rows). unfold put. cbn [snd].
    rewrite orz_nth, Hr, backward_0. apply Nat.ltb_lt in Hc. rewrite Hc, IH. reflexivity.
  Qed.
  Lemma bf_column : forall w c (rows : list row), wide w rows -> (c < w)%nat -> forall i, (i < length rows)%nat ->
    nth_error (column c (bf [] rows)) i = Some (filled_backward None (column c rows) i).
  Proof.
    intros w c rows H Hc. induction H as [|r rows Hr H IH]; intros i Hi; [cbn [length] in Hi; lia|]. destruct i as [|i].
    - rewrite <- (hdc_column w) by (try assumption; constructor; assumption). cbn [bf column map nth_error hdc]. reflexivity.
    - cbn [bf column map nth_error]. fold (column c (bf [] rows)). fold (column c rows). rewrite backward_S. apply IH. cbn [length] in Hi. lia.
  Qed.
  Lemma ff_filled : forall w (rows : list row), wide w rows -> filled (ff [] rows) rows (fun _ col p => filled_forward None col p).
  Proof.
    intros w rows H. split; [apply ff_marks|]. intros c. split; [rewrite !column_length; apply ff_length|]. intros i Hi. rewrite column_length in Hi.
    destruct (Nat.lt_ge_cases c w) as [L|L].
    - rewrite (ff_column w) by assumption. now destruct c.
    - rewrite (column_narrow c w rows H L), nones_forward, (column_narrow c w (ff [] rows)) by (try apply ff_wide; assumption). rewrite ff_length. now apply nones_nth.
  Qed.
  Lemma bf_filled : forall w (rows : list row), wide w rows -> filled (bf [] rows) rows (fun _ col p => filled_backward None col p).
  Proof.
    intros w rows H. split; [apply bf_marks|]. intros c. split; [rewrite !column_length; apply bf_length|]. intros i Hi. rewrite column_length in Hi.
    destruct (Nat.lt_ge_cases c w) as [L|L].
    - now rewrite (bf_column w) by assumption.
    - rewrite (column_narrow c w rows H L), nones_backward, (column_narrow c w (bf [] rows)) by (try apply bf_wide; assumption). rewrite bf_length. now apply nones_nth.
  Qed.
  Lemma supports_float : forall id, supports_median id = float_column id.
  Proof.
    intros id. unfold supports_median, float_column. cbn [existsb]. now rewrite orb_false_r, !orb_assoc.
  Qed.
  Lemma med_filled : forall {K} (cfg : config (K := K) (C := C)) w med out (rows : list row), wide w rows -> length (ts_types cfg) = w ->
    Forall2 (med_row_of cfg med) out rows ->
    filled out rows (fun c col p => match nth p col None with
                                    | Some v => Some v
                                    | None => if float_column (nth c (ts_types cfg) 0) then match med with Some ms => nth_error ms c | None => None end else None
                                    end).
  Proof.
    intros K cfg w med out rows H Ht F. split.
    - clear -F. induction F as [|a b out rows [H1 [H2 [H3 H4]]] F IH]; [reflexivity|]. cbn [map]. now rewrite IH, H1, H2, H3.
    - intros c. assert (El : length out = length rows) by (clear -F; induction F; cbn [length]; auto). split; [rewrite !column_length; exact El|]. intros i Hi. rewrite column_length in Hi.
      assert (Ex : exists a b, nth_error out i = Some a /\ nth_error rows i = Some b /\ med_row_of cfg med a b /\ length (snd b) = w).
      { clear El. revert i Hi H. induction F as [|a b out rows Hab F IH]; intros i Hi H; cbn [length] in Hi; [lia|]. inversion H; subst. destruct i as [|i]; cbn [nth_error]; [exists a, b; auto|]. apply IH; [lia|assumption]. }
      destruct Ex as [a [b [Ea [Eb [[H1 [H2 [H3 H4]]] Hw]]]]]. rewrite nth_column, Ea. cbn [option_map].
      assert (Ep : nth i (column c rows) None = nth c (snd b) None) by (apply nth_error_nth; rewrite nth_column, Eb; reflexivity).
      rewrite Ep. f_equal. destruct (Nat.lt_ge_cases c w) as [L|L].
      + rewrite H4 by lia. unfold med_cell. now rewrite supports_float.
      + rewrite nth_overflow by lia. rewrite (nth_overflow (snd b)) by lia. rewrite (nth_overflow (ts_types cfg)) by lia. reflexivity.
  Qed.
End Columns.

(** ** The transformer *)
Section Transformer.
  Context {K C : Type}.
  Notation cells := (list (option C)).
  Notation row := (bool * Z * cells)%type.
  Variable keqb klt : K -> K -> bool.
  Hypothesis Hord : key_order keqb klt.
  Variable cfg : config (K := K) (C := C).
  Notation freq := (ts_freq cfg).
  Notation T := (ts_transformer keqb klt cfg).
  Notation of := (of_key keqb).

  Lemma flush_keyed : forall m : list (K * (row * list row)), keyed_flush (fun s => (snd s, Ok s)) m = (fst (ts_flush m), Ok m).
  Proof using Type.
    clear. induction m as [|[k s] m IH]; [reflexivity|]. cbn [keyed_flush]. rewrite IH. reflexivity.
  Qed.
  Lemma flush_of : forall (m : list (K * (row * list row))) k, ascending klt m -> of k (fst (ts_flush m)) = match k_find keqb m k with Some s => snd s | None => [] end.
  Proof using Hord.
    intros m k Ha. destruct (keyed_flush_ok keqb klt Hord (fun s : row * list row => (snd s, Ok s)) m Ha) as [out [m' [E [_ H]]]].
    { intros k0 s0 _. exists s0. reflexivity. }
    rewrite flush_keyed in E. injection E as <- <-. specialize (H k). destruct (k_find keqb m k); exact (proj1 H).
  Qed.
  Lemma run_start : forall l : list (K * (Z * cells)), (forall k, exists s : option (row * list row), snd (alone (ts_step cfg k) None (of k l)) = Ok s) ->
    exists o1 m o2, run_exec T (t_cur T) l = (o1, Ok m) /\ t_flush T m = (o2, Ok []) /\ delivered T l = (o1 ++ o2, Ok tt) /\
      StronglySorted (fun a b : K * row => klt (fst b) (fst a) = false) o2 /\
      forall k, of k o1 = fst (alone (ts_step cfg k) None (of k l)) /\
                (forall s : option (row * list row), snd (alone (ts_step cfg k) None (of k l)) = Ok s -> k_find keqb m k = s /\ of k o2 = match s with Some s => snd s | None => [] end).
  Proof using Hord.
    intros l H. destruct (keyed_ok keqb klt Hord (ts_step cfg) l [] H) as [o1 [m [E Hk]]].
    assert (Ha : ascending klt m) by (apply (feed_ascending keqb klt Hord (ts_step cfg) l [] o1 m); [constructor|exact E]).
    exists o1, m, (fst (ts_flush m)). split; [exact E|]. split; [reflexivity|]. split.
    - unfold delivered, run_all. unfold run_exec. cbn [t_exec t_state t_cur ts_transformer]. rewrite E. reflexivity.
    - split.
      + apply (keyed_flush_order keqb klt Hord (fun s : row * list row => (snd s, Ok s)) m (fst (ts_flush m)) m Ha). apply flush_keyed.
      + intros k. destruct (Hk k) as [H1 H2]. split; [exact H1|]. intros s Hs. change (k_find keqb [] k) with (@None (row * list row)) in H2. rewrite Hs in H2. injection H2 as ->.
        split; [reflexivity|]. rewrite flush_of by exact Ha. reflexivity.
  Qed.

  Lemma of_regular : forall w k l, regular freq w l -> fit_rows cfg w (of k l).
  Proof using Type.
    clear. intros w k l H. unfold of_key, fit_rows. apply Forall_map. apply Forall_forall. intros x Hx. apply filter_In in Hx. unfold regular in H. rewrite Forall_forall in H. exact (H x (proj1 Hx)).
  Qed.
  Lemma gaps_regular : forall w l, fit_rows cfg w l -> wide w (with_gaps freq l).
  Proof using Type.
    clear. intros w [|[t c] l] H; [constructor|]. inversion H as [|? ? [H1 H2] H3]; subst. constructor; [reflexivity|]. now apply gaps_wide.
  Qed.

  Section Good.
    Hypothesis Hf : 0 < freq.
    Variable w : nat.
    Variable l : list (K * (Z * cells)).
    Hypothesis Hr : regular freq w l.
    Hypothesis Hc : forall k, chronological (of k l).
    Notation gaps k := (with_gaps freq (of k l)).

    Lemma forward_top : ts_strategy cfg = Forward ->
      exists out, delivered T l = (out, Ok tt) /\ run_exec T (t_cur T) l = (out, snd (run_exec T (t_cur T) l)) /\
        forall k, filled (of k out) (gaps k) (fun _ col p => filled_forward None col p).
    Proof using Hord Hf Hr Hc.
      intros Hs. assert (A : forall k, exists st, alone (ts_step cfg k) None (of k l) = (ff [] (gaps k), Ok st) /\ ends (of k l) st []).
      { intros k. apply (forward_alone cfg Hf k w); [exact Hs|now apply of_regular|apply Hc]. }
      destruct (run_start l) as [o1 [m [o2 [E1 [E2 [E3 [_ H]]]]]]].
      { intros k. destruct (A k) as [st [-> _]]. now exists st. }
      assert (N : o2 = []).
      { destruct o2 as [|[k x] o2]; [reflexivity|]. exfalso. destruct (A k) as [st [Ea Ee]]. destruct (H k) as [_ H2]. rewrite Ea in H2. destruct (H2 st eq_refl) as [_ H3].
        assert (X : match st with Some s => snd s | None => [] end = []).
        { unfold ends in Ee. destruct (of k l); [destruct Ee as [-> _]; reflexivity|]. destruct Ee as [pp [-> _]]. reflexivity. }
        rewrite X, of_key_cons in H3. cbn [fst] in H3. rewrite (keqb_refl keqb klt Hord) in H3. discriminate. }
      subst o2. rewrite app_nil_r in E3. exists o1. split; [exact E3|]. split; [rewrite E1; reflexivity|]. intros k. destruct (H k) as [-> _]. destruct (A k) as [st [-> _]].
      cbn [fst]. apply (ff_filled w). apply gaps_regular. now apply of_regular.
    Qed.
    Lemma median_top : ts_strategy cfg = Median -> covered (ts_types cfg) (ts_medians cfg) (ts_suppress cfg) w (map fst l) ->
      exists out, delivered T l = (out, Ok tt) /\ run_exec T (t_cur T) l = (out, snd (run_exec T (t_cur T) l)) /\
        forall k, filled (of k out) (gaps k)
          (fun c col p => match nth p col None with
                          | Some v => Some v
                          | None => if float_column (nth c (ts_types cfg) 0) then match ts_medians cfg k with Some ms => nth_error ms c | None => None end else None
                          end).
    Proof using Hord Hf Hr Hc.
      intros Hs [Ht Hm]. assert (A : forall k, exists out st, alone (ts_step cfg k) None (of k l) = (out, Ok st) /\ Forall2 (med_row_of cfg (ts_medians cfg k)) out (gaps k) /\ ends (of k l) st []).
      { intros k. destruct (of k l) as [|x r] eqn:El.
        - exists [], None. split; [reflexivity|]. split; [constructor|split; reflexivity].
        - rewrite <- El. apply (median_alone cfg Hf k w); [exact Hs|exact Ht| |now apply of_regular|apply Hc]. apply Hm.
          assert (Hin : In x (of k l)) by (rewrite El; now left). unfold of_key in Hin. apply in_map_iff in Hin. destruct Hin as [[k' y] [_ Hin]]. apply filter_In in Hin. destruct Hin as [Hin Hk].
          cbn [fst] in Hk. apply (keqb_eq keqb klt Hord) in Hk. subst k'. apply in_map_iff. exists (k, y). split; [reflexivity|exact Hin]. }
      destruct (run_start l) as [o1 [m [o2 [E1 [E2 [E3 [_ H]]]]]]].
      { intros k. destruct (A k) as [out [st [-> _]]]. now exists st. }
      assert (N : o2 = []).
      { destruct o2 as [|[k x] o2]; [reflexivity|]. exfalso. destruct (A k) as [out [st [Ea [_ Ee]]]]. destruct (H k) as [_ H2]. rewrite Ea in H2. destruct (H2 st eq_refl) as [_ H3].
        assert (X : match st with Some s => snd s | None => [] end = []).
        { unfold ends in Ee. destruct (of k l); [destruct Ee as [-> _]; reflexivity|]. destruct Ee as [pp [-> _]]. reflexivity. }
        rewrite X, of_key_cons in H3. cbn [fst] in H3. rewrite (keqb_refl keqb klt Hord) in H3. discriminate. }
      subst o2. rewrite app_nil_r in E3. exists o1. split; [exact E3|]. split; [rewrite E1; reflexivity|]. intros k. destruct (H k) as [-> _]. destruct (A k) as [out [st [-> [F _]]]].
      cbn [fst]. apply (med_filled cfg w); [apply gaps_regular; now apply of_regular|exact Ht|exact F].
    Qed.
    Lemma backward_top : ts_strategy cfg = Backward ->
      exists o1 m o2, run_exec T (t_cur T) l = (o1, Ok m) /\ t_flush T m = (o2, Ok []) /\ delivered T l = (o1 ++ o2, Ok tt) /\
        StronglySorted (fun a b : K * row => klt (fst b) (fst a) = false) o2 /\
        forall k, filled (of k (o1 ++ o2)) (gaps k) (fun _ col p => filled_backward None col p) /\
          of k o1 = fst (split_complete (bf [] (gaps k))) /\ of k o2 = snd (split_complete (bf [] (gaps k))).
    Proof using Hord Hf Hr Hc.
      intros Hs. assert (A : forall k, exists st, alone (ts_step cfg k) None (of k l) = (fst (split_complete (bf [] (gaps k))), Ok st) /\ ends (of k l) st (snd (split_complete (bf [] (gaps k))))).
      { intros k. apply (backward_alone cfg Hf k w); [exact Hs|now apply of_regular|apply Hc]. }
      destruct (run_start l) as [o1 [m [o2 [E1 [E2 [E3 [Eo H]]]]]]].
      { intros k. destruct (A k) as [st [-> _]]. now exists st. }
      exists o1, m, o2. split; [exact E1|]. split; [exact E2|]. split; [exact E3|]. split; [exact Eo|]. intros k. destruct (H k) as [H1 H2]. destruct (A k) as [st [Ea Ee]]. rewrite Ea in H1, H2. cbn [fst snd] in *.
      destruct (H2 st eq_refl) as [_ H3]. assert (X : of k o2 = snd (split_complete (bf [] (gaps k)))).
      { rewrite H3. unfold ends in Ee. destruct (of k l); [destruct Ee as [-> ->]; reflexivity|]. destruct Ee as [pp [-> _]]. reflexivity. }
      split; [|split; [exact H1|exact X]]. rewrite of_key_app, H1, X, split_app. apply (bf_filled w). apply gaps_regular. now apply of_regular.
    Qed.
  End Good.
End Transformer.
