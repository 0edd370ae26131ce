From Verif Require Import Base L_List M_Estimator M_Stats S_Stats M_Pipeline M_Keyed S_Keyed L_Keyed S_Impute M_TsImpute S_TsImpute L_TsImpute L_TsImpute2 L_TsImpute3.

(** ** Spacing of the rows *)
Section Spacing.
  Context {K C : Type}.
  Notation cells := (list (option C)).
  Notation row := (bool * Z * cells)%type.
  Variable cfg : config (K := K) (C := C).
  Notation freq := (ts_freq cfg).
  Hypothesis Hf : 0 < freq.
  Definition spaced (a b : bool * Z) : Prop :=
    snd a <= snd b <= snd a + freq /\ (fst b = true -> snd b = snd a + freq) /\ (fst a = true -> snd a < snd b).
  Fixpoint chained (a : bool * Z) (l : list (bool * Z)) : Prop := match l with [] => True | b :: r => spaced a b /\ chained b r end.
  Lemma chained_adjacent : forall l a x y, chained a l -> adjacent (a :: l) x y -> spaced x y.
  Proof using Type.
    induction l as [|b l IH]; intros a x y H [p [q E]]; destruct p as [|z p]; cbn [app] in E.
    - discriminate.
    - exfalso. destruct p; discriminate.
    - inversion E; subst. exact (proj1 H).
    - apply (IH b); [exact (proj2 H)|]. exists p, q. now inversion E.
  Qed.
  Notation mark := (fun r : row => (added r, time r)).
  Lemma chunk_chained : forall n a t w rest, (Z.to_nat (t - snd a) <= n)%nat -> snd a <= t -> (fst a = true -> snd a < t) -> chained (false, t) rest ->
    chained a (map mark (map (gap_row w) (missing freq (snd a) t)) ++ (false, t) :: rest).
  Proof using Hf.
    induction n as [|n IH]; intros a t w rest Hn Ha Hb Hr; (destruct (Z.lt_ge_cases (snd a + freq) t) as [L|L];
      [|rewrite (missing_none cfg Hf) by lia; cbn [map app chained]; split; [unfold spaced; cbn [fst snd]; split; [lia|split; [discriminate|exact Hb]]|exact Hr]]).
    - lia.
    - rewrite (missing_some cfg Hf) by exact L. cbn [map app chained]. change (added (gap_row (C := C) w (snd a + freq)), time (gap_row (C := C) w (snd a + freq))) with (true, snd a + freq). split.
      + unfold spaced. cbn [fst snd]. split; [clear -Hf; lia|]. split; [reflexivity|intros _; clear -Hf; lia].
      + apply (IH (true, snd a + freq)); cbn [fst snd]; [lia|lia|intros _; exact L|exact Hr].
  Qed.
  Lemma gaps_chained : forall l a, fst a = false -> from (snd a) l -> chained a (map mark (gaps_after freq (snd a) (l : list (Z * cells)))).
  Proof using Hf.
    induction l as [|[t c] l IH]; intros a Ha H; [exact I|]. destruct (from_cons _ _ _ _ H) as [H1 H2]. cbn [gaps_after]. rewrite map_app. cbn [map].
    apply (chunk_chained (Z.to_nat (t - snd a))); [apply le_n|exact H1|congruence|]. change (chained (false, t) (map mark (gaps_after freq (snd (false, t)) l))). apply IH; [reflexivity|exact H2].
  Qed.
  Lemma with_gaps_adjacent : forall l x y, chronological (l : list (Z * cells)) -> adjacent (map mark (with_gaps freq l)) x y -> spaced x y.
  Proof using Hf.
    intros [|[t c] l] x y H Hxy; [destruct Hxy as [[|? p] [q E]]; discriminate|]. cbn [with_gaps map] in Hxy. apply (chained_adjacent (map mark (gaps_after freq t l)) (false, t)); [|exact Hxy].
    apply (gaps_chained l (false, t) eq_refl). cbn [snd]. apply (from_cons t t c l). now apply chronological_from.
  Qed.
  Lemma gaps_originals : forall l a, map snd (filter (fun r => negb (fst r)) (map mark (gaps_after freq a l))) = map fst (l : list (Z * cells)).
  Proof using Type.
    clear Hf. induction l as [|[t c] l IH]; intros a; [reflexivity|]. cbn [gaps_after]. rewrite map_app, filter_app, map_app. cbn [map].
    assert (E : filter (fun r => negb (fst r)) (map mark (map (fun m : Z => (true, m, repeat (@None C) (length c))) (missing freq a t))) = []).
    { generalize (missing freq a t). intros ms. induction ms as [|m ms IHm]; [reflexivity|]. cbn [map filter]. exact IHm. }
    rewrite E. cbn [app filter]. cbn [added fst snd negb map time]. now rewrite IH.
  Qed.
  Lemma with_gaps_originals : forall l, map snd (filter (fun r => negb (fst r)) (map mark (with_gaps freq l))) = map fst (l : list (Z * cells)).
  Proof using Type. clear Hf. intros [|[t c] l]; [reflexivity|]. cbn [with_gaps map filter added fst snd negb time]. now rewrite gaps_originals. Qed.
  Lemma last_mark : forall l, l <> [] -> exists t, hd_error (rev (map mark (with_gaps freq l))) = Some (false, t) /\ hd_error (rev (map fst (l : list (Z * cells)))) = Some t.
  Proof using Type.
    clear Hf. intros l. induction l as [|[t c] l IH] using rev_ind; [contradiction|]. intros _. exists t. split; [|rewrite map_app, rev_app_distr; reflexivity].
    destruct l as [|[t0 c0] l]; [reflexivity|]. cbn [app with_gaps]. change ((t0, c0) :: l ++ [(t, c)]) with ((t0, c0) :: l ++ [(t, c)]). rewrite gaps_after_app. cbn [gaps_after].
    rewrite app_assoc. change ((false, t0, c0) :: ?x ++ ?y) with ((((false, t0, c0) : row) :: x) ++ y). rewrite map_app, rev_app_distr. reflexivity.
  Qed.
End Spacing.

(** ** Consequences of [filled] *)
Section Filled.
  Context {C : Type}.
  Notation cells := (list (option C)).
  Notation row := (bool * Z * cells)%type.
  Lemma filled_marks : forall (out rows : list row) f, filled out rows f -> map (fun r => (added r, time r)) out = map (fun r => (added r, time r)) rows.
  Proof.
    intros out rows f [H _]. assert (E : forall l : list row, map (fun r => (added r, time r)) l = map fst (map (fun r => (added r, time r, length (snd r))) l)) by (intros; rewrite map_map; reflexivity).
    rewrite !E, H. reflexivity.
  Qed.
  Lemma forward_kept : forall (col : list (option C)) d p v, nth_error col p = Some (Some v) -> filled_forward d col p = Some v.
  Proof.
    induction col as [|x col IH]; intros d [|p] v H; cbn [nth_error] in H; try discriminate.
    - injection H as ->. now rewrite forward_0.
    - rewrite forward_S. now apply IH.
  Qed.
  Lemma backward_kept : forall (col : list (option C)) d p v, nth_error col p = Some (Some v) -> filled_backward d col p = Some v.
  Proof.
    induction col as [|x col IH]; intros d [|p] v H; cbn [nth_error] in H; try discriminate.
    - injection H as ->. now rewrite backward_0.
    - rewrite backward_S. now apply IH.
  Qed.
  Lemma filled_kept : forall (out rows : list row) f, filled out rows f ->
    (forall c p v, nth_error (column c rows) p = Some (Some v) -> f c (column c rows) p = Some v) ->
    forall c p v, nth_error (column c rows) p = Some (Some v) -> nth_error (column c out) p = Some (Some v).
  Proof.
    intros out rows f [_ H] Hk c p v E. destruct (H c) as [_ H2]. rewrite H2; [|apply nth_error_Some; congruence]. now rewrite (Hk _ _ _ E).
  Qed.
  Lemma adjacent_map : forall {A B} (f : A -> B) l a b, adjacent l a b -> adjacent (map f l) (f a) (f b).
  Proof. intros A B f l a b [p [q ->]]. exists (map f p), (map f q). rewrite map_app. reflexivity. Qed.
End Filled.

Section Top.
  Context {K C : Type}.
  Notation cells := (list (option C)).
  Notation row := (bool * Z * cells)%type.
  Variable keqb klt : K -> K -> bool.
  Hypothesis Hord : key_order keqb klt.
  Variable cfg : config (K := K) (C := C).
  Notation freq := (ts_freq cfg).
  Notation T := (ts_transformer keqb klt cfg).
  Notation of := (of_key keqb).

  Section Good.
    Hypothesis Hf : 0 < freq.
    Variable w : nat.
    Variable l : list (K * (Z * cells)).
    Hypothesis Hr : regular freq w l.
    Hypothesis Hc : forall k, chronological (of k l).
    Hypothesis Hs : ts_strategy cfg = Forward \/ ts_strategy cfg = Backward \/
      ts_strategy cfg = Median /\ covered (ts_types cfg) (ts_medians cfg) (ts_suppress cfg) w (map fst l).
    Lemma all_top : exists out, delivered T l = (out, Ok tt) /\ forall k, exists f, filled (of k out) (with_gaps freq (of k l)) f /\
      (forall c p v, nth_error (column c (with_gaps freq (of k l))) p = Some (Some v) -> f c (column c (with_gaps freq (of k l))) p = Some v).
    Proof using Hord Hf Hr Hc Hs.
      destruct Hs as [S1|[S1|[S1 S2]]].
      - destruct (forward_top keqb klt Hord cfg Hf w l Hr Hc S1) as [out [E [_ H]]]. exists out. split; [exact E|]. intros k. eexists. split; [apply H|]. intros. now apply forward_kept.
      - destruct (backward_top keqb klt Hord cfg Hf w l Hr Hc S1) as [o1 [m [o2 [_ [_ [E [_ H]]]]]]]. exists (o1 ++ o2). split; [exact E|]. intros k. eexists. split; [apply H|]. intros. now apply backward_kept.
      - destruct (median_top keqb klt Hord cfg Hf w l Hr Hc S1 S2) as [out [E [_ H]]]. exists out. split; [exact E|]. intros k. eexists. split; [apply H|]. intros c p v Hv. cbn beta. now rewrite (nth_error_nth _ _ _ Hv).
    Qed.
    Lemma gaps_top : exists out, delivered T l = (out, Ok tt) /\ forall k,
      map (fun r => (added r, time r)) (of k out) = map (fun r => (added r, time r)) (with_gaps freq (of k l)).
    Proof using Hord Hf Hr Hc Hs.
      destruct all_top as [out [E H]]. exists out. split; [exact E|]. intros k. destruct (H k) as [f [H1 _]]. now apply (filled_marks _ _ f).
    Qed.
    Lemma kept_top : exists out, delivered T l = (out, Ok tt) /\ forall k c p v,
      nth_error (column c (with_gaps freq (of k l))) p = Some (Some v) -> nth_error (column c (of k out)) p = Some (Some v).
    Proof using Hord Hf Hr Hc Hs.
      destruct all_top as [out [E H]]. exists out. split; [exact E|]. intros k. destruct (H k) as [f [H1 H2]]. now apply (filled_kept _ _ f).
    Qed.
    Lemma spacing_top : exists out, delivered T l = (out, Ok tt) /\ forall k,
      map time (filter (fun r => negb (added r)) (of k out)) = map fst (of k l) /\
      (forall a b, adjacent (of k out) a b -> time a <= time b <= time a + freq /\ (added b = true -> time b = time a + freq) /\ (added a = true -> time a < time b)) /\
      (forall r, hd_error (of k out) = Some r \/ hd_error (rev (of k out)) = Some r -> added r = false).
    Proof using Hord Hf Hr Hc Hs.
      destruct gaps_top as [out [E H]]. exists out. split; [exact E|]. intros k. specialize (H k). split; [|split].
      - rewrite <- (with_gaps_originals cfg (of k l)), <- H. generalize (of k out). intros o. induction o as [|r o IH]; [reflexivity|]. cbn [filter map fst]. destruct (negb (added r)); cbn [map]; [f_equal; exact IH|exact IH].
      - intros a b Hab. apply (adjacent_map (fun r : row => (added r, time r))) in Hab. rewrite H in Hab. exact (with_gaps_adjacent cfg Hf (of k l) _ _ (Hc k) Hab).
      - intros r [Hh|Hh].
        + assert (G : hd_error (map (fun r : row => (added r, time r)) (of k out)) = Some (added r, time r)) by (destruct (of k out); [discriminate|injection Hh as ->; reflexivity]).
          rewrite H in G. destruct (of k l) as [|[t c] rest]; [discriminate|]. cbn [with_gaps map hd_error] in G. injection G as G _. symmetry. exact G.
        + assert (G : hd_error (rev (map (fun r : row => (added r, time r)) (of k out))) = Some (added r, time r)) by (rewrite <- map_rev; destruct (rev (of k out)); [discriminate|injection Hh as ->; reflexivity]).
          rewrite H in G. destruct (of k l) as [|x rest] eqn:El; [discriminate|]. destruct (last_mark cfg (x :: rest)) as [t [G1 _]]; [discriminate|]. rewrite G1 in G. injection G as G _. symmetry. exact G.
    Qed.
    Lemma emission_top : ts_strategy cfg = Backward ->
      exists o1 m o2, run_exec T (t_cur T) l = (o1, Ok m) /\ t_flush T m = (o2, Ok []) /\ delivered T l = (o1 ++ o2, Ok tt) /\
        StronglySorted (fun a b : K * row => klt (fst b) (fst a) = false) o2 /\
        forall k, filled (of k (o1 ++ o2)) (with_gaps freq (of k l)) (fun _ col p => filled_backward None col p) /\
          Forall complete (of k o1) /\ (forall r, hd_error (of k o2) = Some r -> ~ complete r).
    Proof using Hord Hf Hr Hc.
      intros S1. destruct (backward_top keqb klt Hord cfg Hf w l Hr Hc S1) as [o1 [m [o2 [E1 [E2 [E3 [Eo H]]]]]]]. exists o1, m, o2. split; [exact E1|]. split; [exact E2|]. split; [exact E3|]. split; [exact Eo|].
      intros k. destruct (H k) as [F [-> ->]]. split; [exact F|]. split.
      - eapply Forall_impl; [|apply split_fst_complete]. intros r Hn. unfold complete. unfold no_nulls in Hn. rewrite forallb_forall in Hn. apply Forall_forall. intros x Hx. specialize (Hn x Hx). destruct x; [discriminate|exfalso; discriminate].
      - intros r. generalize (bf [] (with_gaps freq (of k l))). intros rows. induction rows as [|a rows IH]; [discriminate|]. cbn [split_complete]. destruct (no_nulls (r_cells a)) eqn:En.
        + destruct (split_complete rows) as [x y]. exact IH.
        + cbn [snd hd_error]. intros [= <-] Hcm. unfold complete in Hcm. rewrite Forall_forall in Hcm. enough (no_nulls (r_cells a) = true) by congruence. apply forallb_forall. intros x Hx. specialize (Hcm x Hx). now destruct x.
    Qed.
  End Good.

  (** ** Order of the rows of a key *)
  Lemma last_time : forall (rows : list row) d, r_time (back rows d) = last (map r_time rows) (r_time d).
  Proof using Type. clear. induction rows as [|r rows IH]; intros d; [reflexivity|]. unfold back. cbn [map]. rewrite !last_cons'. apply IH. Qed.
  Lemma impute_rows_times : forall rows p out, impute_rows p rows = Ok out -> map r_time out = map (r_time (C := C)) rows.
  Proof using Type.
    clear. induction rows as [|r rows IH]; intros p out E; cbn [impute_rows] in E; [injection E as <-; reflexivity|].
    destruct (impute p (r_cells r)) as [c| |]; try discriminate. cbn [bind] in E. destruct (impute_rows c rows) as [o| |] eqn:Eo; try discriminate. cbn [bind] in E. injection E as <-. cbn [map]. now rewrite (IH _ _ Eo).
  Qed.
  Lemma median_rows_times : forall k rows out, median_rows cfg k rows = Ok out -> map r_time out = map (r_time (C := C)) rows.
  Proof using Type.
    clear. intros k. unfold median_rows. induction rows as [|r rows IH]; intros out E; cbn [mapM] in E; [injection E as <-; reflexivity|].
    destruct (median_cells cfg (ts_types cfg) (ts_medians cfg k) (r_cells r)) as [c| |]; try discriminate. cbn [bind] in E. destruct (mapM _ rows) as [o| |] eqn:Eo; try discriminate. cbn [bind] in E. injection E as <-. cbn [map]. now rewrite (IH _ eq_refl).
  Qed.
  Lemma generate_last : forall x a g, generate_rows cfg x a = Ok g -> exists g', g = g' ++ [(false, fst x, snd x)].
  Proof using Type.
    clear. intros x a g E. unfold generate_rows in E. destruct (tick_add a freq) as [tp| |]; try discriminate. cbn [bind] in E. destruct (gen_loop _ _ _ _ _) as [r| |]; try discriminate. cbn [bind] in E. injection E as <-. now exists r.
  Qed.
  Lemma step_time : forall k s x o st, ts_step cfg k s x = (o, Ok st) -> r_time (fst st) = fst x.
  Proof using Type.
    clear. intros k s x o st E. unfold ts_step in E.
    assert (B : forall st0, ts_body cfg k st0 x = Ok (o, st) -> r_time (fst st) = fst x).
    { intros [prev buf] Eb. unfold ts_body in Eb. destruct (ts_strategy cfg); try discriminate.
      - destruct (generate_rows cfg x (r_time prev)) as [g| |] eqn:Eg; try discriminate. cbn [bind] in Eb. destruct (impute_rows (r_cells prev) g) as [rows| |] eqn:Er; try discriminate. cbn [bind] in Eb. injection Eb as <- <-. cbn [fst].
        rewrite last_time, (impute_rows_times _ _ _ Er). destruct (generate_last _ _ _ Eg) as [g' ->]. rewrite map_app. cbn [map]. now rewrite last_last.
      - destruct (generate_rows cfg x (r_time prev)) as [g| |] eqn:Eg; try discriminate. cbn [bind] in Eb. cbv zeta in Eb. destruct (impute_rows _ (rev (buf ++ g))) as [rows| |] eqn:Er; try discriminate. cbn [bind] in Eb.
        destruct (split_complete (rev rows)) as [a b]. injection Eb as <- <-. cbn [fst]. rewrite last_time, map_rev, (impute_rows_times _ _ _ Er), map_rev, rev_involutive. destruct (generate_last _ _ _ Eg) as [g' ->]. rewrite !map_app. cbn [map]. rewrite app_assoc. now rewrite last_last.
      - destruct (generate_rows cfg x (r_time prev)) as [g| |] eqn:Eg; try discriminate. cbn [bind] in Eb. destruct (median_rows cfg k g) as [rows| |] eqn:Er; try discriminate. cbn [bind] in Eb. injection Eb as <- <-. cbn [fst].
        rewrite last_time, (median_rows_times _ _ _ Er). destruct (generate_last _ _ _ Eg) as [g' ->]. rewrite map_app. cbn [map]. now rewrite last_last. }
    destruct s as [st0|].
    - destruct (fst x <? r_time (fst st0)); [discriminate|]. destruct (ts_body cfg k st0 x) as [[o' st']| |] eqn:Eb; try discriminate. injection E as <- <-. apply (B st0 Eb).
    - destruct (ts_body cfg k _ x) as [[o' st']| |] eqn:Eb; try discriminate. injection E as <- <-. apply (B _ Eb).
  Qed.
  Lemma alone_time : forall k l s x s', snd (alone (ts_step cfg k) s (l ++ [x])) = Ok s' -> exists st, s' = Some st /\ r_time (fst st) = fst x.
  Proof using Type.
    clear. intros k l. induction l as [|y l IH]; intros s x s' E; cbn [app] in E; rewrite alone_cons in E.
    - destruct (ts_step cfg k s x) as [o [st| |]] eqn:Es; try discriminate. cbn in E. injection E as <-. exists st. split; [reflexivity|]. apply (step_time _ _ _ _ _ Es).
    - destruct (ts_step cfg k s y) as [o [st| |]] eqn:Es; try discriminate. destruct (alone (ts_step cfg k) (Some st) (l ++ [x])) as [o' r] eqn:Ea. cbn [snd] in E. subst r. apply (IH (Some st) x s'). now rewrite Ea.
  Qed.
  Lemma unordered_top : forall l o m k l1 t0 c0 t c, run_exec T (t_cur T) l = (o, Ok m) -> of k l = l1 ++ [(t0, c0)] -> t < t0 ->
    t_exec T m (k, (t, c)) = ([], Throw RuntimeError).
  Proof using Hord.
    intros l o m k l1 t0 c0 t c E El Ht. pose proof (keyed_spec keqb klt Hord (ts_step cfg) l []) as X. unfold run_exec in E. cbn [t_exec t_state t_cur ts_transformer] in E. rewrite E in X.
    destruct X as [p [q [Ep [_ [H _]]]]]. destruct (H m eq_refl) as [-> H2]. rewrite app_nil_r in Ep. subst p. specialize (H2 k). rewrite El in H2. apply alone_time in H2. destruct H2 as [st [Hst Htm]]. cbn [fst] in Htm.
    cbn [t_exec ts_transformer]. unfold keyed_exec. cbn [fst snd]. rewrite Hst. unfold ts_step. cbn [fst]. rewrite Htm. destruct (t <? t0) eqn:L; [reflexivity|lia].
  Qed.

  (** ** Keys *)
  Lemma independent_top : forall l o, delivered T l = (o, Ok tt) -> forall k, exists ok, delivered T (only keqb k l) = (ok, Ok tt) /\ of k o = of k ok.
  Proof using Hord.
    intros l o E k. unfold delivered, run_all in *. unfold run_exec in *. cbn [t_exec t_state t_cur t_flush ts_transformer] in *.
    destruct (feed (keyed_exec keqb klt (ts_step cfg)) [] l) as [o1 r] eqn:Ef. destruct (keyed_independent keqb klt Hord (ts_step cfg) l [] o1 r Ef) as [p [q [El [H1 [H2 [H3 _]]]]]].
    destruct r as [m| |]; try discriminate. rewrite (H1 eq_refl), app_nil_r in El. subst p. destruct (H3 m k eq_refl) as [mk [Ek Hk]]. specialize (H2 k).
    destruct (feed (keyed_exec keqb klt (ts_step cfg)) [] (only keqb k l)) as [ok rk] eqn:Eok. cbn [fst snd] in *. subst rk.
    assert (A1 : ascending klt m) by (apply (feed_ascending keqb klt Hord (ts_step cfg) l [] o1 m); [constructor|exact Ef]).
    assert (A2 : ascending klt mk) by (apply (feed_ascending keqb klt Hord (ts_step cfg) (only keqb k l) [] ok mk); [constructor|exact Eok]).
    pose proof (flush_of keqb klt Hord m k A1) as F1. pose proof (flush_of keqb klt Hord mk k A2) as F2. unfold ts_flush in *. cbn [fst] in F1, F2. cbn [rmap bind] in *. injection E as <-.
    eexists. split; [reflexivity|]. rewrite !of_key_app, H2, F1, F2, Hk. reflexivity.
  Qed.
  Lemma fails_top : forall l o r, run_exec T (t_cur T) l = (o, r) -> is_ok r = false -> exists p k x q, l = p ++ (k, x) :: q /\
    (forall k', of k' o = of k' (fst (run_exec T (t_cur T) (only keqb k' (p ++ [(k, x)]))))) /\
    same_failure r (snd (run_exec T (t_cur T) (only keqb k (p ++ [(k, x)])))).
  Proof using Hord.
    intros l o r E Hr. unfold run_exec in *. cbn [t_exec t_state t_cur ts_transformer] in *. destruct (keyed_independent keqb klt Hord (ts_step cfg) l [] o r E) as [p [q [El [_ [H2 [_ H4]]]]]].
    destruct (H4 Hr) as [p' [k [x [-> Hf]]]]. exists p', k, x, q. split; [rewrite El, <- app_assoc; reflexivity|]. split; [exact H2|exact Hf].
  Qed.
  Lemma interpolate_top : ts_strategy cfg = Interpolate -> forall k x l, run_exec T (t_cur T) ((k, x) :: l) = ([], Throw RuntimeError).
  Proof using Type.
    intros Hs k x l. unfold run_exec. cbn [t_exec t_state t_cur ts_transformer feed]. unfold keyed_exec. cbn [fst snd]. change (k_find keqb [] k) with (@None (row * list row)). unfold ts_step, ts_body. rewrite Hs. reflexivity.
  Qed.
End Top.
