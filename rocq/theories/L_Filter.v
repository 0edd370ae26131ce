From Verif Require Import Base L_List M_Archive M_Estimator M_Pipeline M_Filter S_Grain.

Lemma row_by_row_feed : forall (X A B : Type) (step : X -> A -> list B * res X) l x, M_Pipeline.feed step x l = (concat (fst (row_by_row step x l)), snd (row_by_row step x l)).
Proof.
  intros X A B step. induction l as [|a l IH]; intros x; [reflexivity|]. cbn [M_Pipeline.feed row_by_row]. destruct (step x a) as [o [x'| |]]; cbn [fst snd concat]; try (now rewrite app_nil_r).
  rewrite IH. destruct (row_by_row step x' l). reflexivity.
Qed.
Section Filter.
  Context {V : Type}.
  Variable idx : list nat.
  Variable d : V.
  Notation sel := (to_filtered idx d).
  Lemma sel_selected : forall x : list V, Forall (fun i => (i < length x)%nat) idx -> selected idx x (sel x).
  Proof using Type.
    intros x H. split; [apply map_length|]. intros j i Hj. unfold to_filtered. rewrite nth_error_map, Hj. cbn [option_map].
    apply nth_error_In in Hj. rewrite Forall_forall in H. symmetry. apply nth_error_nth'. now apply H.
  Qed.
  Lemma filter_rows : forall (t : transformer (list V) (list V)) rows s,
    row_by_row (t_exec (filter_tr idx d t)) s rows =
    (map (fun p => map (fun o => fst p ++ o) (snd p)) (combine rows (fst (row_by_row (t_exec t) s (map sel rows)))), snd (row_by_row (t_exec t) s (map sel rows))).
  Proof using Type.
    intros t. induction rows as [|x rows IH]; intros s; [reflexivity|]. cbn [map row_by_row filter_tr t_exec]. destruct (t_exec t s (sel x)) as [o [s'| |]]; [|destruct rows; reflexivity|destruct rows; reflexivity].
    change (fun (s : t_state t) (x : list V) => let (o, r) := t_exec t s (sel x) in (map (to_transformed x) o, r)) with (t_exec (filter_tr idx d t)).
    rewrite IH. destruct (row_by_row (t_exec t) s' (map sel rows)) as [os q]. reflexivity.
  Qed.
  Lemma filter_flush_quiet : forall (t : transformer (list V) (list V)) s r, t_flush t s = ([], r) -> t_flush (filter_tr idx d t) s = ([], r).
  Proof using Type. intros t s r H. cbn [filter_tr t_flush]. now rewrite H. Qed.
  Lemma filter_flush_refused : forall (t : transformer (list V) (list V)) s o, fst (t_flush t s) = o -> o <> [] -> t_flush (filter_tr idx d t) s = ([], Throw RuntimeError).
  Proof using Type. intros t s o H N. cbn [filter_tr t_flush]. destruct (t_flush t s) as [[|x l] r]; cbn [fst] in H; [congruence|reflexivity]. Qed.

  Context {S Tr : Type}.
  Variable I : impl S (list V) Tr.
  Notation F := (filter_impl idx d I).
  (** [I] never asks for a reset. *)
  Hypothesis Hreset : forall s xs, snd (i_fit I s xs) <> Ok FitReset.
  Lemma filter_items : forall xs e, e_state e = Training -> 
    match filter_fit_items idx d I e xs with
    | (e', Ok FitContinue) => fit_rows I e (map sel xs) = Ok e' /\ e_state e' = Training
    | (e', Ok FitComplete) => fit_rows I e (map sel xs) = Ok e' /\ e_state e' = Finished
    | (e', Ok FitReset) => False
    | (_, Throw x) => fit_rows I e (map sel xs) = Throw x
    | (_, UB) => fit_rows I e (map sel xs) = UB
    end.
  Proof using Hreset.
    induction xs as [|x xs IH]; intros e He; [split; [reflexivity|exact He]|]. cbn [filter_fit_items map fit_rows]. rewrite He. unfold fit. rewrite He.
    specialize (Hreset (e_impl e) [sel x]). destruct (i_fit I (e_impl e) [sel x]) as [s [[| |]| |]]; cbn [bind snd] in *; try reflexivity; try congruence.
    - split; [|reflexivity]. destruct xs; reflexivity.
    - apply IH. reflexivity.
  Qed.
  Lemma fit_rows_app : forall a b e, fit_rows I e (a ++ b) = do e' <- fit_rows I e a; fit_rows I e' b.
  Proof using Type.
    induction a as [|x a IH]; intros b e; [reflexivity|]. cbn [app fit_rows]. destruct (e_state e) eqn:Es; cbn [bind].
    - destruct b; cbn [fit_rows]; [reflexivity|now rewrite Es].
    - destruct (fit I e (Some [x])) as [e' [[| |]| |]]; cbn [bind]; try reflexivity; apply IH.
    - destruct b; cbn [fit_rows]; [reflexivity|now rewrite Es].
    - destruct b; cbn [fit_rows]; [reflexivity|now rewrite Es].
  Qed.
  Lemma filter_fit_all : forall batches e, e_state e = Training -> Forall (fun b => b <> []) batches ->
    fit_all F (mkEst Training false e) batches = do e' <- fit_rows I e (map sel (concat batches)); Ok (mkEst (e_state e') false e').
  Proof using Hreset.
    induction batches as [|b r IH]; intros e He HF.
    - cbn. now rewrite He.
    - inversion HF as [|? ? Hb HF']; subst. cbn [fit_all e_state concat]. unfold fit at 1. cbn [e_state]. destruct b as [|x b]; [contradiction|].
      cbn [i_fit filter_impl e_impl e_created]. set (bb := x :: b). rewrite map_app, fit_rows_app. pose proof (filter_items bb e He) as X.
      destruct (filter_fit_items idx d I e bb) as [e' [[| |]|q|]].
      + destruct X as [X1 X2]. rewrite X1. cbn [bind]. destruct (map sel (concat r)); cbn [fit_rows]; rewrite ?X2; cbn [bind]; rewrite ?X2; destruct r; reflexivity.
      + destruct X as [X1 X2]. rewrite X1. cbn [bind]. apply IH; assumption.
      + contradiction.
      + rewrite X. reflexivity.
      + rewrite X. reflexivity.
  Qed.
  Lemma begin_state : forall e e' u, begin_training I e = (e', Ok u) -> e_state e' = Training \/ e_state e' = Finished.
  Proof using Type.
    intros e e' u H. unfold begin_training in H. destruct (e_state e); try discriminate. destruct (i_begin I (e_impl e)) as [s [[|]| |]]; try discriminate; injection H as <- _; auto.
  Qed.
  Lemma fit_rows_state : forall xs e e', fit_rows I e xs = Ok e' -> e_state e = Training \/ e_state e = Finished -> e_state e' = Training \/ e_state e' = Finished.
  Proof using Type.
    induction xs as [|x xs IH]; intros e e' H He; cbn [fit_rows] in H; [injection H as <-; exact He|]. destruct (e_state e) eqn:Es; try (injection H as <-; rewrite Es; exact He).
    unfold fit in H. rewrite Es in H. destruct (i_fit I (e_impl e) [x]) as [s [[| |]| |]]; cbn [bind] in H; try discriminate; (eapply IH; [exact H|cbn [e_state]; auto]).
  Qed.
  (** Training the filter trains the inner estimator on the selected columns. *)
  Lemma filter_train : forall batches s0, Forall (fun b => b <> []) batches ->
    rmap e_impl (train F (est_new (est_new s0)) batches) = train_alone I s0 (map sel (concat batches)).
  Proof using Hreset.
    intros batches s0 HF. unfold train, train_alone. unfold begin_training at 1. cbn [est_new e_state i_begin filter_impl e_impl].
    destruct (begin_training I (est_new s0)) as [e [u|q|]] eqn:Eb; cbn [bind]; try reflexivity.
    assert (Fin : forall e2 : est S, e_state e2 = Training \/ e_state e2 = Finished -> forall st, st = Training \/ st = Finished ->
      rmap e_impl (let (e3, r3) := on_data_completed F (mkEst st false e2) in do _ <- r3; let (e4, r4) := complete_training F e3 in do _ <- r4; Ok e4) =
      (let (e3, r3) := complete_training I e2 in do _ <- r3; Ok e3)).
    { intros e2 H2 st [-> | ->]; unfold on_data_completed; cbn [e_state i_on_data filter_impl e_impl e_created bind]; unfold complete_training at 1; cbn [e_state i_complete filter_impl e_impl e_created];
        destruct (complete_training I e2) as [e3 [v|q|]]; reflexivity. }
    destruct (begin_state _ _ _ Eb) as [Es|Es]; rewrite Es; cbn [bind e_created est_new].
    - rewrite filter_fit_all by assumption. destruct (fit_rows I e (map sel (concat batches))) as [e2|q|] eqn:Ef; try reflexivity. cbn [bind].
      assert (H2 : e_state e2 = Training \/ e_state e2 = Finished) by (eapply fit_rows_state; [exact Ef|now left]). apply Fin; exact H2.
    - assert (F1 : fit_all F (mkEst Finished false e) batches = Ok (mkEst Finished false e)) by (destruct batches; reflexivity). rewrite F1. cbn [bind].
      assert (F2 : fit_rows I e (map sel (concat batches)) = Ok e) by (destruct (map sel (concat batches)); cbn [fit_rows]; rewrite ?Es; reflexivity). rewrite F2. cbn [bind].
      apply Fin; auto.
  Qed.
End Filter.
