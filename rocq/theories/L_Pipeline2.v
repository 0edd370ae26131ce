From Verif Require Import Base L_List M_Archive M_Estimator M_Pipeline S_Pipeline L_Pipeline.

Section Training.
  Context {V : Type}.
  Implicit Types (e : elem V) (c r done : list (elem V)) (bs : list (list V)).

  Definition completed e := el_state e = Completed.
  Definition settled done := Forall (fun e => completed e /\ memoryless e) done.
  Definition through_all done (xs : list V) : list V := fold_left (fun xs e => flat_map (outputs_of e) xs) done xs.

  Lemma transform_pure e xs : memoryless e -> el_transform e xs = Ok (e, flat_map (outputs_of e) xs).
  Proof.
    intros M. unfold el_transform, outputs_of. destruct (ps_is_tr (el_stage e)) eqn:T.
    - destruct (M T) as (t & E & P & _). rewrite E.
      assert (F : feed (ps_exec (el_stage e)) t xs = (flat_map (fun v => fst (ps_exec (el_stage e) t v)) xs, Ok t)).
      { induction xs as [|v xs IH]; [reflexivity|]. cbn [feed flat_map]. specialize (P v).
        destruct (ps_exec (el_stage e) t v) as [o rx]. cbn in P. subst rx. rewrite IH. reflexivity. }
      rewrite F. cbn [bind]. destruct e as [st es tr]. cbn in *. subst tr. reflexivity.
    - f_equal. f_equal. induction xs as [|v xs IH]; [reflexivity|]. cbn. now rewrite <- IH.
  Qed.
  Lemma flush_pure e : memoryless e -> el_flush e = Ok (e, []).
  Proof.
    intros M. unfold el_flush. destruct (ps_is_tr (el_stage e)) eqn:T; [|reflexivity].
    destruct (M T) as (t & E & _ & P). rewrite E, P. cbn [bind]. destruct e as [st es tr]. cbn in *. subst tr. reflexivity.
  Qed.

  Lemma completed_not_training e : completed e -> is_training e = false.
  Proof. unfold completed, is_training. now intros ->. Qed.

  Lemma all_finished_app done c : c <> [] -> all_finished (done ++ c) = all_finished c.
  Proof.
    intros H. induction done as [|e done IH]; [reflexivity|]. cbn [app].
    destruct (done ++ c) as [|x l] eqn:E.
    - apply app_eq_nil in E. tauto.
    - cbn [all_finished]. exact IH.
  Qed.

  Lemma through_nil done : through_all done [] = [].
  Proof. induction done as [|e done IH]; [reflexivity|]. exact IH. Qed.

  Lemma fit_cons e c xs : c <> [] -> is_training e = false -> fit_chain (e :: c) xs =
    do p <- el_transform e xs;
    match snd p with
    | [] => Ok (fst p :: c, FitContinue)
    | ys => do q <- fit_chain c ys; Ok (fst p :: fst q, snd q)
    end.
  Proof. intros H1 H2. destruct c as [|x l]; [congruence|]. cbn [fit_chain]. now rewrite H2. Qed.

  Lemma fit_done done c xs : settled done -> c <> [] -> xs <> [] ->
    fit_chain (done ++ c) xs =
    match through_all done xs with
    | [] => Ok (done ++ c, FitContinue)
    | ys => do q <- fit_chain c ys; Ok (done ++ fst q, snd q)
    end.
  Proof.
    intros HS Hc. revert xs. induction HS as [|e done [H1 H2] HS IH]; intros xs Hx.
    - cbn [app through_all fold_left]. destruct xs; [congruence|]. destruct (fit_chain c (v :: xs)) as [[q f]| |]; reflexivity.
    - cbn [app]. rewrite fit_cons; [|intros E; apply app_eq_nil in E; tauto|now apply completed_not_training].
      rewrite (transform_pure e xs H2). cbn [bind fst snd through_all fold_left].
      fold (through_all done (flat_map (outputs_of e) xs)).
      destruct (flat_map (outputs_of e) xs) as [|y ys] eqn:F.
      + rewrite through_nil. reflexivity.
      + rewrite IH by discriminate. destruct (through_all done (y :: ys)) as [|z zs]; [reflexivity|].
        destruct (fit_chain c (z :: zs)) as [[q f]| |]; reflexivity.
  Qed.

  Lemma on_data_cons n e c : c <> [] -> is_training e = false -> on_data_n (S n) (e :: c) =
    do p <- el_flush e;
    do r1 <- match snd p with [] => Ok c | ys => do q <- fit_chain c ys; Ok (fst q) end;
    do q <- on_data_n n r1;
    Ok (fst p :: fst q, snd q).
  Proof. intros H1 H2. destruct c as [|x l]; [congruence|]. cbn [on_data_n]. now rewrite H2. Qed.
  Lemma on_data_done done c : settled done -> c <> [] ->
    on_data_chain (done ++ c) = do q <- on_data_chain c; Ok (done ++ fst q, snd q).
  Proof.
    intros HS Hc. unfold on_data_chain. induction HS as [|e done [H1 H2] HS IH].
    - cbn [app]. destruct (on_data_n (length c) c) as [[q f]| |]; reflexivity.
    - cbn [app length]. rewrite on_data_cons; [|intros E; apply app_eq_nil in E; tauto|now apply completed_not_training].
      rewrite (flush_pure e H2). cbn [bind fst snd]. rewrite IH.
      destruct (on_data_n (length c) c) as [[q f]| |]; reflexivity.
  Qed.

  Lemma complete_cons n e c : c <> [] -> is_completed e = true -> complete_n (S n) (e :: c) =
    do r' <- complete_n n c; Ok (e :: r').
  Proof. intros H1 H2. destruct c as [|x l]; [congruence|]. cbn [complete_n]. now rewrite H2. Qed.
  Lemma complete_done done c : Forall completed done -> c <> [] ->
    complete_chain (done ++ c) = do q <- complete_chain c; Ok (done ++ q).
  Proof.
    intros HS Hc. unfold complete_chain. induction HS as [|e done H1 HS IH].
    - cbn [app]. destruct (complete_n (length c) c); reflexivity.
    - cbn [app length]. rewrite complete_cons; [|intros E; apply app_eq_nil in E; tauto|unfold is_completed; now rewrite H1].
      rewrite IH. destruct (complete_n (length c) c); reflexivity.
  Qed.

  (** ** The driver *)
  Variable batches : list (list V).
  Hypothesis Hb : batches <> [].
  Hypothesis Hbs : Forall (fun b => b <> []) batches.
  Notation P := (est (list (elem V))).
  Definition reaches (iter : list (list V)) (p q : P) : Prop :=
    exists n, forall fuel, (n <= fuel)%nat -> train_loop pipeline_impl batches fuel iter p = Some (Ok q).

  Lemma r_done iter p : e_state p <> Training -> reaches iter p p.
  Proof.
    intros H. exists 1%nat. intros [|n] L; [lia|]. cbn. destruct (e_state p); try reflexivity. contradiction.
  Qed.
  Definition outer (st : tstate) c : P := mkEst st false c.

  (** One [fit] on the pipeline in terms of the chain. *)
  Lemma outer_fit c b c1 f : b <> [] -> fit_chain c b = Ok (c1, f) ->
    ok1 (fit pipeline_impl (outer Training c) (Some b)) = Ok (outer (match f with FitComplete => Finished | _ => Training end) c1, f).
  Proof.
    intros Hne E. unfold fit, outer. cbn [e_state e_impl e_created]. destruct b; [congruence|]. cbn [i_fit pipeline_impl]. rewrite E. cbn.
    destruct f; reflexivity.
  Qed.
  Lemma outer_on_data c c1 (b : bool) : on_data_chain c = Ok (c1, b) ->
    ok1 (on_data_completed pipeline_impl (outer Training c)) = Ok (outer (if b then Finished else Training) c1, tt).
  Proof.
    intros E. unfold on_data_completed, outer. cbn [e_state e_impl e_created i_on_data pipeline_impl]. rewrite E. cbn. destruct b; reflexivity.
  Qed.

  Lemma r_continue b b2 rest c c1 q : b <> [] -> fit_chain c b = Ok (c1, FitContinue) ->
    reaches (b2 :: rest) (outer Training c1) q -> reaches (b :: b2 :: rest) (outer Training c) q.
  Proof.
    intros Hne E [n R]. exists (S n). intros [|m] L; [lia|]. cbn [train_loop]. rewrite (outer_fit c b c1 _ Hne E).
    change (e_state (outer Training c)) with Training. cbv iota. apply R. lia.
  Qed.
  Lemma r_continue_end b c c1 c2 f q : b <> [] -> fit_chain c b = Ok (c1, FitContinue) -> on_data_chain c1 = Ok (c2, f) ->
    reaches batches (outer (if f then Finished else Training) c2) q -> reaches [b] (outer Training c) q.
  Proof.
    intros Hne E E2 [n R]. exists (S n). intros [|m] L; [lia|]. cbn [train_loop]. rewrite (outer_fit c b c1 _ Hne E).
    change (e_state (outer Training c)) with Training. cbv iota. rewrite (outer_on_data c1 c2 f E2). apply R. lia.
  Qed.
  Lemma r_reset b rest c c1 q : b <> [] -> fit_chain c b = Ok (c1, FitReset) ->
    reaches batches (outer Training c1) q -> reaches (b :: rest) (outer Training c) q.
  Proof.
    intros Hne E [n R]. exists (S n). intros [|m] L; [lia|]. cbn [train_loop]. rewrite (outer_fit c b c1 _ Hne E).
    change (e_state (outer Training c)) with Training. cbv iota. apply R. lia.
  Qed.
  Lemma r_complete b rest c c1 : b <> [] -> fit_chain c b = Ok (c1, FitComplete) ->
    reaches (b :: rest) (outer Training c) (outer Finished c1).
  Proof.
    intros Hne E. exists 2%nat. intros [|[|m]] L; try lia. cbn [train_loop]. rewrite (outer_fit c b c1 _ Hne E).
    change (e_state (outer Training c)) with Training. cbv iota. destruct rest; reflexivity.
  Qed.

  (** ** What a stage's events do to the chain *)
  Lemma el_fit_state e b e1 f : el_fit e b = Ok (e1, f) -> el_state e = Training /\
     el_state e1 = match f with FitComplete => Finished | _ => Training end.
  Proof.
    unfold el_fit, lift1, fit, el_state. destruct (e_state (el_est e)) eqn:Es; cbn [snd fst bind]; try discriminate.
    destruct b as [|v b]; [discriminate|]. destruct (i_fit _ _ _) as [s r]. destruct r as [[]| |]; cbn; try discriminate;
      intros H; inversion H; subst; split; reflexivity.
  Qed.
  Lemma el_on_data_state e e1 : el_on_data e = Ok e1 -> el_state e = Training -> el_state e1 = Training \/ el_state e1 = Finished.
  Proof.
    unfold el_on_data, lift1, on_data_completed, el_state. intros H E. rewrite E in H. cbn [snd fst bind] in H.
    destruct (i_on_data _ _) as [s r]. destruct r as [[]| |]; cbn in H; try discriminate; inversion H; subst; cbn; auto.
  Qed.
  Lemma el_begin_state e e1 : el_begin e = Ok e1 -> el_state e = Pending /\ (el_state e1 = Training \/ el_state e1 = Finished).
  Proof.
    unfold el_begin, lift1, begin_training, el_state. destruct (e_state (el_est e)) eqn:E; cbn; try discriminate.
    destruct (i_begin _ _) as [s r]. destruct r as [[]| |]; cbn; try discriminate; intros H; inversion H; subst; cbn; auto.
  Qed.
  Lemma el_complete_state e e1 : el_complete e = Ok e1 -> el_state e1 = Completed.
  Proof.
    unfold el_complete, lift1, complete_training. 
    assert (G : forall (p : est (ps_S (el_stage e)) * res unit),
       (match snd p with Ok _ => e_state (fst p) = Completed | _ => True end) ->
       (do p0 <- (do a <- snd p; Ok (with_est e (fst p), a));
        if ps_is_tr (el_stage (fst p0)) && negb (e_created (el_est (fst p0)))
        then let (x, r) := create_transformer (ps_impl (el_stage (fst p0))) (el_est (fst p0)) in
             do t <- r; Ok (mkElem (el_stage (fst p0)) x (Some t)) else Ok (fst p0)) = Ok e1 -> el_state e1 = Completed).
    { intros [x [[]|ex|]]; cbn [snd fst bind]; try discriminate. intros Hx. cbn [with_est el_stage el_est].
      destruct (ps_is_tr (el_stage e) && negb (e_created x)).
      - unfold create_transformer. rewrite Hx. destruct (e_created x); cbn; [discriminate|].
        destruct (i_create _ _) as [s [[t|]| |]]; cbn; try discriminate. intros H; inversion H; subst. reflexivity.
      - intros H; inversion H; subst. exact Hx. }
    apply G. destruct (e_state (el_est e)); cbn; auto; destruct (i_complete _ _) as [s [[]| |]]; cbn; auto.
  Qed.

  (** [data]: what the settled stages make of the batches. *)
  Definition seen done (l : list (list V)) : list (list V) := filter non_empty (map (through_all done) l).
  Lemma seen_step done e' l : seen (done ++ [e']) l = transformed e' (seen done l).
  Proof.
    unfold seen, transformed. induction l as [|b l IH]; [reflexivity|]. cbn [map filter].
    assert (E : through_all (done ++ [e']) b = flat_map (outputs_of e') (through_all done b)).
    { unfold through_all. rewrite fold_left_app. reflexivity. }
    rewrite E, IH. destruct (through_all done b) as [|x y] eqn:F; [reflexivity|]. reflexivity.
  Qed.

  Definition outcome done (q : P) c' : Prop := exists c2, q = outer Finished c2 /\ complete_chain c2 = Ok (done ++ c').
  Definition leads iter c1 done c' : Prop :=
    exists q, reaches iter (outer (if all_finished c1 then Finished else Training) c1) q /\ outcome done q c'.

  Section OneStage.
    Variables (done : list (elem V)) (r : list (elem V)) (e' : elem V) (c' : list (elem V)).
    Hypothesis HS : settled done.
    (** What has to be shown once the current stage has finished. *)
    Definition after (e1 : elem V) : Prop :=
      match r with
      | [] => c' = [e'] /\ el_complete e1 = Ok e'
      | _ => exists c1, complete_chained e1 r = Ok c1 /\ leads batches (done ++ c1) done c' /\ c1 <> []
      end.
    Hypothesis Hafter : forall e1, el_state e1 = Finished -> el_complete e1 = Ok e' -> after e1.

    Lemma training_not_finished e : el_state e = Training -> r = [] -> all_finished (done ++ e :: r) = false.
    Proof. intros H ->. rewrite all_finished_app by discriminate. cbn. now rewrite H. Qed.

    Lemma finish_fit e b e1 : b <> [] -> forall rest, through_all done b <> [] -> el_state e = Training ->
      el_fit e (through_all done b) = Ok (e1, FitComplete) -> el_complete e1 = Ok e' ->
      exists q, reaches (b :: rest) (outer Training (done ++ e :: r)) q /\ outcome done q c'.
    Proof.
      intros Hne rest Ht Hs E Ec. destruct (el_fit_state _ _ _ _ E) as [_ E1].
      pose proof (Hafter e1 E1 Ec) as A. unfold after in A.
      destruct (through_all done b) as [|y ys] eqn:T; [congruence|].
      destruct r as [|x l] eqn:Er.
      - destruct A as [-> A]. exists (outer Finished (done ++ [e1])). split.
        + apply r_complete; [exact Hne|]. rewrite fit_done by (assumption || discriminate). rewrite T. cbn [fit_chain].
          rewrite E. reflexivity.
        + exists (done ++ [e1]). split; [reflexivity|]. rewrite complete_done; [|apply Forall_impl with (2 := HS); tauto|discriminate].
          cbn. rewrite A. reflexivity.
      - destruct A as (c1 & A1 & (q & A2 & A3) & A4).
        assert (F : fit_chain (done ++ e :: x :: l) b = Ok (done ++ c1, if all_finished c1 then FitComplete else FitReset)).
        { rewrite fit_done by (assumption || discriminate). rewrite T. cbn [fit_chain].
          unfold is_training at 1. rewrite Hs. rewrite E. cbn [bind snd fst]. rewrite A1. reflexivity. }
        rewrite all_finished_app in A2 by exact A4.
        destruct (all_finished c1) eqn:Af.
        + exists (outer Finished (done ++ c1)). split; [now apply r_complete|].
          destruct A2 as [n A2]. specialize (A2 (S n) (Nat.le_succ_diag_r n)). cbn in A2. injection A2 as <-. exact A3.
        + exists q. split; [|exact A3]. now apply r_reset with (c1 := done ++ c1).
    Qed.

    Hypothesis Hpend : Forall (fun e => el_state e = Pending) r.
    Lemma pend_not_finished e : el_state e = Training -> all_finished (e :: r) = false.
    Proof.
      intros H. destruct r as [|x l]; [cbn; now rewrite H|]. change (all_finished (x :: l) = false).
      clear - Hpend. revert x Hpend. induction l as [|y l IH]; intros x HP; inversion HP; subst.
      - cbn. now rewrite H1.
      - change (all_finished (y :: l) = false). now apply IH.
    Qed.

    Lemma finish_end e1 e2 : el_state e1 = Training -> el_on_data e1 = Ok e2 -> el_state e2 = Finished -> el_complete e2 = Ok e' ->
      exists c2 f, on_data_chain (done ++ e1 :: r) = Ok (c2, f) /\
         exists q, reaches batches (outer (if f then Finished else Training) c2) q /\ outcome done q c'.
    Proof.
      intros Hs E S2 Ec. rewrite on_data_done by (assumption || discriminate). unfold on_data_chain.
      pose proof (Hafter e2 S2 Ec) as A. unfold after in A.
      destruct r as [|x l].
      - cbn [length on_data_n]. rewrite E. cbn [bind fst snd]. unfold is_training. rewrite S2. cbn [negb].
        destruct A as [-> A]. exists (done ++ [e2]), true. split; [reflexivity|].
        exists (outer Finished (done ++ [e2])). split; [apply r_done; discriminate|].
        exists (done ++ [e2]). split; [reflexivity|]. rewrite complete_done; [|apply Forall_impl with (2 := HS); tauto|discriminate].
        cbn. rewrite A. reflexivity.
      - cbn [length on_data_n]. unfold is_training at 1. rewrite Hs, E. cbn [bind]. unfold is_training at 1. rewrite S2.
        destruct A as (c1 & A1 & (q & A2 & A3) & A4). rewrite A1. cbn [bind fst snd].
        exists (done ++ c1), (all_finished c1). split; [reflexivity|]. exists q. split; [|exact A3].
        now rewrite all_finished_app in A2 by exact A4.
    Qed.
    Lemma again_end e1 e2 : el_state e1 = Training -> el_on_data e1 = Ok e2 -> el_state e2 = Training ->
      on_data_chain (done ++ e1 :: r) = Ok (done ++ e2 :: r, false).
    Proof.
      intros Hs E S2. rewrite on_data_done by (assumption || discriminate). unfold on_data_chain.
      pose proof (pend_not_finished e2 S2) as NF.
      destruct r as [|x l].
      - cbn [length on_data_n]. rewrite E. cbn [bind fst snd]. unfold is_training. rewrite S2. reflexivity.
      - cbn [length on_data_n]. unfold is_training at 1. rewrite Hs, E. cbn [bind]. unfold is_training at 1. rewrite S2. cbn [bind fst snd].
        now rewrite NF.
    Qed.

    (** The batches [l] still to come in this pass. *)
    Lemma pass l : l <> [] -> Forall (fun b => b <> []) l -> forall e e1, el_state e = Training ->
      give e (seen done l) = Some (e1, true) -> el_complete e1 = Ok e' ->
      exists q, reaches l (outer Training (done ++ e :: r)) q /\ outcome done q c'.
    Proof.
      induction l as [|b l IH]; [congruence|]. intros _ F e e1 Hs G Ec. inversion F; subst.
      unfold seen in G. cbn [map filter] in G. fold (seen done l) in G.
      destruct (through_all done b) as [|y ys] eqn:T; cbn [non_empty] in G.
      - destruct l as [|b2 l2].
        + cbn in G. discriminate.
        + destruct (IH ltac:(discriminate) H2 e e1 Hs G Ec) as (q & R & O). exists q. split; [|exact O].
          apply r_continue with (c1 := done ++ e :: r); [assumption| |exact R].
          rewrite fit_done by (assumption || discriminate). now rewrite T.
      - cbn [give] in G. destruct (el_fit e (y :: ys)) as [[e2 []]| |] eqn:Ef; try discriminate.
        + injection G as ->. rewrite <- T in Ef. apply (finish_fit e b e1 H1 l); try assumption. congruence.
        + destruct (el_fit_state _ _ _ _ Ef) as [_ S2].
          destruct l as [|b2 l2]; [cbn in G; discriminate|].
          destruct (IH ltac:(discriminate) H2 e2 e1 S2 G Ec) as (q & R & O). exists q. split; [|exact O].
          apply r_continue with (c1 := done ++ e2 :: r); [assumption| |exact R].
          rewrite fit_done by (assumption || discriminate). rewrite T. destruct r as [|x rr]; cbn [fit_chain].
          * rewrite Ef. reflexivity.
          * unfold is_training at 1. rewrite Hs, Ef. reflexivity.
    Qed.
    Lemma full_pass l : l <> [] -> Forall (fun b => b <> []) l -> forall e e1, el_state e = Training ->
      give e (seen done l) = Some (e1, false) ->
      el_state e1 = Training /\
      forall c2 f q, on_data_chain (done ++ e1 :: r) = Ok (c2, f) ->
        reaches batches (outer (if f then Finished else Training) c2) q -> reaches l (outer Training (done ++ e :: r)) q.
    Proof.
      induction l as [|b l IH]; [congruence|]. intros _ F e e1 Hs G. inversion F; subst.
      unfold seen in G. cbn [map filter] in G. fold (seen done l) in G.
      destruct (through_all done b) as [|y ys] eqn:T; cbn [non_empty] in G.
      - assert (Ef : fit_chain (done ++ e :: r) b = Ok (done ++ e :: r, FitContinue)).
        { rewrite fit_done by (assumption || discriminate). now rewrite T. }
        destruct l as [|b2 l2].
        + cbn in G. injection G as <-. split; [exact Hs|]. intros c2 f q E R. eapply r_continue_end; eauto.
        + destruct (IH ltac:(discriminate) H2 e e1 Hs G) as (S1 & R). split; [exact S1|].
          intros c2 f q E R2. eapply r_continue; eauto.
      - cbn [give] in G. destruct (el_fit e (y :: ys)) as [[e2 []]| |] eqn:Ef; try discriminate.
        destruct (el_fit_state _ _ _ _ Ef) as [_ S2].
        assert (Efc : fit_chain (done ++ e :: r) b = Ok (done ++ e2 :: r, FitContinue)).
        { rewrite fit_done by (assumption || discriminate). rewrite T. destruct r as [|x rr]; cbn [fit_chain].
          * rewrite Ef. reflexivity.
          * unfold is_training at 1. rewrite Hs, Ef. reflexivity. }
        destruct l as [|b2 l2].
        + cbn in G. injection G as <-. split; [exact S2|]. intros c2 f q E R. eapply r_continue_end; eauto.
        + destruct (IH ltac:(discriminate) H2 e2 e1 S2 G) as (S1 & R). split; [exact S1|].
          intros c2 f q E R2. eapply r_continue; eauto.
    Qed.

    Lemma stage_loop e ex : trained_on (seen done batches) e ex -> ex = e' -> el_state e = Training ->
      exists q, reaches batches (outer Training (done ++ e :: r)) q /\ outcome done q c'.
    Proof.
      intros H. induction H as [e e0 Hs Ec|e e1 e0 Hs G S1 Ec|e e1 e2 e0 Hs G Ed HT IH]; intros -> HTr.
      - congruence.
      - eapply pass; eauto.
      - destruct (full_pass batches Hb Hbs e e1 Hs G) as (S1 & K).
        destruct (el_on_data_state _ _ Ed S1) as [S2|S2].
        + destruct (IH eq_refl S2) as (q & R & O). exists q. split; [|exact O].
          apply (K _ _ _ (again_end e1 e2 S1 Ed S2)). exact R.
        + assert (Ec : el_complete e2 = Ok e') by (inversion HT; subst; congruence).
          destruct (finish_end e1 e2 S1 Ed S2 Ec) as (c2 & f & E & q & R & O). exists q. split; [|exact O]. now apply (K c2 f).
    Qed.
  End OneStage.

  Lemma sbs_pending c bs c' : stage_by_stage c bs c' -> Forall (fun e => el_state e = Pending) c /\ c <> [].
  Proof.
    induction 1 as [e e' bs (e1 & B & _)|e e' bs r r' (e1 & B & _) M H [IH _]]; (split; [|discriminate]).
    - constructor; [|constructor]. now apply el_begin_state in B.
    - constructor; [|exact IH]. now apply el_begin_state in B.
  Qed.

  (** From a freshly begun suffix to the end. *)
  Lemma from_begin c bs c' : stage_by_stage c bs c' -> forall done, settled done -> bs = seen done batches ->
    exists c1, begin_chain c = Ok (c1, negb (all_finished c1)) /\ c1 <> [] /\ leads batches (done ++ c1) done c'.
  Proof.
    induction 1 as [e e' bs (e1 & B & HT)|e e' bs r r' (e1 & B & HT) M H IH]; intros done HS ->.
    - cbn [begin_chain]. rewrite B. cbn [bind]. destruct (el_begin_state _ _ B) as [_ [S1|S1]].
      + exists [e1]. cbn [all_finished]. unfold is_training. rewrite S1. split; [reflexivity|]. split; [discriminate|].
        unfold leads. rewrite all_finished_app by discriminate. cbn [all_finished]. rewrite S1.
        apply (stage_loop done [] e' [e'] HS) with (ex := e'); auto.
        intros e2 _ Ec. cbn. auto.
      + exists [e1]. cbn [all_finished]. unfold is_training. rewrite S1. split; [reflexivity|]. split; [discriminate|].
        unfold leads. rewrite all_finished_app by discriminate. cbn [all_finished]. rewrite S1.
        exists (outer Finished (done ++ [e1])). split; [apply r_done; discriminate|].
        exists (done ++ [e1]). split; [reflexivity|]. rewrite complete_done; [|apply Forall_impl with (2 := HS); tauto|discriminate].
        cbn. inversion HT; subst; try congruence. rewrite H0. reflexivity.
    - destruct (sbs_pending _ _ _ H) as [HP Hr].
      assert (Step : forall e2, el_complete e2 = Ok e' -> exists c1, begin_chain r = Ok (c1, negb (all_finished c1)) /\ c1 <> [] /\ complete_chained e2 r = Ok (e' :: c1) /\ leads batches (done ++ e' :: c1) done (e' :: r')).
      { intros e2 Ec. destruct (IH (done ++ [e'])) as (c1 & B1 & N1 & q & R & c2 & -> & C2).
        - apply Forall_app. split; [exact HS|]. constructor; [|constructor]. split; [|exact M]. now apply el_complete_state in Ec.
        - apply eq_sym, seen_step.
        - exists c1. split; [exact B1|]. split; [exact N1|]. split.
          + unfold complete_chained. rewrite Ec. cbn [bind]. rewrite B1. reflexivity.
          + exists (outer Finished c2). rewrite <- app_assoc in R. cbn [app] in R. split; [exact R|].
            exists c2. split; [reflexivity|]. now rewrite <- app_assoc in C2. }
      assert (Hbeg : begin_chain (e :: r) =
                do e1 <- el_begin e;
                do c1 <- (if is_training e1 then Ok (e1 :: r) else do e2 <- el_complete e1; do p <- begin_chain r; Ok (e2 :: fst p));
                Ok (c1, negb (all_finished c1))).
      { cbn [begin_chain]. destruct r as [|x l]; [congruence|]. unfold is_pending. now rewrite (proj1 (el_begin_state _ _ B)). }
      rewrite Hbeg, B. cbn [bind]. destruct (el_begin_state _ _ B) as [_ [S1|S1]].
      + unfold is_training at 1. rewrite S1. cbn [bind].
        assert (NF : all_finished (e1 :: r) = false) by now apply pend_not_finished.
        exists (e1 :: r). split; [now rewrite NF|]. split; [discriminate|]. unfold leads.
        rewrite all_finished_app by discriminate. rewrite NF.
        apply (stage_loop done r e' (e' :: r') HS) with (ex := e'); auto.
        intros e2 _ Ec. unfold after. destruct (Step e2 Ec) as (c1 & B1 & N1 & CC & L). destruct r as [|x l]; [congruence|].
        exists (e' :: c1). split; [exact CC|]. split; [exact L|discriminate].
      + unfold is_training at 1. rewrite S1. assert (Ec : el_complete e1 = Ok e') by (inversion HT; subst; congruence).
        destruct (Step e1 Ec) as (c1 & B1 & N1 & CC & L). rewrite Ec. cbn [bind]. rewrite B1. cbn [bind fst].
        exists (e' :: c1). split; [reflexivity|]. split; [discriminate|exact L].
  Qed.

  Lemma through_nothing l : Forall (fun b => b <> []) l -> seen [] l = l.
  Proof.
    induction 1 as [|b l H F IH]; [reflexivity|]. unfold seen in *. cbn [map filter through_all fold_left].
    destruct b; [congruence|]. cbn [non_empty]. now rewrite IH.
  Qed.

  Lemma pipeline_training c c' : stage_by_stage c batches c' ->
    exists n, forall fuel, (n <= fuel)%nat ->
      train pipeline_impl batches fuel (est_new c) = Some (Ok (mkEst Completed false c')).
  Proof.
    intros H. destruct (from_begin c batches c' H [] (Forall_nil _)) as (c1 & B & N & q & [n R] & c2 & -> & C2).
    { symmetry. now apply through_nothing. }
    exists n. intros fuel L. unfold train, begin_training. cbn [est_new e_state e_impl e_created i_begin pipeline_impl].
    rewrite B. cbn [imp app] in *. 
    destruct (all_finished c1); cbn [negb ok1 snd bind fst]; unfold outer in R; rewrite (R fuel L); cbn [bind];
      unfold complete_training, outer; cbn [e_state e_impl e_created i_complete pipeline_impl]; rewrite C2; reflexivity.
  Qed.
End Training.
