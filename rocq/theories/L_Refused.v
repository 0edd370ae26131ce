(** Estimators that are given values some of which they refuse: the wrapper of TrainingOnlyEstimatorImpl.h. *)
From Coq Require Import ZArith Lia.
From Verif Require Import Base M_Estimator M_Pipeline M_Errors M_Refused S_Refused L_Estimator.
Open Scope Z_scope.

Section Wrapper.
  Context {P In A : Type}.
  Variable t : trainee P In A.
  Variable pol : policy P In A.
  Hypothesis Hlike : learns_like t pol.

  Lemma like_ok : forall p x p', p_fit pol p x = Ok p' -> after p (f_fit t p x) = (p', Ok tt).
  Proof using Hlike.
    intros p x p' E. destruct Hlike as (_ & _ & _ & H). destruct (H p x) as [H1 H2].
    specialize (H2 p' E). rewrite E in H1. destruct (after p (f_fit t p x)) as [q r]. cbn in *. subst. reflexivity.
  Qed.
  Lemma like_throw : forall p x e, p_fit pol p x = Throw e -> exists p', after p (f_fit t p x) = (p', Throw e).
  Proof using Hlike.
    intros p x e E. destruct Hlike as (_ & _ & _ & H). destruct (H p x) as [H1 _].
    rewrite E in H1. destruct (after p (f_fit t p x)) as [q r]. cbn in *. subst. exists q. reflexivity.
  Qed.
  Lemma like_ub : forall p x, p_fit pol p x = UB -> exists p', after p (f_fit t p x) = (p', UB).
  Proof using Hlike.
    intros p x E. destruct Hlike as (_ & _ & _ & H). destruct (H p x) as [H1 _].
    rewrite E in H1. destruct (after p (f_fit t p x)) as [q r]. cbn in *. subst. exists q. reflexivity.
  Qed.
  (** The other way round. *)
  Lemma like_inv : forall p x, match after p (f_fit t p x) with
                               | (p', Ok _) => p_fit pol p x = Ok p'
                               | (_, Throw e) => p_fit pol p x = Throw e
                               | (_, UB) => p_fit pol p x = UB
                               end.
  Proof using Hlike.
    intros p x. destruct (p_fit pol p x) as [p'|e|] eqn:E.
    - rewrite (like_ok _ _ _ E). reflexivity.
    - destruct (like_throw _ _ _ E) as [p' ->]. reflexivity.
    - destruct (like_ub _ _ E) as [p' ->]. reflexivity.
  Qed.

  (** Batches of which every value is accepted. *)
  Lemma items_like : forall xs p, match foldM (p_fit pol) p xs with Ok p' => l_items t p xs = (p', Ok tt) | _ => True end.
  Proof using Hlike.
    induction xs as [|x r IH]; intros p; cbn [foldM l_items]; [reflexivity|].
    destruct (p_fit pol p x) as [p'|e|] eqn:E; cbn [bind]; [|exact Logic.I|exact Logic.I].
    rewrite (like_ok _ _ _ E). apply IH.
  Qed.
  Lemma fit_items_ok : forall xs p p', foldM (p_fit pol) p xs = Ok p' -> fit_items pol p xs = (p', Ok tt).
  Proof using.
    induction xs as [|x r IH]; intros p p' H; cbn [foldM fit_items] in *; [injection H as ->; reflexivity|].
    destruct (p_fit pol p x) as [q|e|]; cbn [bind] in H; [|discriminate|discriminate]. apply IH, H.
  Qed.

  Section Forget.
    Hypothesis Hforget : forgetful t.
    Lemma forget_throw : forall p x p' e, after p (f_fit t p x) = (p', Throw e) -> p' = p.
    Proof using Hforget. intros p x p' e H. specialize (Hforget p x). rewrite H in Hforget. exact (Hforget eq_refl). Qed.
    Lemma forget_ub : forall p x p', after p (f_fit t p x) = (p', UB) -> p' = p.
    Proof using Hforget. intros p x p' H. specialize (Hforget p x). rewrite H in Hforget. exact (Hforget eq_refl). Qed.

    Notation est' := (est (@tonly P A)).
    Definition at_work (e : est') : Prop :=
      match e_state e with Training => (0 < t_remaining (e_impl e))%nat | Finished => True | _ => False end.

    Lemma fit_single : forall e x, at_work e -> e_state e = Training ->
      match after (t_pol (e_impl e)) (f_fit t (t_pol (e_impl e)) x) with
      | (p', Ok _) => exists f, fit (learner t) e (Some [x]) = fit (tonly_impl pol) e (Some [x]) /\
                        snd (fit (learner t) e (Some [x])) = Ok f /\ at_work (fst (fit (learner t) e (Some [x])))
      | (p', Throw y) => fit (learner t) e (Some [x]) = (e, Throw y)
      | (p', UB) => fit (learner t) e (Some [x]) = (e, UB)
      end.
    Proof using Hlike Hforget.
      intros [st cr s] x Hw E. cbn in E. subst st. cbn [at_work e_state e_impl] in Hw. destruct s as [p rq hs rem an].
      unfold at_work in Hw. cbn [e_state e_impl t_remaining] in Hw.
      cbn [e_impl t_pol]. pose proof (like_inv p x) as Hi.
      destruct (after p (f_fit t p x)) as [p' [[]|y|]] eqn:Ea.
      - unfold fit. cbn [e_state]. cbn [i_fit learner tonly_impl e_impl]. unfold l_fit, t_fit. cbn [t_pol t_remaining t_required t_has t_ann length].
        replace (Nat.min rem 1) with 1%nat by lia. cbn [firstn l_items fit_items]. rewrite Ea, Hi.
        destruct (Nat.eqb (rem - 1) 0) eqn:En.
        + exists FitComplete. split; [reflexivity|]. split; [reflexivity|]. exact Logic.I.
        + exists FitContinue. split; [reflexivity|]. split; [reflexivity|]. apply Nat.eqb_neq in En.
          unfold at_work. cbn [fst e_state e_impl t_remaining]. lia.
      - assert (p' = p) by (eapply forget_throw; exact Ea). subst p'.
        unfold fit. cbn [e_state]. cbn [i_fit learner e_impl]. unfold l_fit. cbn [t_pol t_remaining t_required t_has t_ann length].
        replace (Nat.min rem 1) with 1%nat by lia. cbn [firstn l_items]. rewrite Ea. reflexivity.
      - assert (p' = p) by (eapply forget_ub; exact Ea). subst p'.
        unfold fit. cbn [e_state]. cbn [i_fit learner e_impl]. unfold l_fit. cbn [t_pol t_remaining t_required t_has t_ann length].
        replace (Nat.min rem 1) with 1%nat by lia. cbn [firstn l_items]. rewrite Ea. reflexivity.
    Qed.

    Lemma lessons_feed : forall xs e, at_work e ->
      let (e', qs) := lessons t e (singles xs) in
      M_Estimator.feed pol e (singles (accepted xs qs)) = Ok e' /\ at_work e'.
    Proof using Hlike Hforget.
      induction xs as [|x r IH]; intros e Hw; cbn [singles map lessons accepted]; [split; [reflexivity|exact Hw]|].
      destruct (e_state e) eqn:Est; try (unfold at_work in Hw; rewrite Est in Hw; destruct Hw; fail).
      - pose proof (fit_single e x Hw Est) as Hf.
        destruct (after (t_pol (e_impl e)) (f_fit t (t_pol (e_impl e)) x)) as [p' [u|y|]].
        + destruct Hf as (f & Hs & Hok & Hw'). destruct (fit (learner t) e (Some [x])) as [e1 q] eqn:Ef. cbn [fst snd] in *. subst q.
          specialize (IH e1 Hw'). fold (singles r). destruct (lessons t e1 (singles r)) as [e2 qs].
          cbn [accepts]. cbn [singles map M_Estimator.feed]. rewrite Est. rewrite <- Hs. cbn [bind]. exact IH.
        + rewrite Hf. specialize (IH e Hw). fold (singles r). destruct (lessons t e (singles r)) as [e2 qs]. cbn [accepts]. exact IH.
        + rewrite Hf. specialize (IH e Hw). fold (singles r). destruct (lessons t e (singles r)) as [e2 qs]. cbn [accepts]. exact IH.
      - assert (Hf : fit (learner t) e (Some [x]) = (e, Throw RuntimeError)) by (unfold fit; rewrite Est; reflexivity).
        rewrite Hf. specialize (IH e Hw). fold (singles r). destruct (lessons t e (singles r)) as [e2 qs]. cbn [accepts]. exact IH.
    Qed.

    Lemma complete_like : forall e, complete_training (learner t) e = complete_training (tonly_impl pol) e.
    Proof using Hlike.
      intros e. unfold complete_training. destruct (e_state e); try reflexivity;
        cbn [i_complete learner tonly_impl]; unfold t_complete, shell; cbn [p_complete simple_policy];
        destruct Hlike as (_ & _ & Hc & _); rewrite Hc; reflexivity.
    Qed.

    Theorem no_trace : forall mx xs, (0 < mx)%nat ->
      let (rs, a) := trained_anyway t mx (singles xs) in a = trained pol mx (singles (accepted xs rs)).
    Proof using Hlike Hforget.
      intros mx xs Hmx. unfold trained_anyway, trained, train_batches.
      assert (Eb : begin_training (learner t) (est_new (tonly_new (shell t) mx true None)) =
                   begin_training (tonly_impl pol) (est_new (tonly_new pol mx true None))).
      { unfold begin_training, est_new, tonly_new. cbn [e_state e_impl i_begin learner tonly_impl]. unfold t_begin.
        cbn [t_required negb t_ann t_pol shell p_begin simple_policy p_init t_remaining e_created].
        destruct Hlike as (Hi & Hb & _). rewrite Hb, Hi. reflexivity. }
      rewrite Eb.
      assert (Hb : exists e1, begin_training (tonly_impl pol) (est_new (tonly_new pol mx true None)) = (e1, Ok tt) /\ at_work e1).
      { unfold begin_training, est_new, tonly_new. cbn [e_state e_impl i_begin tonly_impl]. unfold t_begin.
        cbn [t_required negb t_ann t_pol t_remaining e_created]. destruct Hlike as (Hi & Hb & _). rewrite Hb.
        eexists. split; [reflexivity|]. exact Hmx. }
      destruct Hb as (e1 & Hb & Hw). rewrite Hb.
      pose proof (lessons_feed xs e1 Hw) as Hl. destruct (lessons t e1 (singles xs)) as [e2 qs]. destruct Hl as [Hl Hw2].
      cbn [bind]. rewrite Hl. cbn [bind].
      assert (Ed : on_data_completed (learner t) e2 = on_data_completed (tonly_impl pol) e2) by reflexivity.
      rewrite Ed. destruct (on_data_completed (tonly_impl pol) e2) as [e3 [u|y|]]; cbn [bind]; try reflexivity.
      rewrite complete_like. destruct (complete_training (tonly_impl pol) e3) as [e4 [u2|y|]]; reflexivity.
    Qed.

    (** Batches: what comes before the refused value stays. *)
    Lemma items_take : forall b p,
      match l_items t p b with
      | (p', Ok _) => foldM (p_fit pol) p b = Ok p'
      | (p', Throw e) => exists k x r, b = k ++ x :: r /\ foldM (p_fit pol) p k = Ok p' /\ p_fit pol p' x = Throw e
      | (p', UB) => True
      end.
    Proof using Hlike Hforget.
      induction b as [|x r IH]; intros p; cbn [l_items foldM]; [reflexivity|].
      pose proof (like_inv p x) as Hi. destruct (after p (f_fit t p x)) as [p1 [u|y|]] eqn:Ea.
      - rewrite Hi. cbn [bind]. specialize (IH p1). destruct (l_items t p1 r) as [p2 [v|z|]]; [exact IH| |exact Logic.I].
        destruct IH as (k & x' & r' & -> & Hk & Hx). exists (x :: k), x', r'. split; [reflexivity|]. split; [|exact Hx].
        cbn [foldM]. rewrite Hi. exact Hk.
      - assert (p1 = p) by (eapply forget_throw; exact Ea). subst p1. exists [], x, r. split; [reflexivity|]. split; [reflexivity|exact Hi].
      - exact Logic.I.
    Qed.
    Lemma lessons_batches : forall bs (e : est'), e_state e = Training -> (length (concat bs) < t_remaining (e_impl e))%nat ->
      Forall (fun b => b <> []) bs -> t_has (e_impl e) = false -> t_ann (e_impl e) = None ->
      let (e', qs) := lessons t e bs in
      (forall q, List.In q qs -> q <> UB) ->
      exists l p', taken pol (t_pol (e_impl e)) bs qs l /\ foldM (p_fit pol) (t_pol (e_impl e)) l = Ok p' /\
        e_state e' = Training /\ t_pol (e_impl e') = p' /\ t_has (e_impl e') = false /\ t_ann (e_impl e') = None.
    Proof using Hlike Hforget.
      induction bs as [|b r IH]; intros e Est Hlen Hne Hh Ha; cbn [lessons].
      { intros _. exists [], (t_pol (e_impl e)). split; [constructor|]. split; [reflexivity|]. repeat split; assumption. }
      destruct e as [st cr [p rq hs rem an]]. cbn [e_state e_impl t_pol t_has t_ann t_remaining] in *. subst st hs an.
      inversion Hne as [|? ? Hb Hr]; subst.
      cbn [concat] in Hlen. rewrite app_length in Hlen.
      pose proof (items_take b p) as Hi.
      assert (Ef : fit (learner t) (mkEst Training cr (mkT p rq false rem None)) (Some b) =
        match l_items t p b with
        | (p', Ok _) => (mkEst Training cr (mkT p' rq false (rem - length b) None), Ok FitContinue)
        | (p', Throw x) => (mkEst Training cr (mkT p' rq false rem None), Throw x)
        | (p', UB) => (mkEst Training cr (mkT p' rq false rem None), UB)
        end).
      { unfold fit. cbn [e_state]. destruct b as [|x b']; [contradiction|]. cbn [i_fit learner e_impl]. unfold l_fit.
        cbn [t_remaining t_pol t_required t_has t_ann].
        replace (Nat.min rem (length (x :: b'))) with (length (x :: b')) by lia. rewrite firstn_all.
        destruct (l_items t p (x :: b')) as [p' [u|y|]]; try reflexivity.
        replace (Nat.eqb (rem - length (x :: b')) 0) with false; [reflexivity|].
        symmetry. apply Nat.eqb_neq. lia. }
      rewrite Ef. clear Ef.
      destruct (l_items t p b) as [p' [u|y|]] eqn:El.
      - specialize (IH (mkEst Training cr (mkT p' rq false (rem - length b) None)) eq_refl).
        cbn [e_impl t_remaining t_has t_ann t_pol e_state] in IH. specialize (IH ltac:(lia) Hr eq_refl eq_refl).
        destruct (lessons t (mkEst Training cr (mkT p' rq false (rem - length b) None)) r) as [e2 qs].
        intros Hub. destruct IH as (l & p2 & Ht & Hf & Hrest); [intros q Hq; apply Hub; right; exact Hq|].
        exists (b ++ l), p2. split; [eapply taken_all; eassumption|]. split; [|exact Hrest].
        rewrite foldM_app, Hi. exact Hf.
      - destruct Hi as (k & x & b' & Eb & Hk & Hx).
        specialize (IH (mkEst Training cr (mkT p' rq false rem None)) eq_refl).
        cbn [e_impl t_remaining t_has t_ann t_pol e_state] in IH. specialize (IH ltac:(lia) Hr eq_refl eq_refl).
        destruct (lessons t (mkEst Training cr (mkT p' rq false rem None)) r) as [e2 qs].
        intros Hub. destruct IH as (l & p2 & Ht & Hf & Hrest); [intros q Hq; apply Hub; right; exact Hq|].
        exists (k ++ l), p2. subst b. split; [eapply taken_some; eassumption|]. split; [|exact Hrest].
        rewrite foldM_app, Hk. exact Hf.
      - destruct (lessons t (mkEst Training cr (mkT p' rq false rem None)) r) as [e2 qs].
        intros Hub. exfalso. apply (Hub UB); [left; reflexivity|reflexivity].
    Qed.
  End Forget.
End Wrapper.
