(** The order in which a pipeline trains its stages. *)
From Verif Require Import Base L_List M_Archive M_Estimator M_Pipeline S_Pipeline L_Pipeline L_Pipeline2.

Section Order.
  Context {V : Type}.
  Implicit Types (e : elem V) (c r : list (elem V)).
  Definition pend c := Forall (fun e => el_state e = Pending) c.
  Inductive ordered : list (elem V) -> Prop :=
  | o_done : forall e r, el_state e = Completed -> ordered r -> ordered (e :: r)
  | o_last : forall e, ordered [e]
  | o_cur : forall e r, el_state e = Training -> pend r -> ordered (e :: r).
  Lemma pend_in_order c : pend c -> in_order c.
  Proof.
    intros P a x b E Hx. exfalso. apply Hx. unfold pend in P. rewrite Forall_forall in P. apply P. rewrite E.
    apply in_app_iff. right. now left.
  Qed.
  Lemma ordered_in_order c : ordered c -> in_order c.
  Proof.
    induction 1 as [e r H O IH|e|e r H P]; intros a x b E Hx.
    - destruct a as [|y a]; [constructor|]. injection E as <- E. constructor; [exact H|]. now apply (IH a x b E).
    - destruct a as [|y a]; [constructor|]. injection E as <- E. destruct a; discriminate.
    - destruct a as [|y a]; [constructor|]. injection E as <- E. exfalso. apply Hx.
      unfold pend in P. rewrite Forall_forall in P. apply P. rewrite E. apply in_app_iff. right. now left.
  Qed.

  Lemma begin_eq e r : r <> [] -> begin_chain (e :: r) =
        if is_pending e then
          do e1 <- el_begin e;
          do c1 <- (if is_training e1 then Ok (e1 :: r)
                    else do e2 <- el_complete e1; do p <- begin_chain r; Ok (e2 :: fst p));
          Ok (c1, negb (all_finished c1))
        else do p <- begin_chain r; Ok (e :: fst p, snd p).
  Proof. destruct r; [congruence|reflexivity]. Qed.
  Lemma fit_eq e r xs : r <> [] -> fit_chain (e :: r) xs =
        if is_training e then
          do p <- el_fit e xs;
          match snd p with
          | FitContinue => Ok (fst p :: r, FitContinue)
          | _ => do c1 <- complete_chained (fst p) r; Ok (c1, if all_finished c1 then FitComplete else FitReset)
          end
        else
          do p <- el_transform e xs;
          match snd p with
          | [] => Ok (fst p :: r, FitContinue)
          | ys => do q <- fit_chain r ys; Ok (fst p :: fst q, snd q)
          end.
  Proof. destruct r; [congruence|reflexivity]. Qed.
  Lemma on_data_eq n e r : r <> [] -> on_data_n (S n) (e :: r) =
        if is_training e then
          do e1 <- el_on_data e;
          do c1 <- (if is_training e1 then Ok (e1 :: r) else complete_chained e1 r);
          Ok (c1, all_finished c1)
        else
          do p <- el_flush e;
          do r1 <- match snd p with [] => Ok r | ys => do q <- fit_chain r ys; Ok (fst q) end;
          do q <- on_data_n n r1;
          Ok (fst p :: fst q, snd q).
  Proof. destruct r; [congruence|reflexivity]. Qed.
  Lemma complete_eq n e r : r <> [] -> complete_n (S n) (e :: r) =
        do c1 <- (if is_completed e then Ok (e :: r) else complete_chained e r);
        match c1 with
        | [] => UB
        | e1 :: r1 => do r' <- complete_n n r1; Ok (e1 :: r')
        end.
  Proof. destruct r; [congruence|reflexivity]. Qed.

  Lemma is_training_iff e : is_training e = true <-> el_state e = Training.
  Proof. unfold is_training. destruct (el_state e); split; congruence. Qed.
  Lemma el_complete_done e e1 : el_complete e = Ok e1 -> el_state e1 = Completed.
  Proof.
    unfold el_complete, lift1, complete_training, el_state, create_transformer, with_est.
    destruct (e_state (el_est e)); cbn; try discriminate.
    all: destruct (i_complete _ _) as [s [u|x|]]; cbn; try discriminate.
    all: destruct (ps_is_tr _ && negb _); cbn; [|intros [= <-]; reflexivity].
    all: destruct (e_created _); cbn; try discriminate.
    all: destruct (i_create _ _) as [s2 [[t|]|x|]]; cbn; try discriminate; intros [= <-]; reflexivity.
  Qed.
  Lemma el_transform_state e xs e1 ys : el_transform e xs = Ok (e1, ys) -> el_state e1 = el_state e.
  Proof.
    unfold el_transform, el_state. destruct (ps_is_tr _); [|intros [= <- _]; reflexivity].
    destruct (el_tr e) as [t|]; [|discriminate]. destruct (feed _ t xs) as [o [t'|x|]]; cbn; try discriminate. intros [= <- _]. reflexivity.
  Qed.
  Lemma el_flush_state' e e1 ys : el_flush e = Ok (e1, ys) -> el_state e1 = el_state e.
  Proof.
    unfold el_flush, el_state. destruct (ps_is_tr _); [|intros [= <- _]; reflexivity].
    destruct (el_tr e) as [t|]; [|discriminate]. destruct (ps_flush _ t) as [o [t'|x|]]; cbn; try discriminate. intros [= <- _]. reflexivity.
  Qed.
  Lemma el_fit_continue e xs e1 : el_fit e xs = Ok (e1, FitContinue) -> el_state e1 = Training.
  Proof.
    unfold el_fit, lift1, fit, el_state, with_est. destruct (e_state _); cbn; try discriminate.
    destruct xs as [|x xs]; cbn; try discriminate. destruct (i_fit _ _ _) as [s [[]|z|]]; cbn; try discriminate. intros [= <-]. reflexivity.
  Qed.

  Lemma begin_pend c : pend c -> forall c1 b, begin_chain c = Ok (c1, b) -> ordered c1.
  Proof.
    induction c as [|e r IH]; intros HP c1 b; [discriminate|]. inversion HP as [|? ? He Hr]; subst. destruct r as [|x l].
    - cbn [begin_chain]. destruct (el_begin e) as [e1| |] eqn:B; cbn; try discriminate. intros [= <- _]. apply o_last.
    - rewrite begin_eq by discriminate. unfold is_pending. rewrite He.
      destruct (el_begin e) as [e1| |] eqn:B; cbn [bind]; try discriminate.
      destruct (is_training e1) eqn:T.
      + cbn [bind]. intros [= <- _]. apply o_cur; [now apply is_training_iff|exact Hr].
      + destruct (el_complete e1) as [e2| |] eqn:C; cbn [bind]; try discriminate.
        destruct (begin_chain (x :: l)) as [[c2 b2]| |] eqn:BB; cbn [bind]; try discriminate.
        intros [= <- _]. apply o_done; [now apply el_complete_done in C|]. cbn [fst]. eapply IH; eauto.
  Qed.
  Lemma complete_chained_ordered e r c : pend r -> complete_chained e r = Ok c ->
    exists e1 r1, c = e1 :: r1 /\ el_state e1 = Completed /\ ordered r1.
  Proof.
    unfold complete_chained. intros HP. destruct (el_complete e) as [e1| |] eqn:C; cbn; try discriminate.
    destruct (begin_chain r) as [[c1 b]| |] eqn:B; cbn; try discriminate. intros [= <-].
    exists e1, c1. split; [reflexivity|]. split; [now apply el_complete_done in C|]. eapply begin_pend; eauto.
  Qed.
  Lemma complete_chained_ordered' e r c : pend r -> complete_chained e r = Ok c -> ordered c.
  Proof. intros P C. destruct (complete_chained_ordered _ _ _ P C) as (e1 & r1 & -> & H1 & H2). now apply o_done. Qed.

  Lemma ordered_ne c : ordered c -> c <> [].
  Proof. destruct 1; discriminate. Qed.
  Lemma fit_last e xs : fit_chain [e] xs = do p <- el_fit e xs; Ok ([fst p], snd p). Proof. reflexivity. Qed.
  Lemma fit_ordered c : ordered c -> forall xs c1 f, fit_chain c xs = Ok (c1, f) -> ordered c1.
  Proof.
    induction 1 as [e r H O IH|e|e r H P]; intros xs c1 f.
    - rewrite fit_eq by now apply ordered_ne.
      replace (is_training e) with false by (unfold is_training; now rewrite H).
      destruct (el_transform e xs) as [[e1 ys]| |] eqn:T; cbn [bind]; try discriminate.
      apply el_transform_state in T. rewrite H in T. cbn [fst snd].
      destruct ys as [|y ys]; [intros [= <- _]; now apply o_done|].
      destruct (fit_chain r (y :: ys)) as [[c2 f2]| |] eqn:F; cbn; try discriminate. intros [= <- _].
      apply o_done; [exact T|]. eapply IH; eauto.
    - rewrite fit_last. destruct (el_fit e xs) as [[e1 g]| |]; cbn; try discriminate. intros [= <- _]. apply o_last.
    - destruct r as [|x l].
      + rewrite fit_last. destruct (el_fit e xs) as [[e1 g]| |]; cbn; try discriminate. intros [= <- _]. apply o_last.
      + rewrite fit_eq by discriminate. rewrite (proj2 (is_training_iff e) H).
        destruct (el_fit e xs) as [[e1 g]| |] eqn:F; cbn [bind fst snd]; try discriminate.
        assert (HC : forall y, (do c1 <- complete_chained e1 (x :: l); Ok (c1, if all_finished c1 then FitComplete else FitReset)) = Ok (c1, y) -> ordered c1).
        { intros y. destruct (complete_chained e1 (x :: l)) as [c2| |] eqn:C; cbn; try discriminate. intros [= <- _].
          eapply complete_chained_ordered'; eauto. }
        destruct g; [apply HC| |apply HC]. intros [= <- _]. apply o_cur; [now apply el_fit_continue in F|exact P].
  Qed.
  Lemma on_data_last n e : on_data_n (S n) [e] = do e1 <- el_on_data e; Ok ([e1], negb (is_training e1)). Proof. reflexivity. Qed.
  Lemma on_data_ordered n : forall c, ordered c -> forall c1 b, on_data_n n c = Ok (c1, b) -> ordered c1.
  Proof.
    induction n as [|n IH]; intros c O c1 b; [discriminate|]. inversion O as [e r H O' E|e E|e r H P E]; subst.
    - rewrite on_data_eq by now apply ordered_ne.
      replace (is_training e) with false by (unfold is_training; now rewrite H).
      destruct (el_flush e) as [[e1 ys]| |] eqn:T; cbn [bind]; try discriminate.
      apply el_flush_state' in T. rewrite H in T. cbn [fst snd].
      assert (HR : forall r1, ordered r1 -> (do q <- on_data_n n r1; Ok (e1 :: fst q, snd q)) = Ok (c1, b) -> ordered c1).
      { intros r1 Or. destruct (on_data_n n r1) as [[c2 b2]| |] eqn:D; cbn; try discriminate. intros [= <- _].
        apply o_done; [exact T|]. eapply IH; eauto. }
      destruct ys as [|y ys]; cbn [bind]; [now apply HR|].
      destruct (fit_chain r (y :: ys)) as [[c2 f2]| |] eqn:F; cbn [bind fst]; try discriminate.
      apply HR. eapply fit_ordered; eauto.
    - rewrite on_data_last. destruct (el_on_data e); cbn; try discriminate. intros [= <- _]. apply o_last.
    - destruct r as [|x l].
      + rewrite on_data_last. destruct (el_on_data e); cbn; try discriminate. intros [= <- _]. apply o_last.
      + rewrite on_data_eq by discriminate. rewrite (proj2 (is_training_iff e) H).
        destruct (el_on_data e) as [e1| |]; cbn [bind]; try discriminate. destruct (is_training e1) eqn:T1; cbn [bind].
        * intros [= <- _]. apply o_cur; [now apply is_training_iff|exact P].
        * destruct (complete_chained e1 (x :: l)) as [c2| |] eqn:C; cbn [bind]; try discriminate. intros [= <- _].
          eapply complete_chained_ordered'; eauto.
  Qed.
  Lemma complete_last n e : complete_n (S n) [e] = do e1 <- el_complete e; Ok [e1]. Proof. reflexivity. Qed.
  Lemma complete_ordered n : forall c, ordered c -> forall c1, complete_n n c = Ok c1 ->
    ordered c1 /\ Forall (fun x => el_state x = Completed) c1.
  Proof.
    induction n as [|n IH]; intros c O c1; [discriminate|].
    assert (HL : forall e, complete_n (S n) [e] = Ok c1 -> ordered c1 /\ Forall (fun x => el_state x = Completed) c1).
    { intros e. rewrite complete_last. destruct (el_complete e) eqn:C; cbn; try discriminate. intros [= <-]. split; [apply o_last|].
      constructor; [now apply el_complete_done in C|constructor]. }
    assert (HT : forall e1 r1, el_state e1 = Completed -> ordered r1 -> (do r' <- complete_n n r1; Ok (e1 :: r')) = Ok c1 ->
       ordered c1 /\ Forall (fun x => el_state x = Completed) c1).
    { intros e1 r1 H1 O1. destruct (complete_n n r1) as [c2| |] eqn:C; cbn; try discriminate. intros [= <-].
      destruct (IH _ O1 _ C) as [A B]. split; [now apply o_done|now constructor]. }
    inversion O as [e r H O' E|e E|e r H P E]; subst.
    - rewrite complete_eq by now apply ordered_ne. unfold is_completed. rewrite H. cbn [bind]. now apply HT.
    - apply HL.
    - destruct r as [|x l]; [apply HL|]. rewrite complete_eq by discriminate. unfold is_completed. rewrite H.
      destruct (complete_chained e (x :: l)) as [c2| |] eqn:C; cbn [bind]; try discriminate.
      destruct (complete_chained_ordered _ _ _ P C) as (e1 & r1 & -> & H1 & H2). now apply HT.
  Qed.

  (** The invariant of the pipeline object. *)
  Definition pinv (x : est (list (elem V))) : Prop :=
    match e_state x with
    | Pending => pend (e_impl x)
    | Completed => Forall (fun e => el_state e = Completed) (e_impl x)
    | _ => ordered (e_impl x)
    end.
  Lemma pinv_in_order x : pinv x -> in_order (e_impl x).
  Proof.
    unfold pinv. destruct (e_state x); intros H; [now apply pend_in_order|now apply ordered_in_order ..|].
    intros a y b E _. rewrite E in H. apply Forall_app in H. apply H.
  Qed.
  Lemma pinv_step x o : pinv x -> pinv (fst (estep pipeline_impl x o)).
  Proof.
    intros P. destruct x as [st cr c]. unfold pinv in P. cbn in P. destruct o as [|items| | |]; cbn [estep].
    - unfold begin_training. cbn [e_state e_impl e_created]. destruct st; try exact P. cbn [pipeline_impl i_begin].
      destruct (begin_chain c) as [[c1 b]| |] eqn:B; cbn; try exact P. destruct b; cbn; eapply begin_pend; eauto.
    - unfold fit. cbn [e_state e_impl e_created]. destruct st; try exact P. destruct items as [[|v l]|]; try exact P. cbn [pipeline_impl i_fit].
      destruct (fit_chain c (v :: l)) as [[c1 f]| |] eqn:B; cbn [imp]; try exact P. destruct f; cbn; eapply fit_ordered; eauto.
    - unfold on_data_completed. cbn [e_state e_impl e_created]. destruct st; try exact P. cbn [pipeline_impl i_on_data]. unfold on_data_chain.
      destruct (on_data_n (length c) c) as [[c1 b]| |] eqn:B; cbn [imp]; try exact P. destruct b; cbn; eapply on_data_ordered; eauto.
    - unfold complete_training. cbn [e_state e_impl e_created]. unfold complete_chain.
      assert (G : ordered c -> pinv (fst (let (s, r) := i_complete pipeline_impl c in
        match r with Ok _ => (mkEst Completed cr s, Ok tt) | Throw x => (mkEst st cr s, Throw x) | UB => (mkEst st cr s, UB) end)) \/
        fst (let (s, r) := i_complete pipeline_impl c in
        match r with Ok _ => (mkEst Completed cr s, Ok tt) | Throw x => (mkEst st cr s, Throw x) | UB => (mkEst st cr s, UB) end) = mkEst st cr c).
      { intros O. cbn [pipeline_impl i_complete]. unfold complete_chain.
        destruct (complete_n (length c) c) as [c1| |] eqn:C; cbn; [left|now right ..]. apply (complete_ordered _ _ O _ C). }
      destruct st; try exact P; destruct (G P) as [G1|G1].
      all: destruct (i_complete pipeline_impl c) as [s [u|x|]]; cbn in G1 |- *; try exact G1; inversion G1; subst; exact P.
    - unfold create_transformer. cbn [e_state e_impl e_created]. destruct st; try exact P. destruct cr; try exact P.
      cbn. unfold pinv; cbn. apply Forall_forall. intros y Hy. apply in_map_iff in Hy. destruct Hy as (z & <- & Hz).
      rewrite Forall_forall in P. exact (P z Hz).
  Qed.
  Lemma pinv_run ops : forall x, pinv x -> Forall (fun p => pinv (fst p)) (erun pipeline_impl x ops).
  Proof.
    induction ops as [|o r IH]; intros x P; cbn [erun]; [constructor|].
    pose proof (pinv_step x o P) as P1. destruct (estep pipeline_impl x o) as [x1 y]. constructor; [exact P1|now apply IH].
  Qed.
  Lemma run_in_order c ops : pend c ->
    Forall (fun p => in_order (e_impl (fst p)) /\
                     (e_state (fst p) = Completed -> Forall (fun e => el_state e = Completed) (e_impl (fst p))))
           (erun pipeline_impl (est_new c) ops).
  Proof.
    intros P. eapply Forall_impl; [|apply (pinv_run ops (est_new c)); exact P]. intros [x y] H. cbn in *.
    split; [now apply pinv_in_order|]. intros E. unfold pinv in H. now rewrite E in H.
  Qed.
End Order.
