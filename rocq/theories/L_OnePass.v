From Verif Require Import Base M_Archive M_Codec M_Estimator M_Pipeline M_Keyed S_Keyed M_Grain S_Grain.

Section OnePass.
  Context {S In Tr : Type}.
  Variable I : impl S In Tr.
  Hypothesis Hdata : forall s, snd (i_on_data I s) = Ok true.
  Hypothesis Hfit : forall s xs, snd (i_fit I s xs) <> Ok FitReset.

  Lemma loop_done (all it : list (list In)) (fuel : nat) (e : est S) : e_state e <> Training -> (1 <= fuel)%nat -> train_loop I all fuel it e = Some (Ok e).
  Proof using Type. intros N H. destruct fuel as [|f]; [lia|]. cbn [train_loop]. destruct (e_state e); congruence || reflexivity. Qed.
  Lemma data_done (e : est S) : e_state e = Training \/ e_state e = Finished ->
    exists e', on_data_completed I e = (e', Ok tt) /\ e_state e' = Finished.
  Proof using Hdata.
    intros [E|E]; unfold on_data_completed; rewrite E; [|now exists e]. specialize (Hdata (e_impl e)). destruct (i_on_data I (e_impl e)) as [s r]. cbn [snd] in Hdata. rewrite Hdata.
    eexists. split; reflexivity.
  Qed.
  Lemma data_finished (e : est S) : e_state e = Finished -> on_data_completed I e = (e, Ok tt).
  Proof using Type. intros E. unfold on_data_completed. now rewrite E. Qed.
  Lemma fit_state (e : est S) (b : list In) : e_state e = Training ->
    match fit I e (Some b) with
    | (e', Ok FitReset) => False
    | (e', Ok _) => e_state e' = Training \/ e_state e' = Finished
    | _ => True
    end.
  Proof using Hfit.
    intros E. unfold fit. rewrite E. destruct b as [|x b]; [exact Logic.I|]. specialize (Hfit (e_impl e) (x :: b)). destruct (i_fit I (e_impl e) (x :: b)) as [s [[| |]| |]]; cbn [snd e_state] in *; auto.
  Qed.
  Lemma loop_fit_all (all : list (list In)) : forall (it : list (list In)) (e : est S) (fuel : nat), it <> [] -> (length it < fuel)%nat -> e_state e = Training ->
    train_loop I all fuel it e = Some (do e2 <- fit_all I e it; let (e3, r3) := on_data_completed I e2 in do _ <- r3; Ok e3).
  Proof using Hdata Hfit.
    induction it as [|b it IH]; intros e fuel N Hf E; [now elim N|]. destruct fuel as [|fuel]; [inversion Hf|]. cbn [length] in Hf. cbn [train_loop fit_all]. rewrite E.
    pose proof (fit_state e b E) as F. destruct (fit I e (Some b)) as [e' [r|x|]]; cbn [ok1 fst snd bind]; [|reflexivity|reflexivity].
    assert (Hs : e_state e' = Training \/ e_state e' = Finished) by (destruct r; tauto).
    assert (G : (match it with [] => match ok1 (on_data_completed I e') with Ok (e2, _) => train_loop I all fuel all e2 | Throw x => Some (Throw x) | UB => Some UB end
                            | _ => train_loop I all fuel it e' end)
                = Some (do e2 <- fit_all I e' it; let (e3, r3) := on_data_completed I e2 in do _ <- r3; Ok e3)).
    { destruct it as [|b' it].
      - cbn [fit_all bind]. destruct (data_done e' Hs) as (e2 & -> & E2). cbn [ok1 fst snd bind]. apply loop_done; [now rewrite E2|lia].
      - destruct Hs as [Hs|Hs].
        + apply IH; [discriminate|lia|exact Hs].
        + cbn [fit_all]. rewrite Hs. cbn [bind]. rewrite (data_finished e' Hs). cbn [bind]. apply loop_done; [now rewrite Hs|lia]. }
    destruct r; [exact G|exact G|contradiction].
  Qed.
  Theorem one_pass (bs : list (list In)) (fuel : nat) (e : est S) : bs <> [] -> (length bs < fuel)%nat -> M_Pipeline.train I bs fuel e = Some (S_Grain.train I e bs).
  Proof using Hdata Hfit.
    intros N Hf. unfold M_Pipeline.train, S_Grain.train. destruct (begin_training I e) as [e1 [u|x|]] eqn:B; cbn [ok1 fst snd bind]; [|reflexivity|reflexivity].
    assert (Hs : e_state e1 = Training \/ e_state e1 = Finished).
    { unfold begin_training in B. destruct (e_state e); try discriminate. destruct (i_begin I (e_impl e)) as [s [[|]|y|]]; injection B as <-; cbn [e_state]; auto; discriminate. }
    destruct Hs as [Hs|Hs].
    - rewrite (loop_fit_all bs bs e1 fuel N Hf Hs). destruct (fit_all I e1 bs) as [e2|x|]; cbn [bind]; [|reflexivity|reflexivity].
      destruct (on_data_completed I e2) as [e3 [u'|x|]]; cbn [bind]; [|reflexivity|reflexivity]. destruct (complete_training I e3) as [e4 [u''|x|]]; reflexivity.
    - rewrite (loop_done bs bs fuel e1) by (try (now rewrite Hs); lia). assert (A : fit_all I e1 bs = Ok e1) by (destruct bs; [reflexivity|]; cbn [fit_all]; now rewrite Hs).
      rewrite A. cbn [bind]. rewrite (data_finished e1 Hs). cbn [bind]. destruct (complete_training I e1) as [e4 [u''|x|]]; reflexivity.
  Qed.
End OnePass.

(** The grained estimator is one that needs a single pass. *)
Theorem grain_loop {K S In Tr Ann : Type} (keqb klt : K -> K -> bool) (I : impl S In Tr) (s0 : S) (ann : S -> option Ann) (c : option (res Tr)) (bs : list (list (K * In))) (fuel : nat) (e : est (gest K S Ann)) :
  bs <> [] -> (length bs < fuel)%nat ->
  M_Pipeline.train (grain_impl keqb klt I s0 ann c) bs fuel e = Some (S_Grain.train (grain_impl keqb klt I s0 ann c) e bs).
Proof.
  apply one_pass; [reflexivity|]. intros s xs. cbn [i_fit grain_impl]. unfold ge_fit. destruct (snd (M_Pipeline.feed _ _ _)) as [m|x|]; cbn [snd]; [|discriminate|discriminate].
  destruct (Nat.eqb _ _); discriminate.
Qed.
