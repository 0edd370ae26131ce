(** An estimator that was not started stays that way. *)
From Verif Require Import Base M_Estimator M_CApi S_CApi.
Open Scope Z_scope.

Section Pending.
  Context {S In Tr Arg Val : Type}.
  Variable I : impl S In Tr.
  Variable construct : res S.
  Variable value_of : Arg -> res In.
  Variable save_tr : Tr -> res (list Z).
  Variable load_tr : list Z -> res Tr.
  Variable exec_one : Tr -> In -> Tr * res Val.
  Variable exec_many : Tr -> In -> Tr * res (list (list Z)).
  Variable flush_many : Tr -> Tr * res (list (list Z)).
  Variable what : exn -> list Z.
  Notation ledger := (@ledger S Tr).
  Notation call := (@call Arg).
  Notation DOES := (@does S In Tr Arg Val I construct value_of save_tr load_tr exec_one exec_many flush_many).
  Notation MEETS := (@meets S In Tr Arg Val I construct value_of save_tr load_tr exec_one exec_many flush_many what).

  Variable h : Z.
  Variable e : est S.
  Hypothesis Hp : e_state e = Pending.
  Definition keeps (L : ledger) : Prop := live L h = Some (OEst e).

  Lemma keeps_behind L k o : keeps L -> (k = h -> o = Some (OEst e)) -> keeps (behind L k o).
  Proof using.
    unfold keeps. cbn [behind live]. unfold assign. intros H E. destruct (Z.eqb_spec h k) as [E'|_]; [|exact H].
    rewrite (E (eq_sym E')). reflexivity.
  Qed.
  Lemma keeps_est L k ok (f : est S -> ledger * @outcome S Tr Val) : keeps L ->
    (forall e', live L k = Some (OEst e') -> keeps (fst (f e'))) -> keeps (fst (with_estimator L k ok f)).
  Proof using.
    intros H F. unfold with_estimator. destruct (ok && negb (k =? 0)); [|exact H].
    destruct (live L k) as [[e'|t|s|b|s|l]|] eqn:E; try exact H. exact (F e' eq_refl).
  Qed.
  Lemma keeps_trans L k ok (f : Tr -> ledger * @outcome S Tr Val) : keeps L ->
    (k <> h -> forall t, keeps (fst (f t))) -> keeps (fst (with_transformer L k ok f)).
  Proof using.
    intros H F. unfold with_transformer. destruct (ok && negb (k =? 0)); [|exact H].
    destruct (live L k) as [[e'|t|s|b|s|l]|] eqn:E; try exact H. apply F. intros ->. unfold keeps in H. congruence.
  Qed.
  Lemma keeps_value {A} L ok k (r : res A) (f : A -> ledger * @outcome S Tr Val) : keeps L ->
    (forall v, keeps (fst (f v))) -> keeps (fst (with_value L ok k r f)).
  Proof using. intros H F. unfold with_value. destruct (ok && negb (k =? 0)); [|exact H]. destruct r; [apply F|exact H|exact H]. Qed.
  Lemma keeps_block L a f : keeps L -> keeps (fst (@the_block S Tr Val L a f)).
  Proof using. intros H. unfold the_block. destruct (given L a) as [o|]; [|exact H]. destruct (f o); exact H. Qed.
  Lemma same_est L k e' : keeps L -> live L k = Some (OEst e') -> k = h -> e' = e.
  Proof using. unfold keeps. intros H E ->. congruence. Qed.

  Lemma keeps_does er L c : keeps L -> c <> DestroyEstimator h -> keeps (fst (DOES er L c)).
  Proof using Hp.
    intros H N. unfold does. destruct (er || errorless c); [|exact H].
    destruct c as [out|out|k|k out|k out|k x out|k xs out|k|k|k out|b out|k|k out|a n|k x out|k x out|k out|a n|k out|a|k]; cbn [effect].
    - exact H.
    - exact H.
    - apply keeps_est; [exact H|]. intros e' _. cbn [fst]. apply keeps_behind; [exact H|]. intros ->. destruct (N eq_refl).
    - apply keeps_est; [exact H|]. intros e' _. exact H.
    - apply keeps_est; [exact H|]. intros e' _. exact H.
    - apply keeps_value; [exact H|]. intros v. apply keeps_est; [exact H|]. intros e' E.
      destruct (fit I e' (Some [v])) as [e2 r] eqn:Ef. cbn [fst]. apply keeps_behind; [exact H|]. intros Ek.
      rewrite (same_est L k e' H E Ek) in Ef. unfold fit in Ef. rewrite Hp in Ef. congruence.
    - destruct xs as [[|x l]|]; [exact H| |exact H]. apply keeps_value; [exact H|]. intros v. apply keeps_est; [exact H|]. intros e' E.
      destruct (fit I e' (Some v)) as [e2 r] eqn:Ef. cbn [fst]. apply keeps_behind; [exact H|]. intros Ek.
      rewrite (same_est L k e' H E Ek) in Ef. unfold fit in Ef. rewrite Hp in Ef. congruence.
    - apply keeps_est; [exact H|]. intros e' E.
      destruct (on_data_completed I e') as [e2 r] eqn:Ef. cbn [fst]. apply keeps_behind; [exact H|]. intros Ek.
      rewrite (same_est L k e' H E Ek) in Ef. unfold on_data_completed in Ef. rewrite Hp in Ef. congruence.
    - apply keeps_est; [exact H|]. intros e' E.
      destruct (complete_training I e') as [e2 r] eqn:Ef. cbn [fst]. apply keeps_behind; [exact H|]. intros Ek.
      rewrite (same_est L k e' H E Ek) in Ef. unfold complete_training in Ef. rewrite Hp in Ef. congruence.
    - apply keeps_est; [exact H|]. intros e' E.
      destruct (create_transformer I e') as [e2 r] eqn:Ef. cbn [fst]. apply keeps_behind; [exact H|]. intros Ek.
      rewrite (same_est L k e' H E Ek) in Ef. unfold create_transformer in Ef. rewrite Hp in Ef. congruence.
    - destruct b as [[|x l]|]; exact H.
    - apply keeps_trans; [exact H|]. intros Nk t. cbn [fst]. apply keeps_behind; [exact H|]. intros Ek. destruct (Nk Ek).
    - apply keeps_trans; [exact H|]. intros Nk t. exact H.
    - destruct ((a =? 0) || (n =? 0)); [exact H|]. apply keeps_block. exact H.
    - apply keeps_value; [exact H|]. intros v. apply keeps_trans; [exact H|]. intros Nk t. destruct (exec_one t v) as [t' r]. cbn [fst].
      apply keeps_behind; [exact H|]. intros Ek. destruct (Nk Ek).
    - apply keeps_value; [exact H|]. intros v. apply keeps_trans; [exact H|]. intros Nk t. destruct (exec_many t v) as [t' r]. cbn [fst].
      apply keeps_behind; [exact H|]. intros Ek. destruct (Nk Ek).
    - apply keeps_trans; [exact H|]. intros Nk t. destruct (flush_many t) as [t' r]. cbn [fst].
      apply keeps_behind; [exact H|]. intros Ek. destruct (Nk Ek).
    - destruct ((a =? 0) && (n =? 0)); [exact H|]. destruct ((a =? 0) || (n =? 0)); [exact H|]. apply keeps_block. exact H.
    - destruct (out && negb (k =? 0)); [|exact H]. destruct (live L k) as [[]|]; exact H.
    - destruct (a =? 0); [exact H|]. apply keeps_block. exact H.
    - destruct (k =? 0); [exact H|]. destruct (live L k) as [[]|] eqn:E; try exact H. cbn [fst]. apply keeps_behind; [exact H|].
      intros ->. unfold keeps in H. congruence.
  Qed.
  Lemma keeps_holding L L' (o : @outcome S Tr Val) x : keeps L -> keeps L' -> answers L o x -> keeps (holding what L' o x).
  Proof using.
    intros H H' A. unfold keeps in H.
    assert (F : forall k (y : obj), live L k = None -> keeps (behind L' k (Some y))).
    { intros k y Hk. apply keeps_behind; [exact H'|]. intros ->. congruence. }
    destruct o; cbn [answers holding] in *; try exact H'.
    - destruct A as [k [-> [_ Hk]]]. exact (F k _ Hk).
    - destruct A as [k [-> [_ Hk]]]. exact (F k _ Hk).
    - destruct A as [k [-> _]]. exact H'.
  Qed.

  Lemma trains_refused er L c x a : keeps L -> trains h c -> answers L (snd (DOES er L c)) x -> x <> CTrue a.
  Proof using Hp.
    intros H Tc. unfold does. destruct (er || errorless c); [|cbn [snd answers]; intros ->; discriminate].
    assert (G : forall ok (f : est S -> ledger * @outcome S Tr Val), (exists y, snd (f e) = Refuse y) ->
              answers L (snd (with_estimator L h ok f)) x -> x <> CTrue a).
    { intros ok f [y Hy]. unfold with_estimator. destruct (ok && negb (h =? 0)).
      - rewrite H, Hy. intros [k [-> _]]. discriminate.
      - intros [k [-> _]]. discriminate. }
    assert (V : forall A ok (r : res A) (f : A -> ledger * @outcome S Tr Val), (forall v, answers L (snd (f v)) x -> x <> CTrue a) ->
              answers L (snd (with_value L ok h r f)) x -> x <> CTrue a).
    { intros A ok r f F. unfold with_value. destruct (ok && negb (h =? 0)); [|intros [k [-> _]]; discriminate].
      destruct r as [v|y|]; [exact (F v)|intros [k [-> _]]; discriminate|intros ->; discriminate]. }
    destruct c as [out|out|k|k out|k out|k y out|k xs out|k|k|k out|b out|k|k out|b n|k y out|k y out|k out|b n|k out|b|k]; cbn [trains] in Tc; try contradiction; subst k; cbn [effect].
    - apply V. intros v. apply G. unfold fit. rewrite Hp. eexists. reflexivity.
    - destruct xs as [[|y l]|]; [intros [k [-> _]]; discriminate| |intros [k [-> _]]; discriminate].
      apply V. intros v. apply G. unfold fit. rewrite Hp. eexists. reflexivity.
    - apply G. unfold on_data_completed. rewrite Hp. eexists. reflexivity.
    - apply G. unfold complete_training. rewrite Hp. eexists. reflexivity.
    - apply G. unfold create_transformer. rewrite Hp. eexists. reflexivity.
  Qed.
  Lemma never_trained l : forall L xs, keeps L -> MEETS L l xs -> (forall er, ~ List.In (er, DestroyEstimator h) l) ->
    forall i er c x a, nth_error l i = Some (er, c) -> nth_error xs i = Some x -> trains h c -> x <> CTrue a.
  Proof using Hp.
    induction l as [|[er0 c0] l IH]; intros L xs K M N i er c x a Hl Hx Tc; [destruct i; discriminate|].
    destruct xs as [|x0 xs]; cbn [meets] in M; [contradiction|].
    assert (Nc : c0 <> DestroyEstimator h) by (intros ->; apply (N er0); left; reflexivity).
    pose proof (keeps_does er0 L c0 K Nc) as K'. pose proof (fun y z => trains_refused er0 L c0 y z K) as R.
    destruct (DOES er0 L c0) as [L' o]. cbn [fst snd] in K', R. destruct M as [A M].
    destruct i as [|i]; cbn [nth_error] in Hl, Hx.
    - injection Hl as -> ->. injection Hx as ->. exact (R x a Tc A).
    - destruct x0 as [b|y|y|].
      + refine (IH _ xs (keeps_holding L L' o _ K K' A) M _ i er c x a Hl Hx Tc). intros er' Q. exact (N er' (or_intror Q)).
      + refine (IH _ xs (keeps_holding L L' o _ K K' A) M _ i er c x a Hl Hx Tc). intros er' Q. exact (N er' (or_intror Q)).
      + subst xs. destruct i; discriminate.
      + subst xs. destruct i; discriminate.
  Qed.
End Pending.

Section Default.
  Context {S In Tr Arg Val : Type}.
  Variable I : impl S In Tr.
  Variable construct : res S.
  Variable value_of : Arg -> res In.
  Variable save_tr : Tr -> res (list Z).
  Variable load_tr : list Z -> res Tr.
  Variable exec_one : Tr -> In -> Tr * res Val.
  Variable exec_many : Tr -> In -> Tr * res (list (list Z)).
  Variable flush_many : Tr -> Tr * res (list (list Z)).
  Variable what : exn -> list Z.
  Notation MEETS := (@meets S In Tr Arg Val I construct value_of save_tr load_tr exec_one exec_many flush_many what).
  Lemma default_never_trained l xs s h : construct = Ok s ->
    MEETS nothing ((true, CreateEstimatorDefault true) :: l) (CTrue (AHandle h) :: xs) -> (forall er, ~ List.In (er, DestroyEstimator h) l) ->
    forall i er c x a, nth_error l i = Some (er, c) -> nth_error xs i = Some x -> trains h c -> x <> CTrue a.
  Proof.
    intros Hc M. cbn [meets does orb effect] in M. rewrite Hc in M. cbn [outcome_of holding] in M. destruct M as [_ M].
    revert M. apply (never_trained I (Ok s) value_of save_tr load_tr exec_one exec_many flush_many what h (est_new s) eq_refl).
    unfold keeps. cbn [behind live]. unfold assign. rewrite Z.eqb_refl. reflexivity.
  Qed.
End Default.
