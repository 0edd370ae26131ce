(** Training of grains, row by row. *)
From Coq Require Import ZArith Lia.
From Verif Require Import Base M_Estimator M_Stats M_Pipeline M_Keyed M_Grain M_Errors M_Refused S_Keyed S_Refused.
From Verif Require Import L_Keyed L_Refused2.
Open Scope Z_scope.

Section Grains.
  Context {K S In Tr : Type}.
  Variables keqb klt : K -> K -> bool.
  Hypothesis Hord : key_order keqb klt.
  Variable I : impl S In Tr.
  Variable s0 : S.
  Notation find := (k_find keqb).
  Notation set := (k_set keqb klt).

  Lemma keqb_refl k : keqb k k = true.
  Proof using Hord. apply (proj1 Hord). reflexivity. Qed.
  Lemma gl_run_find : forall m k e x k', find m k = Some e ->
    find (fst (gl_run keqb klt I m k e x)) k' = if keqb k k' then Some (fst (one_row I e x)) else find m k'.
  Proof using Hord.
    intros m k e x k' Hf. unfold gl_run, one_row. destruct (keqb k k') eqn:Ek.
    - apply (proj1 Hord) in Ek. subst k'. destruct (e_state e); try exact Hf.
      destruct (fit I e (Some [x])) as [e' r]. cbn [fst]. rewrite (find_set _ _ Hord), keqb_refl. reflexivity.
    - destruct (e_state e); try reflexivity. destruct (fit I e (Some [x])) as [e' r]. cbn [fst]. rewrite (find_set _ _ Hord), Ek. reflexivity.
  Qed.
  Lemma gl_run_out : forall m k e x, snd (gl_run keqb klt I m k e x) = snd (one_row I e x).
  Proof using. intros m k e x. unfold gl_run, one_row. destruct (e_state e); try reflexivity. destruct (fit I e (Some [x])) as [e' r]. reflexivity. Qed.

  (** However a row of one grain ends, the other grains' estimators stay what they were. *)
  Theorem grain_isolated : forall m k x k', k' <> k -> find (fst (gl_row keqb klt I s0 m (k, x))) k' = find m k'.
  Proof using Hord.
    intros m k x k' Hne. assert (Ek : keqb k k' = false).
    { destruct (keqb k k') eqn:E; [|reflexivity]. apply (proj1 Hord) in E. congruence. }
    unfold gl_row. destruct (find m k) as [e|] eqn:Hf.
    - rewrite gl_run_find by exact Hf. rewrite Ek. reflexivity.
    - destruct (begin_training I (est_new s0)) as [e r]. destruct r as [u|y|]; cbn [fst].
      + rewrite gl_run_find; [|rewrite (find_set _ _ Hord), keqb_refl; reflexivity]. rewrite Ek, (find_set _ _ Hord), Ek. reflexivity.
      + rewrite (find_set _ _ Hord), Ek. reflexivity.
      + rewrite (find_set _ _ Hord), Ek. reflexivity.
  Qed.

  Hypothesis Hbegin : snd (begin_training I (est_new s0)) = Ok tt.
  Definition first_or (o : option (est S)) : est S := match o with Some e => e | None => fst (begin_training I (est_new s0)) end.
  Lemma gl_row_same : forall m k x,
    find (fst (gl_row keqb klt I s0 m (k, x))) k = Some (fst (one_row I (first_or (find m k)) x)) /\
    snd (gl_row keqb klt I s0 m (k, x)) = snd (one_row I (first_or (find m k)) x).
  Proof using Hord Hbegin.
    intros m k x. unfold gl_row. destruct (find m k) as [e|] eqn:Hf; cbn [first_or].
    - rewrite gl_run_find by exact Hf. rewrite keqb_refl, gl_run_out. split; reflexivity.
    - destruct (begin_training I (est_new s0)) as [e r]. cbn [snd] in Hbegin. subst r. cbn [fst].
      rewrite gl_run_find; [|rewrite (find_set _ _ Hord), keqb_refl; reflexivity]. rewrite keqb_refl, gl_run_out. split; reflexivity.
  Qed.
  Lemma gl_rows_grain : forall rows m k,
    let (m', rs) := gl_rows keqb klt I s0 m rows in
    find m' k = match of_grain keqb k rows with
                | [] => find m k
                | xs => Some (fst (row_by_row I (first_or (find m k)) xs))
                end /\
    of_grain keqb k (combine (map fst rows) rs) = snd (row_by_row I (first_or (find m k)) (of_grain keqb k rows)).
  Proof using Hord Hbegin.
    induction rows as [|[k1 x] r IH]; intros m k; cbn [gl_rows]; [split; reflexivity|].
    destruct (gl_row keqb klt I s0 m (k1, x)) as [m1 q] eqn:Er. specialize (IH m1 k). destruct (gl_rows keqb klt I s0 m1 r) as [m2 qs].
    destruct IH as [IH1 IH2]. cbn [map fst combine of_grain]. destruct (keqb k1 k) eqn:Ek.
    - assert (E : k1 = k) by (apply (proj1 Hord); exact Ek). subst k1. pose proof (gl_row_same m k x) as [Hs Ho]. rewrite Er in Hs, Ho. cbn [fst snd] in Hs, Ho.
      rewrite Hs in IH1, IH2. cbn [first_or] in IH1, IH2. cbn [row_by_row]. destruct (one_row I (first_or (find m k)) x) as [e1 q1]. cbn [fst snd] in *. subst q1.
      split.
      + rewrite IH1. destruct (of_grain keqb k r) as [|y ys]; [reflexivity|]. destruct (row_by_row I e1 (y :: ys)). reflexivity.
      + rewrite IH2. destruct (row_by_row I e1 (of_grain keqb k r)). reflexivity.
    - assert (Hf : find m1 k = find m k).
      { assert (Hne : k <> k1) by (intros ->; rewrite keqb_refl in Ek; discriminate). pose proof (grain_isolated m k1 x k Hne) as G. rewrite Er in G. exact G. }
      rewrite Hf in IH1, IH2. split; assumption.
  Qed.
  Theorem grain_on_its_own : forall rows k,
    let (m, rs) := gl_rows keqb klt I s0 [] rows in
    find m k = fst (on_its_own I s0 (of_grain keqb k rows)) /\
    of_grain keqb k (combine (map fst rows) rs) = snd (on_its_own I s0 (of_grain keqb k rows)).
  Proof using Hord Hbegin.
    intros rows k. pose proof (gl_rows_grain rows [] k) as H. destruct (gl_rows keqb klt I s0 [] rows) as [m rs]. destruct H as [H1 H2].
    cbn [first_or k_find m_find] in *. unfold on_its_own. destruct (of_grain keqb k rows) as [|x xs]; cbn [first_or] in *; [split; assumption|].
    destruct (row_by_row I (fst (begin_training I (est_new s0))) (x :: xs)). split; assumption.
  Qed.
End Grains.

(** A row that is accepted: as in M_Grain. *)
Section Same.
  Context {K S In Tr : Type}.
  Variables keqb klt : K -> K -> bool.
  Hypothesis Hord : key_order keqb klt.
  Variable I : impl S In Tr.
  Variable s0 : S.
  Theorem gl_row_ge : forall m k x,
    match snd (keyed_exec keqb klt (ge_step I s0) m (k, x)) with
    | Ok m2 => snd (gl_row keqb klt I s0 m (k, x)) = Ok tt /\ forall k', k_find keqb (fst (gl_row keqb klt I s0 m (k, x))) k' = k_find keqb m2 k'
    | Throw y => snd (gl_row keqb klt I s0 m (k, x)) = Throw y
    | UB => snd (gl_row keqb klt I s0 m (k, x)) = UB
    end.
  Proof using Hord.
    intros m k x. unfold keyed_exec, ge_step, gl_row. cbn [fst snd].
    destruct (k_find keqb m k) as [e|] eqn:Hf; cbn [bind].
    - unfold gl_run. destruct (e_state e) eqn:Es; cbn [bind];
        try (split; [reflexivity|]; intros k'; cbn [fst]; rewrite (find_set _ _ Hord); destruct (keqb k k') eqn:Ek; [apply (proj1 Hord) in Ek; subst k'; exact Hf|reflexivity]).
      destruct (fit I e (Some [x])) as [e' [f|y|]]; cbn [bind]; try reflexivity.
      destruct f; cbn [bind]; try reflexivity; (split; [reflexivity|intros k'; reflexivity]).
    - destruct (begin_training I (est_new s0)) as [e [u|y|]]; cbn [bind]; try reflexivity.
      unfold gl_run. destruct (e_state e) eqn:Es; cbn [bind]; try (split; [reflexivity|intros k'; reflexivity]).
      destruct (fit I e (Some [x])) as [e' [f|y|]]; cbn [bind]; try reflexivity.
      destruct f; cbn [bind]; try reflexivity; (split; [reflexivity|intros k'; cbn [fst]; rewrite !(find_set _ _ Hord); destruct (keqb k k'); reflexivity]).
  Qed.
End Same.
