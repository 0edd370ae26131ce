(** Trained statistics meet what the vectors need; an instance of nth_element. *)
From Coq Require Import Reals Lra.
From Flocq Require Import Core.Core IEEE754.BinarySingleNaN.
From Verif Require Import Base L_List M_Estimator M_Stats S_Stats L_Stats M_Scale S_Scale M_Encoders M_Grain M_Docs S_Docs
  L_Docs L_Docs2 L_Docs3 L_Docs4 L_Docs6 L_Docs7.
Open Scope Z_scope.

Definition descending (l : list Z) (_ : nat) : list Z := s_sort (fun a b => b <? a) l.
Lemma descending_ok : nth_element_ok descending.
Proof.
  intros l i Hi. unfold descending.
  assert (Hs : StronglySorted (fun a b => b <= a) (s_sort (fun a b => b <? a) l)).
  { clear. induction l as [|x l IH]; [constructor|]. cbn [s_sort fold_right]. fold (s_sort (fun a b => b <? a) l). revert IH.
    generalize (s_sort (fun a b => b <? a) l). intros m Hm. induction Hm as [|y m Hm IH Hy]; [repeat constructor|]. cbn [s_insert].
    rewrite Forall_forall in Hy. destruct (Z.ltb_spec x y).
    - constructor; [exact IH|]. apply Forall_forall. intros z Hz.
      apply (Permutation_in _ (s_insert_perm (fun a b => b <? a) x m)) in Hz. destruct Hz as [<-|Hz]; [lia|auto].
    - constructor; [constructor; [exact Hm|apply Forall_forall; exact Hy]|]. apply Forall_forall. intros z [<-|Hz]; [lia|]. specialize (Hy z Hz). lia. }
  pose proof (s_sort_perm (fun a b => b <? a) l) as Hp. split; [exact Hp|].
  assert (Hmono : forall m, StronglySorted (fun a b => b <= a) m -> forall j k, (j < k < length m)%nat -> nth k m 0 <= nth j m 0).
  { clear. induction 1 as [|y m Hm IH Hy]; intros j k Hk; cbn [length] in Hk; [lia|]. rewrite Forall_forall in Hy.
    destruct k as [|k]; [lia|]. destruct j as [|j]; cbn [nth]; [apply Hy, nth_In; lia|apply IH; lia]. }
  intros j Hj. pose proof (Permutation_length Hp) as E. split; intro H; apply Hmono; auto; lia.
Qed.

Section Stats.
  Variable re : list Z -> list Z -> nat -> option (nat * nat).
  Variable nthe : list Z -> nat -> list Z.
  Hypothesis Hnthe : nth_element_ok nthe.
  Variable perm : list (list Z * Z) -> list (list Z * Z).
  Hypothesis Hperm : forall h, Permutation (perm h) h.
  Variable d : dcfg.
  Hypothesis Hok : dcfg_ok d = true.
  Hypothesis Hmn : is_finite (dc_min d) = true.
  Hypothesis Hmx : is_finite (dc_max d) = true.
  Notation vocabulary := (match dc_vocabulary d with Some v => v | None => [] end).

  Theorem trained_stats mx bs corpus s : proper_training mx bs -> documents_ok (items mx bs) ->
    Z.of_nat (length (items mx bs)) < 2 ^ 32 -> NoDup (map fst vocabulary) ->
    Permutation (map snd vocabulary) (map Z.of_nat (seq 0 (length vocabulary))) ->
    mapM (train_terms re (dc_text d)) (items mx bs) = Ok corpus ->
    train_docs re nthe perm d mx bs = Ok (Some s) ->
    Z.of_nat (length vocabulary + length (ds_terms s)) <= 2 ^ 32 ->
    NoDup (map fst (ds_terms s)) /\ NoDup (map (fun e => snd (snd e)) (ds_terms s)) /\
    (forall u df i, In (u, (df, i)) (ds_terms s) -> 1 <= df <= ds_total s) /\ ds_total s = Z.of_nat (length (items mx bs)).
  Proof using Hnthe Hperm Hok Hmn Hmx.
    intros Hp Hd Hl Hv Hdense Hm Et Hfit.
    destruct (docs_trained re nthe perm Hnthe Hperm d Hok Hmn Hmx mx bs corpus Hp Hd Hl Hv Hm) as (Hyes & Hno).
    assert (Hex : exists t, selected corpus (dc_min d) (dc_max d) (dc_topk d) t).
    { destruct (Classical_Prop.classic (exists t, selected corpus (dc_min d) (dc_max d) (dc_topk d) t)) as [H|H]; [exact H|].
      rewrite Hno in Et; [discriminate|]. intros t Ht. apply H. exists t. exact Ht. }
    destruct (Hyes Hex) as (s' & E & Etot & N & Hin & Hidx). assert (s' = s) by congruence. subst s'.
    split; [exact N|]. split; [apply Hidx; assumption|]. split; [|exact Etot].
    destruct (corpus_counts re d (items mx bs) corpus Hd Hm Hl) as (Hlen & _).
    intros u df i H. apply Hin in H. destruct H as (Hs & -> & _). rewrite Etot, <- Hlen. pose proof (documents_bound corpus u).
    pose proof (documents_pos corpus u (proj1 (proj1 Hs))). lia.
  Qed.
End Stats.
