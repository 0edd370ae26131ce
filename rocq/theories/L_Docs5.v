(** Vectors: the components are the known terms of the document. *)
From Flocq Require Import Core.Core IEEE754.BinarySingleNaN.
From Verif Require Import Base L_List M_Estimator M_Stats S_Stats L_Estimator L_Stats L_Stats2 L_Stats3 M_String M_Text
  M_Grain M_Scale M_Encoders L_Encoders M_Docs S_Docs L_Docs L_Docs2 L_Docs3.
Open Scope Z_scope.

Lemma infer_terms_bytes re c doc terms : bytes_ok doc = true -> infer_terms re c doc = Ok terms ->
  Forall (fun t => bytes_ok t = true) terms.
Proof.
  intros H. unfold infer_terms. destruct (decorate c doc) as [s| |] eqn:Es; cbn [bind]; try discriminate.
  destruct (parse_func re c s) as [rs| |] eqn:Er; cbn [bind]; try discriminate. intro E. injection E as <-.
  apply Forall_forall. intros t Ht. apply in_map_iff in Ht. destruct Ht as (r & <- & _). apply sub_bytes.
  revert Es. unfold decorate. set (d := if tc_lower c then to_lower doc else doc).
  assert (Hd : bytes_ok d = true) by (unfold d; destruct (tc_lower c); auto using lower_bytes).
  destruct (tc_analyzer c).
  - destruct (tc_regex c); [destruct (negb _)|]; intro E; injection E as <-; auto. apply dedup_bytes, Hd.
  - intro E; injection E as <-. apply dedup_bytes, Hd.
  - intro E. eapply padding_bytes; [|exact E]. apply dedup_bytes, Hd.
Qed.

(** The counts of the terms of a document. *)
Lemma tf_counts_ok terms : Forall (fun t => bytes_ok t = true) terms ->
  NoDup (map fst (tf_counts terms)) /\ StronglySorted (fun a b : list Z * Z => range_lt (fst a) (fst b) = true) (tf_counts terms) /\
  forall t c, In (t, c) (tf_counts terms) <-> In t terms /\ c = u32 (occ str_eqb t terms).
Proof.
  intro H. destruct (counts_all range_lt (fun t => bytes_ok t = true) range_lt_irr range_lt_trans range_lt_total str_eqb str_eqb_eq terms H)
    as (S1 & _ & S3 & S4). fold (tf_counts terms) in S1, S3, S4.
  assert (N : NoDup (map fst (tf_counts terms))) by (apply (sorted_nodup range_lt range_lt_irr), csorted_keys, S1).
  split; [exact N|]. split; [exact S1|]. intros t c. split.
  - intro Hi. split; [apply S3; apply (in_map fst) in Hi; exact Hi|apply S4, Hi].
  - intros (Hi & ->). apply S3 in Hi. apply in_map_iff in Hi. destruct Hi as ((u, c) & E & Hc). cbn in E. subst u.
    rewrite <- (S4 _ _ Hc). exact Hc.
Qed.

(** Sorting by index. *)
Section ByIndex.
  Context {V : Type}.
  Notation lt2 := (fun a b : V * Z => snd a <? snd b).
  Lemma insert_key_sorted (x : V * Z) l : StronglySorted (fun a b : V * Z => snd a <= snd b) l ->
    StronglySorted (fun a b : V * Z => snd a <= snd b) (s_insert lt2 x l).
  Proof.
    induction 1 as [|y l Hs IH Hy]; [repeat constructor|]. cbn [s_insert]. rewrite Forall_forall in Hy.
    destruct (Z.ltb_spec (snd y) (snd x)).
    - constructor; [exact IH|]. apply Forall_forall. intros z Hz. apply (Permutation_in _ (s_insert_perm lt2 x l)) in Hz.
      destruct Hz as [<-|Hz]; [lia|auto].
    - constructor; [constructor; [exact Hs|apply Forall_forall; exact Hy]|]. apply Forall_forall. intros z [<-|Hz]; [lia|].
      specialize (Hy z Hz). lia.
  Qed.
  Lemma sort_key_sorted (l : list (V * Z)) : StronglySorted (fun a b : V * Z => snd a <= snd b) (s_sort lt2 l).
  Proof. induction l as [|x l IH]; [constructor|]. cbn [s_sort fold_right]. apply insert_key_sorted. exact IH. Qed.
  Lemma sort_key_strict (l : list (V * Z)) : NoDup (map snd l) -> StronglySorted Z.lt (map snd (s_sort lt2 l)).
  Proof.
    intro Hn. assert (N : NoDup (map snd (s_sort lt2 l))).
    { eapply Permutation_NoDup; [apply Permutation_map; symmetry; apply s_sort_perm|exact Hn]. }
    revert N. pose proof (sort_key_sorted l) as Hs. revert Hs. generalize (s_sort lt2 l). clear.
    induction 1 as [|x l Hs IH Hx]; intro N; [constructor|]. cbn [map] in *. inversion N; subst. constructor; [auto|].
    apply Forall_forall. intros i Hi. apply in_map_iff in Hi. destruct Hi as (y & <- & Hy). rewrite Forall_forall in Hx. specialize (Hx y Hy).
    assert (snd x <> snd y) by (intro E; apply H1; rewrite E; apply in_map; exact Hy). lia.
  Qed.
End ByIndex.

Section Vector.
  Variable re : list Z -> list Z -> nat -> option (nat * nat).
  Variable ln : binary_float 53 1024 -> binary_float 53 1024.
  Variable t : tfidf.
  Hypothesis Hkeys : NoDup (map fst (tf_labels t)).
  Hypothesis Hindex : NoDup (map snd (tf_labels t)).
  Hypothesis Hfreq : forall u, In u (map fst (tf_labels t)) -> In u (map fst (tf_freq t)).

  Lemma label_iff u i : m_find str_eqb (tf_labels t) u = Some i <-> In (u, i) (tf_labels t).
  Proof using Hkeys. split; intro H; [exact (L_Stats.m_find_in str_eqb str_eqb_eq _ _ _ H)| exact (m_find_nodup str_eqb str_eqb_eq _ _ _ Hkeys H)]. Qed.
  Lemma weight_ok u n : In u (map fst (tf_labels t)) -> exists w, weight ln t u n = Ok w.
  Proof using Hfreq.
    intro H. unfold weight. cbv zeta. destruct (tf_use_idf t); cbn [negb]; [|cbn [bind]; eexists; reflexivity].
    destruct (m_find str_eqb (tf_freq t) u) eqn:E; [cbn [bind]; eexists; reflexivity|].
    apply (m_find_none str_eqb str_eqb_eq) in E. exfalso. apply E, Hfreq, H.
  Qed.
  Lemma label_inj u u' i : In (u, i) (tf_labels t) -> In (u', i) (tf_labels t) -> u = u'.
  Proof using Hindex.
    clear Hkeys Hfreq. revert Hindex. induction (tf_labels t) as [|(x, j) l IH]; intros N H1 H2; [destruct H1|]. cbn [map snd] in N. inversion N; subst.
    assert (G : forall y, In (y, i) l -> In i (map snd l)) by (intros y Hy; exact (in_map snd _ _ Hy)).
    destruct H1 as [E1|H1], H2 as [E2|H2]; [congruence| | |auto].
    - injection E1 as -> ->. exfalso. eauto.
    - injection E2 as -> ->. exfalso. eauto.
  Qed.

  Lemma results_ok counts : NoDup (map fst counts) ->
    exists rs, tf_results ln t counts = Ok rs /\ NoDup (map fst rs) /\
      (forall i w, In (i, w) rs <-> exists u n, In (u, n) counts /\ In (u, i) (tf_labels t) /\ weight ln t u n = Ok w) /\
      rs = flat_map (fun e => match m_find str_eqb (tf_labels t) (fst e), weight ln t (fst e) (snd e) with
                              | Some i, Ok w => [(i, w)] | _, _ => [] end) counts.
  Proof using Hkeys Hindex Hfreq.
    induction counts as [|(u, n) counts IH]; intro N.
    - exists []. cbn. repeat split; auto; [constructor|intros []|]. intros (? & ? & [] & _).
    - cbn [map fst] in N. inversion N; subst. destruct (IH H2) as (rs & E & Nr & Hr & Ef). cbn [tf_results].
      cbn [flat_map fst snd]. destruct (m_find str_eqb (tf_labels t) u) as [i|] eqn:Em.
      + apply label_iff in Em. destruct (weight_ok u n) as (w & Hw); [apply (in_map fst) in Em; exact Em|]. rewrite Hw. cbn [bind].
        rewrite E. cbn [bind]. exists ((i, w) :: rs). split; [reflexivity|]. split; [|split; [|cbn [app]; congruence]].
        * cbn [map fst]. constructor; [|exact Nr]. intro Hi. apply in_map_iff in Hi. destruct Hi as ((j, w') & Ej & Hi). cbn in Ej. subst j.
          apply Hr in Hi. destruct Hi as (u' & n' & Hc & Hl & _). assert (u' = u) by (eapply label_inj; eassumption). subst u'.
          apply H1. apply (in_map fst) in Hc. exact Hc.
        * intros j v. cbn [In]. rewrite Hr. split.
          -- intros [Hj|(u' & n' & Hc & Hl & Hv)]; [injection Hj as -> ->; exists u, n; auto|exists u', n'; auto].
          -- intros (u' & n' & [Hc|Hc] & Hl & Hv); [|right; exists u', n'; auto]. injection Hc as -> ->. left.
             rewrite Hw in Hv. injection Hv as ->. f_equal. apply (nodup_key (tf_labels t) u'); auto.
      + exists rs. split; [exact E|]. split; [exact Nr|]. split; [|exact Ef]. intros j v. rewrite Hr. split.
        * intros (u' & n' & Hc & Hl & Hv). exists u', n'. cbn; auto.
        * intros (u' & n' & [Hc|Hc] & Hl & Hv); [|exists u', n'; auto]. injection Hc as -> ->. apply label_iff in Hl. congruence.
  Qed.

  (** The number of components. *)
  Lemma results_length rs : NoDup (map fst rs) -> (forall i (w : float32), In (i, w) rs -> exists u, In (u, i) (tf_labels t)) ->
    (length rs <= length (tf_labels t))%nat.
  Proof using Type.
    clear. intros N H. rewrite <- (map_length fst), <- (map_length snd (tf_labels t)). apply NoDup_incl_length; [exact N|].
    intros i Hi. apply in_map_iff in Hi. destruct Hi as ((j, w) & E & Hi). cbn in E. subst j. apply H in Hi. destruct Hi as (u & Hu).
    apply (in_map snd) in Hu. exact Hu.
  Qed.

  Lemma execute_ok doc terms : bytes_ok doc = true -> infer_terms re (tf_text t) doc = Ok terms ->
    exists rs, tf_results ln t (tf_counts terms) = Ok rs /\
      (forall i w, In (i, w) rs <-> exists u, In u terms /\ In (u, i) (tf_labels t) /\ weight ln t u (u32 (occ str_eqb u terms)) = Ok w) /\
      ((exists u, In u terms /\ In u (map fst (tf_labels t))) ->
        exists v, tf_execute re ln t doc = Ok v /\ sp_elements v = Z.of_nat (length (tf_labels t)) /\
          StronglySorted Z.lt (map snd (sp_values v)) /\ (length (sp_values v) <= length (tf_labels t))%nat /\ sp_values v <> [] /\
          forall x i, In (x, i) (sp_values v) <-> exists w, In (i, w) rs /\ x = fdiv w (tf_norm_of t rs)) /\
      ((forall u, In u terms -> ~ In u (map fst (tf_labels t))) -> tf_execute re ln t doc = Throw InvalidArgument).
  Proof using Hkeys Hindex Hfreq.
    intros Hb Ht. destruct (tf_counts_ok terms (infer_terms_bytes _ _ _ _ Hb Ht)) as (Nc & _ & Hc).
    destruct (results_ok (tf_counts terms) Nc) as (rs & Er & Nr & Hr & _). exists rs. split; [exact Er|].
    assert (Hr' : forall i w, In (i, w) rs <-> exists u, In u terms /\ In (u, i) (tf_labels t) /\ weight ln t u (u32 (occ str_eqb u terms)) = Ok w).
    { intros i w. rewrite Hr. split.
      - intros (u & n & H1 & H2 & H3). apply Hc in H1. destruct H1 as (H1 & ->). exists u. auto.
      - intros (u & H1 & H2 & H3). exists u, (u32 (occ str_eqb u terms)). rewrite Hc. auto. }
    split; [exact Hr'|].
    assert (Hlen : (length rs <= length (tf_labels t))%nat).
    { apply results_length; [exact Nr|]. intros i w H. apply Hr' in H. destruct H as (u & _ & H & _). eauto. }
    unfold tf_execute. rewrite Ht. cbn [bind]. rewrite Er. cbn [bind]. cbv zeta.
    pose (values := map (fun r : Z * float32 => (fdiv (snd r) (tf_norm_of t rs), fst r)) rs). fold values.
    pose proof (s_sort_perm (fun a b : float32 * Z => snd a <? snd b) values) as Hp.
    assert (Nv : NoDup (map snd values)) by (unfold values; rewrite map_map; exact Nr).
    pose proof (sort_key_strict values Nv) as Hs.
    pose (sorted := s_sort (fun a b : float32 * Z => snd a <? snd b) values). fold sorted. fold sorted in Hp, Hs.
    assert (Hl : length sorted = length rs) by (rewrite (Permutation_length Hp); unfold values; apply map_length).
    destruct (sparse_make_spec (Z.of_nat (length (tf_labels t))) sorted) as (Sok & Sno); [lia|].
    split.
    - intros (u & Hu & Hlab). assert (Hne : rs <> []).
      { apply in_map_iff in Hlab. destruct Hlab as ((u', i) & E & Hlab). cbn in E. subst u'.
        destruct (weight_ok u (u32 (occ str_eqb u terms))) as (w & Hw); [apply (in_map fst) in Hlab; exact Hlab|].
        assert (Hin : In (i, w) rs) by (apply Hr'; eauto). intros ->. destruct Hin. }
      assert (Hne' : sorted <> []) by (intros E; rewrite E in Hl; destruct rs; [apply Hne; reflexivity|discriminate]).
      exists (mkSparse (Z.of_nat (length (tf_labels t))) sorted). split; [apply Sok; repeat split; auto; lia|].
      cbn [sp_elements sp_values]. split; [reflexivity|]. split; [exact Hs|]. split; [lia|]. split; [exact Hne'|]. intros x i. split.
      + intro H. apply (Permutation_in _ Hp) in H. unfold values in H. apply in_map_iff in H. destruct H as ((j, w) & E & H). cbn [fst snd] in E.
        injection E as <- <-. exists w. auto.
      + intros (w & H & ->). apply (Permutation_in _ (Permutation_sym Hp)). unfold values. apply in_map_iff. exists (i, w). auto.
    - intros Hno. apply Sno. intros (Hne & _). apply Hne. assert (E : rs = []).
      { destruct rs as [|(i, w) rs]; [reflexivity|]. exfalso. destruct (proj1 (Hr' i w) (or_introl eq_refl)) as (u & Hu & Hl' & _).
        apply (Hno u Hu). apply (in_map fst) in Hl'. exact Hl'. }
      destruct sorted; [reflexivity|]. rewrite E in Hl. discriminate.
  Qed.
End Vector.
