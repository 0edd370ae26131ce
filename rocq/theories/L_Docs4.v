(** Document statistics: the trained map. *)
From Coq Require Import Reals Lra.
From Flocq Require Import Core.Core IEEE754.BinarySingleNaN.
From Verif Require Import Base L_List M_Estimator M_Stats S_Stats L_Estimator L_Stats L_Stats2 L_Stats3 M_String M_Text
  M_Grain M_Scale S_Scale L_Float M_Docs S_Docs L_Docs L_Docs2 L_Docs3.
Open Scope Z_scope.

Lemma number_unique {T} (P Q : T -> Prop) n m : number_of P n -> number_of Q m -> (forall x, P x <-> Q x) -> n = m.
Proof.
  intros (l & Nl & Hl & <-) (l' & Nl' & Hl' & <-) H. apply Permutation_length. apply NoDup_Permutation; auto.
  intro x. rewrite Hl, Hl'. apply H.
Qed.

(** *** The range of document frequencies. *)
Lemma fone_R : B2R fone = 1%R /\ is_finite fone = true.
Proof. apply (@of_int_exact 24 128 _ _ 1). cbn. lia. Qed.
Lemma fzero_R : B2R (fzero : float32) = 0%R /\ is_finite (fzero : float32) = true.
Proof. split; reflexivity. Qed.

Lemma count_R z : 0 <= z < 2 ^ 32 -> B2R (of_int z : float32) = r32 (IZR z) /\ is_finite (of_int z : float32) = true.
Proof. intro H. apply (@of_int_round 24 128 _ _ z 32); lia. Qed.

Lemma share_ok c n : (0 <= c <= n)%Z -> (0 < n < 2 ^ 32)%Z ->
  is_finite (fdiv (of_int c) (of_int n) : float32) = true /\
  B2R (fdiv (of_int c) (of_int n) : float32) = r32 (r32 (IZR c) / r32 (IZR n)) /\
  (0 <= r32 (r32 (IZR c) / r32 (IZR n)) <= 1)%R.
Proof.
  intros Hc Hn. destruct (count_R c) as (C1 & C2); [lia|]. destruct (count_R n) as (N1 & N2); [lia|].
  assert (H0 : (0 <= B2R (of_int c : float32) <= B2R (of_int n : float32))%R).
  { rewrite C1, N1. split.
    - rewrite <- (@rnd_0 24 128 _). apply (@rnd_mono 24 128 _). apply IZR_le. lia.
    - apply (@rnd_mono 24 128 _). apply IZR_le. lia. }
  assert (Hs : (1 <= B2R (of_int n : float32))%R).
  { rewrite N1. rewrite <- (@rnd_1 24 128 _ _). apply (@rnd_mono 24 128 _). apply (IZR_le 1). lia. }
  destruct (@div_unit 24 128 _ _ (of_int c) (of_int n) C2) as (D1 & D2 & D3); [lra| |].
  { rewrite !Rabs_right; lra. }
  rewrite C1, N1 in D2. split; [exact D1|]. split; [exact D2|].
  destruct (@div_pos 24 128 _ _ (of_int c) (of_int n) C2 H0) as (_ & D4 & _); [lra|]. rewrite D2 in D4. exact D4.
Qed.

Lemma ltb_R (x y : float32) : is_finite x = true -> is_finite y = true -> Bltb x y = true <-> (B2R x < B2R y)%R.
Proof.
  intros Hx Hy. rewrite (Bltb_correct 24 128 x y Hx Hy). destruct (Rlt_bool_spec (B2R x) (B2R y)); split; intro H0; try lra; auto; discriminate.
Qed.
Lemma df_keep_ok (mn mx : float32) c n : is_finite mn = true -> is_finite mx = true -> (0 <= c <= n)%Z -> (0 < n < 2 ^ 32)%Z ->
  df_keep mn mx (of_int n) c = true <-> (B2R mn <= r32 (r32 (IZR c) / r32 (IZR n)) <= B2R mx)%R.
Proof.
  intros Hmn Hmx Hc Hn. destruct (share_ok c n Hc Hn) as (F & E & _). unfold df_keep. cbv zeta.
  rewrite negb_true_iff, orb_false_iff, <- !not_true_iff_false, !ltb_R by auto. rewrite E. lra.
Qed.
Lemma df_skip (mn mx : float32) c n : is_finite mn = true -> is_finite mx = true -> (0 <= c <= n)%Z -> (0 < n < 2 ^ 32)%Z ->
  Bltb mn fzero = false -> Bltb fone mx = false -> Bltb fzero mn || Bltb mx fone = false ->
  (B2R mn <= r32 (r32 (IZR c) / r32 (IZR n)) <= B2R mx)%R.
Proof.
  intros Hmn Hmx Hc Hn H1 H2 H3. destruct (share_ok c n Hc Hn) as (_ & _ & Hs). destruct fone_R as (O1 & O2), fzero_R as (Z1 & Z2).
  apply orb_false_iff in H3. destruct H3 as (H3 & H4). rewrite <- not_true_iff_false, ltb_R in H1, H2, H3, H4 by auto.
  rewrite O1 in *. rewrite Z1 in *. lra.
Qed.

Section Train.
  Variable nthe : list Z -> nat -> list Z.
  Hypothesis Hnthe : nth_element_ok nthe.
  Variables mn mx : float32.
  Hypothesis Hmn : is_finite mn = true.
  Hypothesis Hmx : is_finite mx = true.
  Hypothesis Hmn0 : Bltb mn fzero = false.
  Hypothesis Hmx1 : Bltb fone mx = false.
  Variable corpus : list (list (list Z)).
  Hypothesis Hcorpus : 0 < Z.of_nat (length corpus) < 2 ^ 32.
  Notation total := (Z.of_nat (length corpus)).
  Notation docs_with := (documents_with corpus).

  (** The counts: each term that occurs, with its number of documents. *)
  Definition counts_ok (h : list (list Z * Z)) : Prop :=
    NoDup (map fst h) /\ forall t c, In (t, c) h <-> occurs corpus t /\ c = docs_with t.

  Lemma documents_bound t : 0 <= docs_with t <= total.
  Proof using Type. clear. unfold documents_with. pose proof (filter_length_le (fun d => existsb (str_eqb t) d) corpus). lia. Qed.
  Lemma documents_pos t : occurs corpus t -> 0 < docs_with t.
  Proof using Type.
    clear. intros (d & Hd & Ht). unfold documents_with. assert (Hi : In d (filter (fun d => existsb (str_eqb t) d) corpus)).
    { apply filter_In. split; [exact Hd|]. apply existsb_exists. exists t. split; [exact Ht|apply str_eqb_refl]. }
    destruct (filter (fun d0 => existsb (str_eqb t) d0) corpus); [destruct Hi|]. cbn [length]. lia.
  Qed.

  Lemma prune_df_ok h : counts_ok h -> NoDup (map fst (prune_df mn mx total h)) /\
    forall t c, In (t, c) (prune_df mn mx total h) <-> candidate corpus mn mx t /\ c = docs_with t.
  Proof using Hmn Hmx Hmn0 Hmx1 Hcorpus.
    intros (Hn & Hh). unfold prune_df. destruct (Bltb fzero mn || Bltb mx fone) eqn:E.
    - split; [apply nodup_map_filter, Hn|]. intros t c. rewrite filter_In, Hh. cbn [snd]. unfold candidate, frequent, share. split.
      + intros ((Ho & ->) & Hk). apply df_keep_ok in Hk; auto using documents_bound.
      + intros ((Ho & Hk) & ->). split; [auto|]. apply df_keep_ok; auto using documents_bound.
    - split; [exact Hn|]. intros t c. rewrite Hh. unfold candidate, frequent, share. split; [|tauto].
      intros (Ho & ->). split; [|reflexivity]. split; [exact Ho|]. apply df_skip; auto using documents_bound.
  Qed.

  Lemma prune_ok topk h : topk <> Some 0%nat -> counts_ok h ->
    NoDup (map fst (prune nthe mn mx total topk h)) /\
    forall t c, In (t, c) (prune nthe mn mx total topk h) <-> selected corpus mn mx topk t /\ c = docs_with t.
  Proof using Hnthe Hmn Hmx Hmn0 Hmx1 Hcorpus.
    intros Hk Hh. destruct (prune_df_ok h Hh) as (Nd & Hd). unfold prune. cbv zeta. destruct topk as [k|].
    - destruct (prune_top_spec nthe Hnthe k (prune_df mn mx total h)) as (keep & -> & Hkeep); [|exact Nd|].
      { destruct k; [congruence|lia]. }
      set (h' := prune_df mn mx total h) in *. split; [apply nodup_map_filter, Nd|]. intros t c. rewrite filter_In, Hd.
      assert (Hnum : forall t, candidate corpus mn mx t ->
        number_of (fun u => candidate corpus mn mx u /\ better corpus u t) (cnt (fun f => beats f (t, docs_with t)) h')).
      { clear t c. intros t Ht. exists (map fst (filter (fun f => beats f (t, docs_with t)) h')). split; [apply nodup_map_filter, Nd|].
        split; [|rewrite map_length; reflexivity]. intro u. rewrite in_map_iff. split.
        - intros ((u', c) & E & Hf). cbn in E. subst u'. apply filter_In in Hf. destruct Hf as (Hf & Hb). apply Hd in Hf.
          destruct Hf as (Hu & ->). split; [exact Hu|]. unfold beats in Hb. cbn [fst snd] in Hb. unfold better. apply orb_true_iff in Hb.
          destruct Hb as [Hb|Hb]; [left; lia|right]. apply andb_true_iff in Hb. split; [lia|apply Hb].
        - intros (Hu & Hb). exists (u, docs_with u). split; [reflexivity|]. apply filter_In. split; [apply Hd; auto|].
          unfold beats. cbn [fst snd]. destruct Hb as [Hb|(Hb & Hl)]; apply orb_true_iff; [left; lia|right].
          rewrite Hl. apply andb_true_iff. split; [lia|reflexivity]. }
      unfold selected. split.
      + intros ((Ht & ->) & Hb). split; [|reflexivity]. split; [exact Ht|]. eexists. split; [apply Hnum, Ht|].
        apply (Hkeep (t, docs_with t)); auto. apply Hd. auto.
      + intros ((Ht & n & Hn & Hlt) & ->). split; [auto|]. apply (Hkeep (t, docs_with t)); [apply Hd; auto|].
        rewrite (number_unique _ _ _ _ (Hnum t Ht) Hn); [exact Hlt|tauto].
    - split; [exact Nd|]. intros t c. rewrite Hd. unfold selected. tauto.
  Qed.

  Lemma merge_ok h index : NoDup (map fst h) -> NoDup (map fst index) -> (forall t, In t (map fst h) -> In t (map fst index)) ->
    (forall t c, In (t, c) h -> c <> 0) ->
    exists m, merge h index = Ok m /\ map fst m = map fst h /\ forall t c i, In (t, (c, i)) m <-> In (t, c) h /\ In (t, i) index.
  Proof using Type.
    clear. intros Nh Ni Hin Hc. unfold merge. induction h as [|(t, c) h IH].
    - exists []. cbn. repeat split; auto; tauto.
    - cbn [mapM fst snd]. cbn [map fst] in Nh. inversion Nh; subst.
      destruct IH as (m & E & Ek & Em); auto; [intros u Hu; apply Hin; right; exact Hu|intros u d Hu; apply (Hc u); right; exact Hu|].
      destruct (m_find str_eqb index t) as [i|] eqn:Ef.
      2:{ apply (m_find_none str_eqb str_eqb_eq) in Ef. exfalso. apply Ef, Hin. left. reflexivity. }
      destruct (Z.eqb_spec c 0) as [->|_]; [exfalso; apply (Hc t 0); [left|]; reflexivity|]. cbn [bind]. rewrite E. cbn [bind].
      exists ((t, (c, i)) :: m). split; [reflexivity|]. split; [cbn [map fst]; congruence|].
      intros u d j. cbn [In]. rewrite Em. split.
      + intros [H|(Q1 & H3)]; [injection H as -> -> ->|auto]. split; [auto|]. apply (m_find_in str_eqb str_eqb_eq). exact Ef.
      + intros ([H|H] & H3); [injection H as -> ->|auto]. left. f_equal. f_equal.
        apply (m_find_nodup str_eqb str_eqb_eq) in H3; auto. congruence.
  Qed.

  Lemma complete_ok perm topk vocabulary h : (forall l : list (list Z * Z), Permutation (perm l) l) -> topk <> Some 0%nat ->
    NoDup (map fst vocabulary) -> counts_ok h -> (exists t, selected corpus mn mx topk t) ->
    exists s, doc_complete nthe perm mn mx topk vocabulary (h, total) = Ok s /\ ds_total s = total /\ NoDup (map fst (ds_terms s)) /\
      (forall t c i, In (t, (c, i)) (ds_terms s) <->
        selected corpus mn mx topk t /\ c = docs_with t /\ index_of vocabulary (selected corpus mn mx topk) t i) /\
      (Permutation (map snd vocabulary) (map Z.of_nat (seq 0 (length vocabulary))) ->
       Z.of_nat (length vocabulary + length (ds_terms s)) <= 2 ^ 32 -> NoDup (map (fun e => snd (snd e)) (ds_terms s))).
  Proof using Hnthe Hmn Hmx Hmn0 Hmx1 Hcorpus.
    intros Hp Hk Hv (Hn & Hh) (t0 & Ht0). assert (Hh' : counts_ok (perm h)).
    { split; [eapply Permutation_NoDup; [apply Permutation_map; symmetry; apply Hp|exact Hn]|]. intros t c. rewrite <- Hh.
      split; apply Permutation_in; [|symmetry]; apply Hp. }
    destruct (prune_ok topk (perm h) Hk Hh') as (Np & Hs). unfold doc_complete. cbv zeta. cbn [fst snd].
    set (pr := prune nthe mn mx total topk (perm h)) in *.
    destruct (index_map_spec _ str_eqb str_lt str_order pr vocabulary Np Hv) as (I1 & I2 & I3 & I4 & I5).
    set (index := create_index_map str_eqb str_lt pr vocabulary) in *.
    assert (Hkeys : forall t, In t (map fst pr) <-> selected corpus mn mx topk t).
    { intro t. rewrite in_map_iff. split.
      - intros ((u, c) & E & H). cbn in E. subst u. apply Hs in H. tauto.
      - intro H. exists (t, docs_with t). split; [reflexivity|]. apply Hs. auto. }
    destruct (merge_ok pr index Np I1) as (m & Em & Ek & Hm).
    { intros t Ht. apply I2. auto. }
    { intros t c Htc. apply Hs in Htc. destruct Htc as ((Ht & _) & ->). pose proof (documents_pos t (proj1 Ht)). lia. }
    rewrite Em. cbn [bind]. destruct m as [|e m].
    { exfalso. apply Hkeys in Ht0. rewrite <- Ek in Ht0. exact Ht0. }
    destruct (Z.eqb_spec total 0); [lia|]. exists (mkStats (e :: m) total). split; [reflexivity|]. cbn [ds_total ds_terms].
    split; [reflexivity|]. split; [rewrite Ek; exact Np|]. split.
    2:{ intros Hdense Hsize. assert (Hlen : (length index <= length vocabulary + length (e :: m))%nat).
      { rewrite <- (map_length fst index), <- (map_length fst (e :: m)), Ek, <- (map_length fst vocabulary), <- app_length.
        apply NoDup_incl_length; [exact I1|]. intros u Hu. apply in_app_iff. apply I2. exact Hu. }
      specialize (I5 Hdense ltac:(lia)). assert (Nix : NoDup (map snd index)).
      { eapply Permutation_NoDup; [symmetry; exact I5|]. apply FinFun.Injective_map_NoDup; [intros a b; apply Nat2Z.inj|apply seq_NoDup]. }
      assert (Nk : NoDup (map fst (e :: m))) by (rewrite Ek; exact Np).
      assert (Hin : forall e', In e' (e :: m) -> In (fst e', snd (snd e')) index).
      { intros (u, (a, b)) Hu. cbn [fst snd]. apply (Hm u a b). exact Hu. }
      revert Nk Hin Nix. generalize (e :: m). clear. intros l Nk Hin Nix. induction l as [|x l IH]; [constructor|]. cbn [map] in *.
      inversion Nk; subst. constructor; [|apply IH; auto; intros y Hy; apply Hin; right; exact Hy].
      intro Hi. apply in_map_iff in Hi. destruct Hi as (y & E & Hy). pose proof (Hin x (or_introl eq_refl)) as Hx. pose proof (Hin y (or_intror Hy)) as Hy'.
      rewrite E in Hy'. apply H1. replace (fst x) with (fst y); [apply in_map; exact Hy|]. revert Hx Hy' Nix. clear.
      generalize (fst x) (fst y) (snd (snd x)). clear. intros a b i H1 H2 N. induction index as [|(u, j) index IH]; [destruct H1|].
      cbn [map snd] in N. inversion N; subst. destruct H1 as [E1|H1], H2 as [E2|H2]; [congruence| | |auto].
      - injection E1 as -> ->. exfalso. apply H3. apply (in_map snd) in H2. exact H2.
      - injection E2 as -> ->. exfalso. apply H3. apply (in_map snd) in H1. exact H1. }
    intros t c i. rewrite Hm, Hs.
    assert (Hix : forall t i, selected corpus mn mx topk t -> In (t, i) index <-> index_of vocabulary (selected corpus mn mx topk) t i).
    { clear t c i. intros t i Ht. apply Hkeys in Ht. unfold index_of.
      destruct (in_dec (list_eq_dec Z.eq_dec) t (map fst vocabulary)) as [Hin|Hout].
      - apply in_map_iff in Hin. destruct Hin as ((u, j) & E & Hj). cbn in E. subst u. split.
        + intro H. left. rewrite (nodup_key index t i j I1 H (I3 _ _ Hj)). exact Hj.
        + intros [H|(H & _)]; [apply I3, H|]. exfalso. apply H. apply (in_map fst) in Hj. exact Hj.
      - pose proof (I4 t Ht Hout) as Hi.
        set (new := filter (fun x => negb (existsb (str_eqb x) (map fst vocabulary))) (map fst pr)) in Hi.
        set (fl := filter (fun x => str_lt x t) new) in Hi.
        assert (Hnum : number_of (fun u => selected corpus mn mx topk u /\ ~ In u (map fst vocabulary) /\ str_lt u t = true) (length fl)).
        { exists fl. split; [unfold fl, new; apply NoDup_filter, NoDup_filter, Np|]. split; [|reflexivity]. intro u.
          unfold fl, new. rewrite !filter_In, Hkeys, negb_true_iff, <- not_true_iff_false, existsb_exists. split.
          - intros ((H1 & H2) & H3). split; [exact H1|]. split; [|exact H3]. intro H. apply H2. exists u. split; [exact H|apply str_eqb_refl].
          - intros (H1 & H2 & H3). split; [|exact H3]. split; [exact H1|]. intros (x & Hx & E). apply str_eqb_eq in E. subst x. auto. }
        split.
        + intro H. right. split; [exact Hout|]. exists (length fl). split; [exact Hnum|].
          rewrite (nodup_key index t i _ I1 H Hi). f_equal. lia.
        + intros [H|(_ & q & H & ->)]; [exfalso; apply Hout; apply (in_map fst) in H; exact H|].
          rewrite (number_unique _ _ _ _ H Hnum) by tauto. rewrite <- Nat2Z.inj_add. exact Hi. }
    split.
    - intros ((H1 & H2) & H3). split; [exact H1|]. split; [exact H2|]. apply Hix; auto.
    - intros (H1 & H2 & H3). split; [auto|]. apply Hix; auto.
  Qed.
  Lemma complete_none perm topk vocabulary h : (forall l : list (list Z * Z), Permutation (perm l) l) -> topk <> Some 0%nat ->
    counts_ok h -> (forall t, ~ selected corpus mn mx topk t) ->
    doc_complete nthe perm mn mx topk vocabulary (h, total) = Throw InvalidArgument.
  Proof using Hnthe Hmn Hmx Hmn0 Hmx1 Hcorpus.
    intros Hp Hk (Hn & Hh) Hno. assert (Hh' : counts_ok (perm h)).
    { split; [eapply Permutation_NoDup; [apply Permutation_map; symmetry; apply Hp|exact Hn]|]. intros t c. rewrite <- Hh.
      split; apply Permutation_in; [|symmetry]; apply Hp. }
    destruct (prune_ok topk (perm h) Hk Hh') as (Np & Hs). unfold doc_complete. cbv zeta. cbn [fst snd].
    destruct (prune nthe mn mx total topk (perm h)) as [|(t, c) l]; [reflexivity|]. exfalso. apply (Hno t). apply (Hs t c). left. reflexivity.
  Qed.
End Train.

Section Trained.
  Variables (re : list Z -> list Z -> nat -> option (nat * nat)) (nthe : list Z -> nat -> list Z) (perm : list (list Z * Z) -> list (list Z * Z)).
  Hypothesis Hnthe : nth_element_ok nthe.
  Hypothesis Hperm : forall l, Permutation (perm l) l.
  Variable d : dcfg.
  Hypothesis Hok : dcfg_ok d = true.
  Hypothesis Hmn : is_finite (dc_min d) = true.
  Hypothesis Hmx : is_finite (dc_max d) = true.

  Lemma cfg_bounds : Bltb (dc_min d) fzero = false /\ Bltb fone (dc_max d) = false /\ dc_topk d <> Some 0%nat.
  Proof using Hok.
    clear -Hok. unfold dcfg_ok in Hok. rewrite !andb_true_iff, !negb_true_iff, !orb_false_iff in Hok.
    destruct Hok as (((((((_ & Hk) & (H1 & _)) & (_ & H2)) & _) & _) & _) & _). repeat split; auto.
    intro E. rewrite E in Hk. discriminate.
  Qed.

  Lemma corpus_counts docs corpus : documents_ok docs -> mapM (train_terms re (dc_text d)) docs = Ok corpus ->
    Z.of_nat (length docs) < 2 ^ 32 ->
    length corpus = length docs /\
    exists h, foldM (doc_fit re (dc_text d)) ([], 0) docs = Ok (h, Z.of_nat (length docs)) /\ counts_ok corpus h.
  Proof using Type.
    clear. intros Hd Hm Hl. destruct (docs_fit re (dc_text d) docs corpus Hd Hm [] [] 0) as (sets & h & F & I & E); [|lia|lia|].
    { split; [constructor|]. split; [cbn; tauto|]. cbn. discriminate. }
    assert (Hlen : length corpus = length docs).
    { clear -Hm. revert corpus Hm. induction docs as [|x docs IH]; intros corpus Hm; cbn [mapM] in Hm; [injection Hm as <-; reflexivity|].
      destruct (train_terms re (dc_text d) x); cbn [bind] in Hm; try discriminate.
      destruct (mapM (train_terms re (dc_text d)) docs); cbn [bind] in Hm; try discriminate. injection Hm as <-.
      cbn [length]. f_equal. apply IH. reflexivity. }
    split; [exact Hlen|]. exists h. split; [exact E|]. cbn [app] in I. destruct I as (N & K & C). split; [exact N|].
    assert (B : forall t, u32 (documents_with corpus t) = documents_with corpus t).
    { intro t. pose proof (documents_bound corpus t). unfold u32. apply Z.mod_small. lia. }
    intros t c. split.
    - intro H. split; [apply (in_documents _ _ F), K; apply (in_map fst) in H; exact H|].
      apply (m_find_nodup str_eqb str_eqb_eq) in H; auto. apply C in H. rewrite H, (occ_documents _ _ F). apply B.
    - intros (Ho & ->). apply (in_documents _ _ F), K in Ho. apply in_map_iff in Ho. destruct Ho as ((u, c) & E' & Hu). cbn in E'. subst u.
      pose proof (m_find_nodup str_eqb str_eqb_eq _ _ _ N Hu) as Hf. apply C in Hf. rewrite (occ_documents _ _ F), B in Hf. subst c. exact Hu.
  Qed.

  Notation vocabulary := (match dc_vocabulary d with Some v => v | None => [] end).
  Theorem docs_trained mx bs corpus : proper_training mx bs -> documents_ok (items mx bs) ->
    Z.of_nat (length (items mx bs)) < 2 ^ 32 -> NoDup (map fst vocabulary) ->
    mapM (train_terms re (dc_text d)) (items mx bs) = Ok corpus ->
    let sel := selected corpus (dc_min d) (dc_max d) (dc_topk d) in
    ((exists t, sel t) -> exists s, train_docs re nthe perm d mx bs = Ok (Some s) /\ ds_total s = Z.of_nat (length (items mx bs)) /\
       NoDup (map fst (ds_terms s)) /\
       (forall t c i, In (t, (c, i)) (ds_terms s) <-> sel t /\ c = documents_with corpus t /\ index_of vocabulary sel t i) /\
       (Permutation (map snd vocabulary) (map Z.of_nat (seq 0 (length vocabulary))) ->
        Z.of_nat (length vocabulary + length (ds_terms s)) <= 2 ^ 32 -> NoDup (map (fun e => snd (snd e)) (ds_terms s)))) /\
    ((forall t, ~ sel t) -> train_docs re nthe perm d mx bs = Throw InvalidArgument).
  Proof using Hnthe Hperm Hok Hmn Hmx.
    intros Hp Hd Hl Hv Hm sel. destruct (corpus_counts _ corpus Hd Hm Hl) as (Hlen & h & E & Hh).
    destruct cfg_bounds as (B1 & B2 & B3). unfold train_docs. rewrite Hok. unfold doc_policy. rewrite trained_simple by exact Hp.
    rewrite E. cbn [bind]. rewrite <- Hlen in *.
    assert (Hcorp : (exists t, sel t) -> 0 < Z.of_nat (length corpus) < 2 ^ 32).
    { intros (t & (((x & Hx & _) & _) & _)). destruct corpus; [destruct Hx|]. cbn [length] in *. lia. }
    split.
    - intros Hs. destruct (complete_ok nthe Hnthe (dc_min d) (dc_max d) Hmn Hmx B1 B2 corpus (Hcorp Hs) perm (dc_topk d) vocabulary h Hperm B3 Hv Hh Hs)
        as (s & -> & S2 & S3 & S4 & S5). cbn [bind]. exists s. auto.
    - intros Hno. destruct corpus as [|x corpus].
      + destruct h as [|(t, c) h]; [|exfalso].
        * assert (P0 : perm [] = []) by (apply Permutation_nil; symmetry; apply Hperm).
          unfold doc_complete. cbv zeta. cbn [fst snd]. rewrite P0.
          assert (Pn : forall q, prune nthe (dc_min d) (dc_max d) q (dc_topk d) [] = []).
          { intro q. unfold prune, prune_df. destruct (_ || _); cbn [filter]; destruct (dc_topk d); reflexivity. }
          rewrite Pn. reflexivity.
        * destruct (proj2 Hh t c) as (G & _). destruct (G (or_introl eq_refl)) as ((y & [] & _) & _).
      + rewrite (complete_none nthe Hnthe (dc_min d) (dc_max d) Hmn Hmx B1 B2 (x :: corpus)); auto. cbn [length] in *. lia.
  Qed.
  Theorem docs_fail mx bs e : proper_training mx bs -> mapM (train_terms re (dc_text d)) (items mx bs) = Throw e ->
    train_docs re nthe perm d mx bs = Throw e.
  Proof using Hok.
    intros Hp Hm. unfold train_docs. rewrite Hok. unfold doc_policy. rewrite trained_simple by exact Hp.
    rewrite (docs_fit_fail _ _ _ _ Hm). reflexivity.
  Qed.
End Trained.
