(** Limits, long documents, short documents, norms. *)
From Coq Require Import Reals Lra.
From Flocq Require Import Core.Core IEEE754.BinarySingleNaN.
From Verif Require Import Base L_List M_Estimator M_Stats S_Stats L_Estimator L_Stats L_Stats2 L_Stats3 M_String M_Text S_Text L_Text L_Text2 L_Text3
  M_Grain M_Scale S_Scale L_Float L_Scale2 M_Encoders L_Encoders M_Docs S_Docs L_Docs L_Docs2 L_Docs3 L_Docs4 L_Docs5 L_Docs6 L_Docs7.
Open Scope Z_scope.

(** *** A limit of k keeps exactly k terms (or all, if there are no more). *)
Lemma beats_irr e : beats e e = false.
Proof. unfold beats. rewrite Z.ltb_irrefl, Z.eqb_refl, str_lt_irr. reflexivity. Qed.
Lemma beats_trans a b c : beats a b = true -> beats b c = true -> beats a c = true.
Proof.
  unfold beats. rewrite !orb_true_iff, !andb_true_iff, !Z.ltb_lt, !Z.eqb_eq. intros [H1|(H1 & H2)] [H3|(H3 & H4)]; try (left; lia).
  right. split; [lia|]. eapply str_lt_trans; eassumption.
Qed.
Lemma beats_total a b : beats a b = false -> beats b a = false -> a = b.
Proof.
  unfold beats. rewrite !orb_false_iff, !andb_false_iff, !Z.ltb_ge, !Z.eqb_neq. intros (H1 & H2) (H3 & H4).
  destruct a as (u, x), b as (v, y). cbn [fst snd] in *. assert (x = y) by lia. subst y. f_equal.
  apply str_lt_total; [destruct H2|destruct H4]; auto; lia.
Qed.
Lemma cnt_seq k n : cnt (fun i => Nat.ltb i k) (seq 0 n) = Nat.min k n.
Proof.
  induction n as [|n IH]; [rewrite Nat.min_0_r; reflexivity|]. rewrite seq_S, cnt_app, IH. cbn [Nat.add]. unfold cnt. cbn [filter].
  destruct (Nat.ltb_spec n k); cbn [length]; lia.
Qed.
Lemma list_nth_ext {A} : forall a b : list A, (forall i, nth_error a i = nth_error b i) -> a = b.
Proof.
  induction a as [|x a IH]; intros [|y b] H; try reflexivity; try (specialize (H 0%nat); discriminate).
  pose proof (H 0%nat) as H0. injection H0 as ->. f_equal. apply IH. intro i. exact (H (S i)).
Qed.
Lemma top_count (l : list (list Z * Z)) k : NoDup l -> cnt (fun e => Nat.ltb (cnt (fun f => beats f e) l) k) l = Nat.min k (length l).
Proof.
  intro N. pose (s := s_sort beats l). pose proof (s_sort_perm beats l) as P. fold s in P.
  pose proof (s_sort_sorted beats beats_irr beats_trans beats_total l) as Hs. fold s in Hs.
  assert (Ns : NoDup s) by (eapply Permutation_NoDup; [symmetry; exact P|exact N]).
  transitivity (cnt (fun e => Nat.ltb (below beats e s) k) s).
  - rewrite (cnt_perm _ _ _ P). unfold cnt. f_equal. apply filter_ext. intro e. f_equal. symmetry. apply (below_perm beats). exact P.
  - rewrite <- (cnt_map (fun e => below beats e s) (fun i => Nat.ltb i k)). rewrite <- (Permutation_length P), <- cnt_seq. f_equal.
    apply list_nth_ext. intro i. rewrite nth_error_map. destruct (nth_error s i) as [e|] eqn:E.
    + cbn [option_map]. rewrite (below_sorted beats beats_irr beats_total s Hs Ns i e E). symmetry.
      assert (i < length s)%nat by (apply nth_error_Some; congruence). rewrite nth_error_nth' with (d := 0%nat) by (rewrite seq_length; lia).
      rewrite seq_nth by lia. reflexivity.
    + cbn [option_map]. symmetry. apply nth_error_None in E. apply nth_error_None. rewrite seq_length. exact E.
Qed.
Lemma number_list {T} (P : T -> Prop) n : number_of P n -> exists l, NoDup l /\ (forall x, In x l <-> P x) /\ length l = n.
Proof. auto. Qed.
Theorem limit_exact corpus mn mx k n : number_of (candidate corpus mn mx) n -> number_of (selected corpus mn mx (Some k)) (Nat.min k n).
Proof.
  intros (l & Nl & Hl & <-). pose (h := map (fun t => (t, documents_with corpus t)) l).
  assert (Nh : NoDup h) by (apply FinFun.Injective_map_NoDup; [intros a b E; injection E; auto|exact Nl]).
  assert (Hh : forall t c, In (t, c) h <-> candidate corpus mn mx t /\ c = documents_with corpus t).
  { intros t c. unfold h. rewrite in_map_iff. split.
    - intros (u & E & Hu). injection E as <- <-. apply Hl in Hu. auto.
    - intros (Ht & ->). exists t. rewrite Hl. auto. }
  exists (map fst (filter (fun e => Nat.ltb (cnt (fun f => beats f e) h) k) h)). split; [|split].
  - apply nodup_map_filter. unfold h. rewrite map_map. cbn [fst]. rewrite map_id. exact Nl.
  - assert (Hnum : forall t, number_of (fun u => candidate corpus mn mx u /\ better corpus u t) (cnt (fun f => beats f (t, documents_with corpus t)) h)).
    { intro t. exists (map fst (filter (fun f => beats f (t, documents_with corpus t)) h)). split.
      { apply nodup_map_filter. unfold h. rewrite map_map. cbn [fst]. rewrite map_id. exact Nl. }
      split; [|rewrite map_length; reflexivity]. intro u. rewrite in_map_iff. split.
      - intros ((u', c) & E & Hf). cbn in E. subst u'. apply filter_In in Hf. destruct Hf as (Hf & Hb). apply Hh in Hf. destruct Hf as (Hu & ->).
        split; [exact Hu|]. unfold beats in Hb. cbn [fst snd] in Hb. unfold better. apply orb_true_iff in Hb.
        destruct Hb as [Hb|Hb]; [left; lia|right]. apply andb_true_iff in Hb. split; [lia|apply Hb].
      - intros (Hu & Hb). exists (u, documents_with corpus u). split; [reflexivity|]. apply filter_In. split; [apply Hh; auto|].
        unfold beats. cbn [fst snd]. destruct Hb as [Hb|(Hb & Hlt)]; apply orb_true_iff; [left; lia|right].
        rewrite Hlt. apply andb_true_iff. split; [lia|reflexivity]. }
    intro t. rewrite in_map_iff. unfold selected. split.
    + intros ((t', c) & E & Hf). cbn in E. subst t'. apply filter_In in Hf. destruct Hf as (Hf & Hk). apply Hh in Hf. destruct Hf as (Ht & ->).
      split; [exact Ht|]. apply Nat.ltb_lt in Hk. eexists. split; [apply Hnum|exact Hk].
    + intros (Ht & n & Hn & Hk). exists (t, documents_with corpus t). split; [reflexivity|]. apply filter_In. split; [apply Hh; auto|].
      apply Nat.ltb_lt. rewrite (number_unique _ _ _ _ (Hnum t) Hn); [exact Hk|tauto].
  - rewrite map_length. transitivity (cnt (fun e => Nat.ltb (cnt (fun f => beats f e) h) k) h); [reflexivity|].
    rewrite (top_count h k Nh). unfold h. rewrite map_length. reflexivity.
Qed.

(** *** A document that says "a" n times. *)
Definition say (n : nat) : list Z := concat (repeat [97; 32] n).
Lemma say_terms re n : infer_terms re (mkTcfg false Word [] 1 1) (say n) = Ok (repeat [97] n).
Proof.
  unfold infer_terms, decorate, parse_func. cbn [tc_lower tc_analyzer tc_regex tc_min tc_max Nat.eqb andb negb bind].
  f_equal. change (tokens is_space (say n) = repeat [97] n). rewrite tokens_words_of. induction n as [|n IH]; [reflexivity|].
  unfold say. cbn [repeat concat app]. change (words_of is_space [] (97 :: 32 :: say n) = [97] :: repeat [97] n).
  cbn [words_of]. change (is_space 97) with false. change (is_space 32) with true. cbn [app words_of]. rewrite IH. reflexivity.
Qed.
Lemma say_bytes n : bytes_ok (say n) = true.
Proof. induction n as [|n IH]; [reflexivity|]. unfold say. cbn [repeat concat app]. cbn. exact IH. Qed.
Lemma say_occ n : occ str_eqb [97] (repeat [97] n) = Z.of_nat n.
Proof. unfold occ. f_equal. induction n as [|n IH]; [reflexivity|]. cbn [repeat filter]. rewrite str_eqb_refl. cbn [length]. congruence. Qed.

Lemma r32_odd : r32 (IZR (2 ^ 24 + 1)) = IZR (2 ^ 24).
Proof.
  destruct (@of_int_round 24 128 _ _ (2 ^ 24 + 1) 25) as (A & _); [lia|lia|]. change (rnd (IZR (2 ^ 24 + 1))) with (r32 (IZR (2 ^ 24 + 1))) in A.
  rewrite <- A. assert (E : B2SF (of_int (2 ^ 24 + 1) : float32) = B2SF (of_int (2 ^ 24) : float32)) by (vm_compute; reflexivity). apply B2SF_inj in E. rewrite E.
  destruct (@of_int_exact 24 128 _ _ (2 ^ 24)) as (B & _); [lia|]. exact B.
Qed.
Theorem long_document re ln : exists (s : dstats) (t : tfidf) (doc : list Z) (v : sparse Z),
  cv_make s false (mkTcfg false Word [] 1 1) = Ok t /\ infer_terms re (mkTcfg false Word [] 1 1) doc = Ok (repeat [97] (Z.to_nat (2 ^ 24 + 1))) /\
  ds_terms s = [([97], (1, 0))] /\
  cv_execute re ln t doc = Ok v /\ In (2 ^ 24, 0) (sp_values v) /\ ~ In (2 ^ 24 + 1, 0) (sp_values v).
Proof.
  pose (s := mkStats [([97], (1, 0))] 1). assert (Ht : exists t, cv_make s false (mkTcfg false Word [] 1 1) = Ok t) by (eexists; reflexivity). destruct Ht as (t & Et).
  pose (m := Z.to_nat (2 ^ 24 + 1)). assert (Hm : Z.of_nat m = 2 ^ 24 + 1) by (unfold m; rewrite Z2Nat.id; lia). fold m. clearbody m.
  exists s, t, (say m).
  destruct (count_vector re ln s false (mkTcfg false Word [] 1 1) t Et) with (doc := say m) (terms := repeat [97] m) as (Hyes & _).
  - repeat constructor; cbn; tauto.
  - repeat constructor; cbn; tauto.
  - apply say_bytes.
  - apply say_terms.
  - intros _ u [<-|[]]. rewrite say_occ, Hm. lia.
  - destruct Hyes as (v & Ev & _ & _ & Hv).
    { exists [97]. split; [|left; reflexivity]. destruct m; [lia|]. left. reflexivity. }
    assert (Hall : forall x, In (x, 0) (sp_values v) <-> x = 2 ^ 24).
    { intro x. rewrite Hv. split.
      - intros (u & n & _ & [E|[]] & Hx). injection E as <- <-. cbv iota in Hx. rewrite say_occ, Hm, r32_odd in Hx. apply eq_IZR. exact Hx.
      - intros ->. exists [97], 1. split; [destruct m; [lia|left; reflexivity]|]. split; [left; reflexivity|]. cbv iota.
        rewrite say_occ, Hm, r32_odd. reflexivity. }
    exists v. split; [exact Et|]. split; [apply say_terms|]. split; [reflexivity|]. split; [exact Ev|]. rewrite !Hall. split; [reflexivity|lia].
Qed.

(** *** A document that is too short stops the training. *)
Lemma mapM_throw {A B} (f : A -> res B) e l : (forall x, In x l -> f x = Throw e \/ exists y, f x = Ok y) -> (exists x, In x l /\ f x = Throw e) ->
  mapM f l = Throw e.
Proof.
  induction l as [|x l IH]; intros H (y & Hy & E); [destruct Hy|]. cbn [mapM].
  destruct (H x (or_introl eq_refl)) as [E'|(z & E')]; rewrite E'; [reflexivity|]. cbn [bind]. rewrite IH; [reflexivity| |].
  - intros w Hw. apply H. right. exact Hw.
  - exists y. split; [|exact E]. destruct Hy as [->|Hy]; [congruence|exact Hy].
Qed.
Lemma ngram_terms_cases re c doc : tc_analyzer c = Word -> tc_regex c = [] -> (1 <= tc_min c)%nat -> (tc_min c <= tc_max c)%nat ->
  train_terms re c doc = Throw InvalidArgument \/ exists y, train_terms re c doc = Ok y.
Proof.
  intros Ha Hr H1 H2. unfold train_terms, train_clean, parse_func. rewrite Ha, Hr.
  destruct (Nat.eqb (tc_min c) 1 && Nat.eqb (tc_max c) 1); cbn [negb bind]; [right; eexists; reflexivity|].
  set (s := replace_and_dedup is_punct doc).
  destruct (Nat.le_gt_cases (tc_max c) (number_of_words is_space s)) as [H|H].
  - destruct (ngram_word_spec is_space s (tc_min c) (tc_max c) H1 H2 H) as (out & -> & _). right. cbn [bind]. eexists. reflexivity.
  - left. rewrite ngram_word_throws; [reflexivity|]. lia.
Qed.
Theorem short_document re nthe perm d mx bs doc : dcfg_ok d = true -> tc_analyzer (dc_text d) = Word -> tc_regex (dc_text d) = [] ->
  (1 < tc_max (dc_text d))%nat -> proper_training mx bs -> In doc (items mx bs) ->
  (number_of_words is_space (replace_and_dedup is_punct doc) < tc_max (dc_text d))%nat ->
  train_docs re nthe perm d mx bs = Throw InvalidArgument.
Proof.
  intros Hok Ha Hr Hm Hp Hin Hs. apply docs_fail; auto.
  assert (B : (1 <= tc_min (dc_text d) /\ tc_min (dc_text d) <= tc_max (dc_text d))%nat).
  { clear -Hok. unfold dcfg_ok in Hok. rewrite !andb_true_iff in Hok. destruct Hok as ((((_ & H1) & _) & _) & H2).
    apply negb_true_iff in H1, H2. apply Nat.ltb_ge in H2. apply Nat.eqb_neq in H1. lia. }
  apply mapM_throw.
  - intros x _. apply ngram_terms_cases; auto; apply B.
  - exists doc. split; [exact Hin|]. unfold train_terms, train_clean, parse_func. rewrite Ha, Hr.
    destruct (Nat.eqb_spec (tc_max (dc_text d)) 1); [lia|]. rewrite andb_false_r. cbn [negb bind]. rewrite ngram_word_throws; [reflexivity|]. auto.
Qed.
