(** Training: the counts are the numbers of documents. *)
From Verif Require Import Base L_List M_Estimator M_Stats S_Stats L_Estimator L_Stats L_Stats2 L_Stats3 M_String M_Text S_Text L_Text L_Text2 L_Text3
  M_Grain S_Keyed L_Grain4 M_Scale M_Docs S_Docs L_Docs.

(** *** Terms are bytes. *)
Lemma forallb_firstn {A} (f : A -> bool) n l : forallb f l = true -> forallb f (firstn n l) = true.
Proof.
  revert n; induction l as [|x l IH]; intros [|n] H; try reflexivity. cbn [firstn forallb] in *. apply andb_true_iff in H.
  destruct H as (H1 & H2). rewrite H1, (IH n H2). reflexivity.
Qed.
Lemma forallb_skipn {A} (f : A -> bool) n l : forallb f l = true -> forallb f (skipn n l) = true.
Proof.
  revert n; induction l as [|x l IH]; intros [|n] H; try reflexivity; [exact H|]. cbn [skipn forallb] in *.
  apply andb_true_iff in H. apply IH. apply H.
Qed.
Lemma sub_bytes s b e : bytes_ok s = true -> bytes_ok (sub s b e) = true.
Proof. intro H. apply forallb_firstn, forallb_skipn, H. Qed.
Lemma lower_byte c : byte_ok c = true -> byte_ok (lower_char c) = true.
Proof. unfold byte_ok, lower_char. destruct (65 <=? c) eqn:A, (c <=? 90) eqn:B; cbn; lia. Qed.
Lemma lower_bytes s : bytes_ok s = true -> bytes_ok (to_lower s) = true.
Proof.
  induction s as [|c s IH]; intro H; [reflexivity|]. cbn in *. apply andb_true_iff in H. rewrite lower_byte by apply H. apply IH, H.
Qed.
Lemma dedup_bytes p s : bytes_ok s = true -> bytes_ok (replace_and_dedup p s) = true.
Proof.
  intro H. unfold replace_and_dedup. assert (Hr : bytes_ok (replace_chars p s) = true).
  { induction s as [|c s IH]; [reflexivity|]. cbn in *. apply andb_true_iff in H. destruct (p c); [apply IH, H|].
    rewrite (proj1 H). apply IH, H. }
  revert Hr. generalize (replace_chars p s) false. clear. induction l as [|c l IH]; intros b H; [reflexivity|].
  cbn [drop_duplicate_spaces]. cbn [bytes_ok forallb] in H. apply andb_true_iff in H. destruct H as (H1 & H2).
  destruct (is_space c && b); [apply IH, H2|]. cbn [bytes_ok forallb]. rewrite H1. apply IH, H2.
Qed.
Lemma padding_bytes p s t : bytes_ok s = true -> string_padding p s = Ok t -> bytes_ok t = true.
Proof.
  intros H. unfold string_padding. destruct (nth_error s 0) as [c|]; [|discriminate].
  destruct (nth_error s (length s - 1)) as [d|]; [|discriminate]. cbn [bind]. intro E. injection E as <-.
  destruct (p c), (p d); cbn [negb andb app]; auto; unfold bytes_ok in *; cbn [forallb]; rewrite ?forallb_app, H; reflexivity.
Qed.
Lemma clean_bytes c doc s : bytes_ok doc = true -> train_clean c doc = Ok s -> bytes_ok s = true.
Proof.
  intros H. unfold train_clean. destruct (tc_analyzer c).
  - destruct (tc_regex c); [destruct (negb _)|]; intro E; injection E as <-; auto. apply dedup_bytes, H.
  - intro E; injection E as <-. apply dedup_bytes, H.
  - intro E. eapply padding_bytes; [|exact E]. apply dedup_bytes, H.
Qed.
Lemma train_terms_bytes re c doc terms : bytes_ok doc = true -> train_terms re c doc = Ok terms ->
  Forall (fun t => bytes_ok t = true) terms.
Proof.
  intros H. unfold train_terms. destruct (train_clean c doc) as [s| |] eqn:Es; cbn [bind]; try discriminate.
  destruct (parse_func re c s) as [rs| |] eqn:Er; cbn [bind]; try discriminate. intro E. injection E as <-.
  apply Forall_forall. intros t Ht. apply in_map_iff in Ht. destruct Ht as (r & <- & _).
  pose proof (sub_bytes s (fst r) (snd r) (clean_bytes _ _ _ H Es)) as Hb. destruct (tc_lower c); [apply lower_bytes|]; exact Hb.
Qed.

(** *** The set of the terms of a document. *)
Definition term_set (c : tcfg) (terms : list (list Z)) : list (list Z) :=
  fold_left (fun acc t => set_insert (if tc_lower c then str_lt else range_lt) t acc) terms [].
Definition same_terms (s terms : list (list Z)) : Prop := NoDup s /\ forall z, In z s <-> In z terms.

Lemma term_set_ok c terms : Forall (fun t => bytes_ok t = true) terms -> same_terms (term_set c terms) terms.
Proof.
  intro H. unfold term_set. destruct (tc_lower c).
  - destruct (set_build str_lt (fun t => bytes_ok t = true) str_lt_trans (fun x y _ _ => str_lt_total x y) terms H [] (Forall_nil _)
      (SSorted_nil _)) as (S1 & _ & S3).
    split; [apply (sorted_nodup str_lt str_lt_irr); exact S1|]. intro z. rewrite S3. cbn. tauto.
  - destruct (set_build range_lt (fun t => bytes_ok t = true) range_lt_trans range_lt_total terms H [] (Forall_nil _)
      (SSorted_nil _)) as (S1 & _ & S3).
    split; [apply (sorted_nodup range_lt range_lt_irr); exact S1|]. intro z. rewrite S3. cbn. tauto.
Qed.

Lemma occ_nodup t s : NoDup s -> occ str_eqb t s = if existsb (str_eqb t) s then 1 else 0.
Proof.
  unfold occ. induction 1 as [|x s Hx Hn IH]; [reflexivity|]. cbn [filter existsb]. destruct (str_eqb t x) eqn:E.
  - apply str_eqb_eq in E. subst x. cbn [orb length]. replace (filter (str_eqb t) s) with (@nil (list Z)); [reflexivity|].
    symmetry. clear IH Hn. induction s as [|y s IHs]; [reflexivity|]. cbn [filter]. destruct (str_eqb t y) eqn:E.
    + apply str_eqb_eq in E. subst y. exfalso. apply Hx. left. reflexivity.
    + apply IHs. intro Hi. apply Hx. right. exact Hi.
  - cbn [orb]. exact IH.
Qed.
Lemma existsb_same t s terms : (forall z, In z s <-> In z terms) -> existsb (str_eqb t) s = existsb (str_eqb t) terms.
Proof.
  intro H. destruct (existsb (str_eqb t) terms) eqn:E.
  - apply existsb_exists in E. destruct E as (x & Hx & Ex). apply existsb_exists. exists x. rewrite H. auto.
  - destruct (existsb (str_eqb t) s) eqn:E'; [|reflexivity]. apply existsb_exists in E'. destruct E' as (x & Hx & Ex).
    rewrite H in Hx. assert (existsb (str_eqb t) terms = true) by (apply existsb_exists; eauto). congruence.
Qed.
Lemma occ_documents sets corpus : Forall2 same_terms sets corpus -> forall t, occ str_eqb t (concat sets) = documents_with corpus t.
Proof.
  induction 1 as [|s terms sets corpus (Hn & Hs) _ IH]; intro t; [reflexivity|]. cbn [concat].
  rewrite (occ_app str_eqb str_eqb_eq), IH, occ_nodup by exact Hn. rewrite (existsb_same t s terms Hs).
  unfold documents_with. cbn [filter]. destruct (existsb (str_eqb t) terms); cbn [length]; lia.
Qed.
Lemma in_documents sets corpus : Forall2 same_terms sets corpus -> forall t, In t (concat sets) <-> occurs corpus t.
Proof.
  induction 1 as [|s terms sets corpus (Hn & Hs) _ IH]; intro t.
  - cbn. split; [tauto|]. intros (d & [] & _).
  - cbn [concat]. rewrite in_app_iff, Hs, IH. split.
    + intros [H|(d & H1 & H2)]; [exists terms; cbn; auto|exists d; cbn; auto].
    + intros (d & [<-|H1] & H2); [left; auto|right; exists d; auto].
Qed.

(** *** Fitting the documents one after the other. *)
Lemma doc_fit_eq re c st doc : doc_fit re c st doc =
  do terms <- train_terms re c doc; do counts <- foldM (hist_fit str_eqb) (fst st) (term_set c terms); Ok (counts, u32 (snd st + 1)).
Proof. reflexivity. Qed.

Lemma docs_fit re c : forall docs corpus, documents_ok docs -> mapM (train_terms re c) docs = Ok corpus ->
  forall l0 h n, hist_inv str_eqb l0 h -> 0 <= n -> n + Z.of_nat (length docs) < 2 ^ 32 ->
  exists sets h', Forall2 same_terms sets corpus /\ hist_inv str_eqb (l0 ++ concat sets) h' /\
    foldM (doc_fit re c) (h, n) docs = Ok (h', n + Z.of_nat (length docs)).
Proof.
  induction docs as [|doc docs IH]; intros corpus Hd Hm l0 h n Hh Hn Hl.
  - cbn in Hm. injection Hm as <-. exists [], h. split; [constructor|]. rewrite app_nil_r. split; [exact Hh|].
    cbn. rewrite Z.add_0_r. reflexivity.
  - cbn [mapM] in Hm. destruct (train_terms re c doc) as [terms| |] eqn:Et; cbn [bind] in Hm; try discriminate.
    destruct (mapM (train_terms re c) docs) as [rest| |] eqn:Em; cbn [bind] in Hm; try discriminate. injection Hm as <-.
    inversion Hd; subst. cbn [length] in Hl |- *. cbn [foldM]. rewrite doc_fit_eq, Et. cbn [bind fst snd].
    destruct (foldM_hist str_eqb str_eqb_eq (term_set c terms) l0 h Hh) as (h1 & E1 & I1). rewrite E1. cbn [bind].
    replace (u32 (n + 1)) with (n + 1) by (unfold u32; rewrite Z.mod_small; lia).
    destruct (IH rest ltac:(assumption) eq_refl (l0 ++ term_set c terms) h1 (n + 1) I1) as (sets & h' & F & I & E); [lia|lia|].
    exists (term_set c terms :: sets), h'. split; [|split].
    + constructor; [|exact F]. apply term_set_ok. eapply train_terms_bytes; eassumption.
    + cbn [concat]. rewrite app_assoc. exact I.
    + rewrite E. f_equal. f_equal. lia.
Qed.
Lemma docs_fit_fail re c : forall docs e, mapM (train_terms re c) docs = Throw e -> forall st, foldM (doc_fit re c) st docs = Throw e.
Proof.
  induction docs as [|doc docs IH]; intros e Hm st; [discriminate|]. cbn [mapM] in Hm. cbn [foldM]. rewrite doc_fit_eq.
  destruct (train_terms re c doc) as [terms|x|] eqn:Et; cbn [bind] in *; try discriminate.
  - assert (G : forall l m, exists m', foldM (hist_fit str_eqb) m l = Ok m').
    { clear. induction l as [|x l IH]; intro m; [eexists; reflexivity|]. cbn [foldM]. unfold hist_fit at 1.
      destruct (m_find str_eqb m x); cbn [bind]; apply IH. }
    destruct (G (term_set c terms) (fst st)) as (m' & ->). cbn [bind]. apply IH.
    destruct (mapM (train_terms re c) docs); cbn [bind] in Hm; try discriminate. exact Hm.
  - injection Hm as <-. reflexivity.
Qed.
