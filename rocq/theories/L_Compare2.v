(** C87: [==] is sameness of values. *)
From Coq Require Import Permutation.
From Verif Require Import Base L_List M_Archive M_Codec M_Save S_Compare M_Compare L_Codec L_Codec2 L_Save L_Compare.

Lemma wt_list (t : ty) l : forallb (wt t) l = true -> forall x, In x l -> wt t x = true.
Proof. intros H. now apply forallb_forall. Qed.
Lemma wt_entries (k x : ty) l : forallb (fun p => wt k (fst p) && wt x (snd p)) l = true -> forall p, In p l -> wt k (fst p) = true /\ wt x (snd p) = true.
Proof. intros H p Hp. rewrite forallb_forall in H. specialize (H p Hp). now apply andb_true_iff in H. Qed.

Lemma key_comparable t : keyable t = true -> comparable t = true.
Proof.
  induction t; cbn [keyable comparable]; intros H; try discriminate; try reflexivity; auto. apply andb_true_iff in H as [H1 H2]. now rewrite IHt1, IHt2.
Qed.

Theorem eq_alike t : comparable t = true -> forall a b, wt t a = true -> wt t b = true -> (cpp_eq t a b = true <-> numeric t a = true /\ alike t a b).
Proof.
  induction t as [|w|w|w| |n t IH|t IH|k IHk x IHx|k IHk x IHx|k IHk|t IH|t IH| |a1 IHa b1 IHb|t IH]; cbn [comparable]; intros K; try discriminate; intros a b;
    destruct a; cbn [wt]; try discriminate; destruct b; cbn [wt]; try discriminate; cbn [cpp_eq numeric alike].
  - intros _ _. split; [intros E; split; [reflexivity|now apply Bool.eqb_prop in E]|]. intros [_ ->]. apply Bool.eqb_reflx.
  - intros _ _. rewrite Z.eqb_eq. tauto.
  - intros _ _. rewrite Z.eqb_eq. tauto.
  - intros Ha Hb. rewrite !andb_true_iff, Z.eqb_eq. split; [tauto|]. intros [N E]. rewrite <- (nan_key w _ _ Ha Hb E). auto.
  - intros _ _. rewrite str_eqb_eq. tauto.
  - intros Ha Hb. apply andb_true_iff in Ha as [_ Ha]. apply andb_true_iff in Hb as [_ Hb]. rewrite list_eqb_F2. apply F2_iff. intros p q Hp Hq. apply IH; [exact K|exact (wt_list _ _ Ha _ Hp)|exact (wt_list _ _ Hb _ Hq)].
  - intros Ha Hb. apply andb_true_iff in Ha as [_ Ha]. apply andb_true_iff in Hb as [_ Hb]. rewrite list_eqb_F2. apply F2_iff. intros p q Hp Hq. apply IH; [exact K|exact (wt_list _ _ Ha _ Hp)|exact (wt_list _ _ Hb _ Hq)].
  - intros Ha Hb. apply andb_true_iff in K as [K1 K2]. apply andb_true_iff in Ha as [Ha _]. apply andb_true_iff in Ha as [_ Ha]. apply andb_true_iff in Hb as [Hb _]. apply andb_true_iff in Hb as [_ Hb].
    rewrite list_eqb_F2. apply F2_iff. intros p q Hp Hq. destruct (wt_entries _ _ _ Ha p Hp) as [P1 P2]. destruct (wt_entries _ _ _ Hb q Hq) as [Q1 Q2].
    specialize (IHk K1 _ _ P1 Q1). specialize (IHx K2 _ _ P2 Q2). rewrite !andb_true_iff. tauto.
  - intros Ha Hb. apply andb_true_iff in K as [K1 K2]. apply andb_true_iff in Ha as [Ha Da]. apply andb_true_iff in Ha as [_ Ha]. apply andb_true_iff in Hb as [Hb Db]. apply andb_true_iff in Hb as [_ Hb].
    rewrite distinct_map in Da, Db. specialize (IHk (key_comparable _ K1)).
    assert (EK : forall p q, In p l -> In q l0 -> (cpp_eq k (fst p) (fst q) && cpp_eq x (snd p) (snd q) = true <->
       (numeric k (fst p) && numeric x (snd p) = true) /\ (alike k (fst p) (fst q) /\ alike x (snd p) (snd q)))).
    { intros p q Hp Hq. destruct (wt_entries _ _ _ Ha p Hp) as [P1 P2]. destruct (wt_entries _ _ _ Hb q Hq) as [Q1 Q2].
      specialize (IHk _ _ P1 Q1). specialize (IHx K2 _ _ P2 Q2). rewrite !andb_true_iff. tauto. }
    assert (KK : forall p q, In p l -> In q l0 -> cpp_eq k (fst p) (fst q) = true -> key_eq k (fst p) (fst q) = true).
    { intros p q Hp Hq E. destruct (wt_entries _ _ _ Ha p Hp) as [P1 P2]. destruct (wt_entries _ _ _ Hb q Hq) as [Q1 Q2]. now apply (eq_key k K1 _ _ P1 Q1). }
    split.
    + intros E. apply andb_true_iff in E as [L E]. apply Nat.eqb_eq in L. rewrite forallb_forall in E.
      assert (M : forall p, In p l -> exists q, In q l0 /\ (cpp_eq k (fst p) (fst q) && cpp_eq x (snd p) (snd q) = true /\ key_eq k (fst p) (fst q) = true)).
      { intros p Hp. specialize (E p Hp). destruct (find (fun q => key_eq k (fst p) (fst q)) l0) as [q|] eqn:F; [|discriminate]. apply find_some in F as [F1 F2]. exists q. auto. }
      destruct (match_perm (fun p q => key_eq k (fst p) (fst q)) (fun p q => cpp_eq k (fst p) (fst q) && cpp_eq x (snd p) (snd q) = true /\ key_eq k (fst p) (fst q) = true)) with (l := l) (l' := l0) as (m & M1 & M2);
        [|exact Da|exact L|exact M|].
      { intros p p' q [_ H1] [_ H2]. rewrite key_eq_sym in H2. exact (key_eq_trans k _ _ _ H1 H2). }
      assert (I : forall p, In p m -> In p l) by (intros p; apply Permutation_in; now symmetry).
      split.
      * apply forallb_forall. intros p Hp. destruct (F2_in _ _ _ _ M2 (Permutation_in _ M1 Hp)) as (q & Hq & E1 & _). now apply (EK p q Hp Hq).
      * exists m. split; [exact M1|]. refine (F2_imp _ _ _ _ _ M2). intros p q Hp Hq [E1 _]. apply (EK p q (I p Hp) Hq). exact E1.
    + intros [N (m & M1 & M2)]. rewrite forallb_forall in N. apply andb_true_iff. split.
      * apply Nat.eqb_eq. rewrite (Permutation_length M1). exact (F2_len _ _ _ M2).
      * apply forallb_forall. intros p Hp. destruct (F2_in _ _ _ _ M2 (Permutation_in _ M1 Hp)) as (q & Hq & E1). specialize (N p Hp).
        pose proof (proj2 (EK p q Hp Hq) (conj N E1)) as C. pose proof (KK p q Hp Hq (proj1 (proj1 (andb_true_iff _ _) C))) as KC.
        destruct (find (fun q => key_eq k (fst p) (fst q)) l0) as [q0|] eqn:F.
        -- apply find_some in F as [F1 F2]. assert (Q : q0 = q); [|now subst].
           apply (distinct_same (fun p q => key_eq k (fst p) (fst q)) l0); [intros; apply key_eq_sym|exact Db|exact F1|exact Hq|]. rewrite key_eq_sym in F2. exact (key_eq_trans k _ _ _ F2 KC).
        -- pose proof (find_none _ _ F q Hq) as H. cbv beta in H. congruence.
  - intros Ha Hb. apply andb_true_iff in Ha as [Ha Da]. apply andb_true_iff in Ha as [_ Ha]. apply andb_true_iff in Hb as [Hb Db]. apply andb_true_iff in Hb as [_ Hb].
    specialize (IHk (key_comparable _ K)).
    assert (EK : forall p q, In p l -> In q l0 -> (cpp_eq k p q = true <-> numeric k p = true /\ alike k p q)).
    { intros p q Hp Hq. exact (IHk _ _ (wt_list _ _ Ha _ Hp) (wt_list _ _ Hb _ Hq)). }
    assert (KK : forall p q, In p l -> In q l0 -> cpp_eq k p q = true -> key_eq k p q = true).
    { intros p q Hp Hq E. now apply (eq_key k K _ _ (wt_list _ _ Ha _ Hp) (wt_list _ _ Hb _ Hq)). }
    split.
    + intros E. apply andb_true_iff in E as [L E]. apply Nat.eqb_eq in L. rewrite forallb_forall in E.
      assert (M : forall p, In p l -> exists q, In q l0 /\ (cpp_eq k p q = true /\ key_eq k p q = true)).
      { intros p Hp. specialize (E p Hp). destruct (find (fun q => key_eq k p q) l0) as [q|] eqn:F; [|discriminate]. apply find_some in F as [F1 F2]. exists q. auto. }
      destruct (match_perm (key_eq k) (fun p q => cpp_eq k p q = true /\ key_eq k p q = true)) with (l := l) (l' := l0) as (m & M1 & M2); [|exact Da|exact L|exact M|].
      { intros p p' q [_ H1] [_ H2]. rewrite key_eq_sym in H2. exact (key_eq_trans k _ _ _ H1 H2). }
      assert (I : forall p, In p m -> In p l) by (intros p; apply Permutation_in; now symmetry).
      split.
      * apply forallb_forall. intros p Hp. destruct (F2_in _ _ _ _ M2 (Permutation_in _ M1 Hp)) as (q & Hq & E1 & _). now apply (EK p q Hp Hq).
      * exists m. split; [exact M1|]. refine (F2_imp _ _ _ _ _ M2). intros p q Hp Hq [E1 _]. apply (EK p q (I p Hp) Hq). exact E1.
    + intros [N (m & M1 & M2)]. rewrite forallb_forall in N. apply andb_true_iff. split.
      * apply Nat.eqb_eq. rewrite (Permutation_length M1). exact (F2_len _ _ _ M2).
      * apply forallb_forall. intros p Hp. destruct (F2_in _ _ _ _ M2 (Permutation_in _ M1 Hp)) as (q & Hq & E1). specialize (N p Hp).
        pose proof (proj2 (EK p q Hp Hq) (conj N E1)) as C. pose proof (KK p q Hp Hq C) as KC.
        destruct (find (fun q => key_eq k p q) l0) as [q0|] eqn:F.
        -- apply find_some in F as [F1 F2]. assert (Q : q0 = q); [|now subst].
           apply (distinct_same (key_eq k) l0); [intros; apply key_eq_sym|exact Db|exact F1|exact Hq|]. rewrite key_eq_sym in F2. exact (key_eq_trans k _ _ _ F2 KC).
        -- pose proof (find_none _ _ F q Hq) as H. cbv beta in H. congruence.
  - tauto.
  - intros Ha Hb. apply andb_true_iff in K as [K1 K2]. apply andb_true_iff in Ha as [A1 A2]. apply andb_true_iff in Hb as [B1 B2].
    specialize (IHa K1 _ _ A1 B1). specialize (IHb K2 _ _ A2 B2). rewrite !andb_true_iff. tauto.
  - destruct o as [v|], o0 as [v'|]; intros Ha Hb; try (split; intros H; [discriminate|destruct H; contradiction]); [|tauto]. exact (IH K v v' Ha Hb).
Qed.

Lemma alike_refl t : comparable t = true -> forall a, wt t a = true -> alike t a a.
Proof.
  induction t as [|w|w|w| |n t IH|t IH|k IHk x IHx|k IHk x IHx|k IHk|t IH|t IH| |a1 IHa b1 IHb|t IH]; cbn [comparable]; intros K; try discriminate; intros a; destruct a; cbn [wt]; try discriminate; cbn [alike]; try reflexivity; intros H.
  - apply andb_true_iff in H as [_ H]. apply F2_refl. intros v Hv. apply IH; [exact K|exact (wt_list _ _ H _ Hv)].
  - apply andb_true_iff in H as [_ H]. apply F2_refl. intros v Hv. apply IH; [exact K|exact (wt_list _ _ H _ Hv)].
  - apply andb_true_iff in K as [K1 K2]. apply andb_true_iff in H as [H _]. apply andb_true_iff in H as [_ H]. apply F2_refl. intros p Hp. destruct (wt_entries _ _ _ H p Hp). auto.
  - apply andb_true_iff in K as [K1 K2]. apply andb_true_iff in H as [H _]. apply andb_true_iff in H as [_ H]. exists l. split; [reflexivity|]. apply F2_refl. intros p Hp. destruct (wt_entries _ _ _ H p Hp). split; [apply IHk; [now apply key_comparable|assumption]|auto].
  - apply andb_true_iff in H as [H _]. apply andb_true_iff in H as [_ H]. exists l. split; [reflexivity|]. apply F2_refl. intros v Hv. apply IHk; [now apply key_comparable|exact (wt_list _ _ H _ Hv)].
  - apply andb_true_iff in K as [K1 K2]. apply andb_true_iff in H as [A1 A2]. auto.
  - destruct o as [v|]; [|exact I]. auto.
Qed.
Lemma alike_sym t : forall a b, alike t a b -> alike t b a.
Proof.
  induction t as [|w|w|w| |n t IH|t IH|k IHk x IHx|k IHk x IHx|k IHk|t IH|t IH| |a1 IHa b1 IHb|t IH]; intros a b; destruct a; cbn [alike]; try contradiction; destruct b; cbn [alike]; try contradiction; try (destruct o; contradiction); intros H.
  - congruence. - congruence. - congruence. - congruence. - congruence.
  - revert H. apply F2_sym. auto.
  - revert H. apply F2_sym. auto.
  - revert H. apply F2_sym. intros p q _ _ [H1 H2]. auto.
  - destruct H as (m & M1 & M2). destruct (F2_perm _ _ _ M1 _ M2) as (n & N1 & N2). exists n. split; [exact N1|]. revert N2. apply F2_sym. intros p q _ _ [H1 H2]. auto.
  - destruct H as (m & M1 & M2). destruct (F2_perm _ _ _ M1 _ M2) as (n & N1 & N2). exists n. split; [exact N1|]. revert N2. apply F2_sym. auto.
  - exact I.
  - destruct H. auto.
  - destruct o as [v|], o0 as [v'|]; try contradiction; auto.
Qed.
Lemma alike_trans t : forall a b c, alike t a b -> alike t b c -> alike t a c.
Proof.
  induction t as [|w|w|w| |n t IH|t IH|k IHk x IHx|k IHk x IHx|k IHk|t IH|t IH| |a1 IHa b1 IHb|t IH]; intros a b c; destruct a; cbn [alike]; try contradiction; destruct b; cbn [alike]; try contradiction; try (destruct o; contradiction);
    destruct c; cbn [alike]; try contradiction; try (destruct o, o0; contradiction); intros H H'.
  - congruence. - congruence. - congruence. - congruence. - congruence.
  - revert H H'. apply F2_trans. intros p q r _. apply IH.
  - revert H H'. apply F2_trans. intros p q r _. apply IH.
  - revert H H'. apply F2_trans. intros p q r _ [H1 H2] [H3 H4]. split; [eapply IHk; eassumption|eapply IHx; eassumption].
  - destruct H as (m & M1 & M2). destruct H' as (n & N1 & N2). assert (M3 : Forall2 (fun q p => alike k (fst p) (fst q) /\ alike x (snd p) (snd q)) l0 m) by (revert M2; apply F2_sym; auto).
    destruct (F2_perm _ _ _ (Permutation_sym N1) _ M3) as (j & J1 & J2). exists j. split; [now transitivity m|].
    assert (J3 : Forall2 (fun p q => alike k (fst p) (fst q) /\ alike x (snd p) (snd q)) j n) by (revert J2; apply F2_sym; auto).
    revert J3 N2. apply F2_trans. intros p q r _ [H1 H2] [H3 H4]. split; [eapply IHk; eassumption|eapply IHx; eassumption].
  - destruct H as (m & M1 & M2). destruct H' as (n & N1 & N2). assert (M3 : Forall2 (fun q p => alike k p q) l0 m) by (revert M2; apply F2_sym; auto).
    destruct (F2_perm _ _ _ (Permutation_sym N1) _ M3) as (j & J1 & J2). exists j. split; [now transitivity m|].
    assert (J3 : Forall2 (alike k) j n) by (revert J2; apply F2_sym; auto). revert J3 N2. apply F2_trans. intros p q r _. apply IHk.
  - exact I.
  - destruct H, H'. split; [eapply IHa; eassumption|eapply IHb; eassumption].
  - destruct o as [v|], o0 as [v'|], o1 as [v''|]; try contradiction; [|exact I]. eapply IH; eassumption.
Qed.
Lemma F2_in_r {A B} (P : A -> B -> Prop) x : forall y b, Forall2 P x y -> In b y -> exists a, In a x /\ P a b.
Proof.
  induction x as [|a x IH]; intros y b E H0; inversion E as [|? c ? y' E1 E2]; subst; [contradiction|]. destruct H0 as [<-|H].
  - exists a. split; [now left|assumption].
  - destruct (IH _ _ E2 H) as (d & H1 & H2). exists d. split; [now right|assumption].
Qed.
Lemma alike_numeric t : comparable t = true -> forall a b, wt t a = true -> wt t b = true -> alike t a b -> numeric t a = true -> numeric t b = true.
Proof.
  induction t as [|w|w|w| |n t IH|t IH|k IHk x IHx|k IHk x IHx|k IHk|t IH|t IH| |a1 IHa b1 IHb|t IH]; cbn [comparable]; intros K; try discriminate; intros a b;
    destruct a; cbn [wt]; try discriminate; destruct b; cbn [wt]; try discriminate; cbn [numeric alike]; try reflexivity; intros Ha Hb H.
  - now rewrite (nan_key w _ _ Ha Hb H).
  - apply andb_true_iff in Ha as [_ Ha]. apply andb_true_iff in Hb as [_ Hb]. rewrite !forallb_forall. intros N q Hq. destruct (F2_in_r _ _ _ _ H Hq) as (p & Hp & E).
    exact (IH K p q (wt_list _ _ Ha _ Hp) (wt_list _ _ Hb _ Hq) E (N p Hp)).
  - apply andb_true_iff in Ha as [_ Ha]. apply andb_true_iff in Hb as [_ Hb]. rewrite !forallb_forall. intros N q Hq. destruct (F2_in_r _ _ _ _ H Hq) as (p & Hp & E).
    exact (IH K p q (wt_list _ _ Ha _ Hp) (wt_list _ _ Hb _ Hq) E (N p Hp)).
  - apply andb_true_iff in K as [K1 K2]. apply andb_true_iff in Ha as [Ha _]. apply andb_true_iff in Ha as [_ Ha]. apply andb_true_iff in Hb as [Hb _]. apply andb_true_iff in Hb as [_ Hb]. rewrite !forallb_forall. intros N q Hq.
    destruct (F2_in_r _ _ _ _ H Hq) as (p & Hp & E1 & E2). destruct (wt_entries _ _ _ Ha p Hp) as [P1 P2]. destruct (wt_entries _ _ _ Hb q Hq) as [Q1 Q2]. specialize (N p Hp). apply andb_true_iff in N as [N1 N2].
    rewrite (IHk K1 _ _ P1 Q1 E1 N1). now rewrite (IHx K2 _ _ P2 Q2 E2 N2).
  - apply andb_true_iff in K as [K1 K2]. apply key_comparable in K1. apply andb_true_iff in Ha as [Ha _]. apply andb_true_iff in Ha as [_ Ha]. apply andb_true_iff in Hb as [Hb _]. apply andb_true_iff in Hb as [_ Hb]. rewrite !forallb_forall. intros N q Hq.
    destruct H as (m & M1 & M2). destruct (F2_in_r _ _ _ _ M2 Hq) as (p & Hp & E1 & E2). apply (Permutation_in _ (Permutation_sym M1)) in Hp. destruct (wt_entries _ _ _ Ha p Hp) as [P1 P2]. destruct (wt_entries _ _ _ Hb q Hq) as [Q1 Q2]. specialize (N p Hp). apply andb_true_iff in N as [N1 N2].
    rewrite (IHk K1 _ _ P1 Q1 E1 N1). now rewrite (IHx K2 _ _ P2 Q2 E2 N2).
  - apply key_comparable in K. apply andb_true_iff in Ha as [Ha _]. apply andb_true_iff in Ha as [_ Ha]. apply andb_true_iff in Hb as [Hb _]. apply andb_true_iff in Hb as [_ Hb]. rewrite !forallb_forall. intros N q Hq.
    destruct H as (m & M1 & M2). destruct (F2_in_r _ _ _ _ M2 Hq) as (p & Hp & E). apply (Permutation_in _ (Permutation_sym M1)) in Hp. exact (IHk K p q (wt_list _ _ Ha _ Hp) (wt_list _ _ Hb _ Hq) E (N p Hp)).
  - apply andb_true_iff in K as [K1 K2]. apply andb_true_iff in Ha as [A1 A2]. apply andb_true_iff in Hb as [B1 B2]. destruct H as [E1 E2]. intros N. apply andb_true_iff in N as [N1 N2].
    rewrite (IHa K1 _ _ A1 B1 E1 N1). now rewrite (IHb K2 _ _ A2 B2 E2 N2).
  - destruct o as [v|], o0 as [v'|]; try contradiction; auto. exact (IH K _ _ Ha Hb H).
Qed.

(** *** Transformers *)
Definition has_eq (k : kind) : bool := match k with KDateTime _ | KMatrix _ _ | KHeaderOnly => false | _ => comparable (k_ty k) end.
Theorem k_eq_alike hol k v v' : has_eq k = true -> wt (k_ty k) v = true -> wt (k_ty k) v' = true -> (k_eq hol k v v' = true <-> numeric (k_ty k) v = true /\ alike (k_ty k) v v').
Proof. intros H W W'. destruct k; try discriminate H; unfold k_eq; now apply eq_alike. Qed.
Theorem k_eq_equivalence hol k : has_eq k = true ->
  (forall v, wt (k_ty k) v = true -> numeric (k_ty k) v = true -> k_eq hol k v v = true) /\
  (forall v v', wt (k_ty k) v = true -> wt (k_ty k) v' = true -> k_eq hol k v v' = true -> k_eq hol k v' v = true) /\
  (forall v v' v'', wt (k_ty k) v = true -> wt (k_ty k) v' = true -> wt (k_ty k) v'' = true -> k_eq hol k v v' = true -> k_eq hol k v' v'' = true -> k_eq hol k v v'' = true).
Proof.
  intros H. assert (C : comparable (k_ty k) = true) by (destruct k; try discriminate H; exact H). split; [|split].
  - intros v W N. apply k_eq_alike; auto. split; [exact N|]. now apply alike_refl.
  - intros v v' W W' E. apply k_eq_alike in E as [N E]; auto. apply k_eq_alike; auto. split; [|now apply alike_sym]. exact (alike_numeric _ C _ _ W W' E N).
  - intros v v' v'' W W' W'' E E'. apply k_eq_alike in E as [N E]; auto. apply k_eq_alike in E' as [N' E']; auto. apply k_eq_alike; auto. split; [exact N|]. eapply alike_trans; eassumption.
Qed.
Theorem k_eq_loaded hol k v further : has_eq k = true -> wt (k_ty k) v = true -> k_construct k v = Ok v -> numeric (k_ty k) v = true ->
  exists v', k_load k (k_save k v ++ further) = Ok (v', further) /\ k_eq hol k v' v = true /\ k_eq hol k v v' = true.
Proof.
  intros H W C N. exists v. rewrite (save_load k v further W), C. split; [reflexivity|]. destruct (k_eq_equivalence hol k H) as (R & _). auto.
Qed.
