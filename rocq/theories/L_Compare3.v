(** C87: tables. *)
From Coq Require Import Permutation.
From Verif Require Import Base L_List M_Archive M_Codec M_Save S_Compare M_Compare L_Codec L_Codec2 L_Save L_Compare L_Compare2.

Section Tables.
  Variables k x : ty.
  Hypothesis HK : keyable k = true.
  Hypothesis HX : comparable x = true.
  Notation ok l := (wt (TUMap k x) (VMap l) = true).
  Notation D := (fun p q : val * val => key_eq k (fst p) (fst q)).
  Lemma ok_parts l : ok l -> (forall p, In p l -> wt k (fst p) = true /\ wt x (snd p) = true) /\ distinct_by D l = true.
  Proof using. cbn [wt]. intros H. apply andb_true_iff in H as [H Dl]. apply andb_true_iff in H as [_ H]. split; [exact (wt_entries _ _ _ H)|]. now rewrite distinct_map in Dl. Qed.
  Lemma numeric_parts l : numeric (TUMap k x) (VMap l) = true -> forall p, In p l -> numeric k (fst p) = true /\ numeric x (snd p) = true.
  Proof using. cbn [numeric]. intros H p Hp. rewrite forallb_forall in H. specialize (H p Hp). now apply andb_true_iff in H. Qed.
  Lemma key_alike a b : wt k a = true -> wt k b = true -> numeric k a = true -> (key_eq k a b = true <-> alike k a b).
  Proof using HK.
    intros A B N. pose proof (eq_key k HK a b A B) as H1. pose proof (eq_alike k (key_comparable _ HK) a b A B) as H2. tauto.
  Qed.
  Lemma entry_found l p key : distinct_by D l = true -> In p l -> key_eq k (fst p) key = true -> entry_of k l key = Some (snd p).
  Proof using.
    intros Dl Hp E. unfold entry_of. destruct (find (fun p => key_eq k (fst p) key) l) as [q|] eqn:F.
    - apply find_some in F as [F1 F2]. assert (q = p); [|now subst]. apply (distinct_same D l); [intros; apply key_eq_sym|exact Dl|exact F1|exact Hp|].
      rewrite key_eq_sym in E. exact (key_eq_trans k _ _ _ F2 E).
    - pose proof (find_none _ _ F p Hp) as H. cbv beta in H. congruence.
  Qed.
  Lemma entry_some l key v : entry_of k l key = Some v -> exists p, In p l /\ key_eq k (fst p) key = true /\ snd p = v.
  Proof using. unfold entry_of. destruct (find (fun p => key_eq k (fst p) key) l) as [p|] eqn:F; [|discriminate]. intros E. injection E as <-. apply find_some in F as [F1 F2]. exists p. auto. Qed.
  Lemma tables_into l l' : ok l -> ok l' -> numeric (TUMap k x) (VMap l) = true -> alike (TUMap k x) (VMap l) (VMap l') ->
    forall key v, entry_of k l key = Some v -> exists v', entry_of k l' key = Some v' /\ alike x v v'.
  Proof using HK.
    intros W W' N (m & M1 & M2) key v E. destruct (entry_some _ _ _ E) as (p & Hp & E1 & <-). destruct (F2_in _ _ _ _ M2 (Permutation_in _ M1 Hp)) as (q & Hq & A1 & A2).
    destruct (ok_parts l W) as [P _]. destruct (ok_parts l' W') as [Q D']. destruct (P p Hp). destruct (Q q Hq). destruct (numeric_parts l N p Hp).
    exists (snd q). split; [|exact A2]. apply entry_found; [exact D'|exact Hq|]. assert (E2 : key_eq k (fst p) (fst q) = true) by (apply key_alike; assumption).
    rewrite key_eq_sym in E2. exact (key_eq_trans k _ _ _ E2 E1).
  Qed.
  Theorem tables l l' : ok l -> ok l' -> numeric (TUMap k x) (VMap l) = true -> numeric (TUMap k x) (VMap l') = true ->
    (cpp_eq (TUMap k x) (VMap l) (VMap l') = true <-> same_table k x l l').
  Proof using HK HX.
    intros W W' N N'. assert (C : comparable (TUMap k x) = true) by (cbn [comparable]; now rewrite HK, HX). rewrite (eq_alike _ C _ _ W W'). split.
    - intros [_ A] key. pose proof (tables_into l l' W W' N A key) as T. pose proof (tables_into l' l W' W N' (alike_sym _ _ _ A) key) as T'.
      destruct (entry_of k l key) as [v|]; [|destruct (entry_of k l' key) as [v|]; [|exact I]].
      + destruct (T v eq_refl) as (v' & -> & T2). exact T2.
      + destruct (T' v eq_refl) as (v' & H & _). discriminate.
    - intros S. split; [exact N|]. destruct (ok_parts l W) as [P Dl]. destruct (ok_parts l' W') as [Q Dl'].
      assert (M : forall p, In p l -> exists q, In q l' /\ (key_eq k (fst p) (fst q) = true /\ alike x (snd p) (snd q))).
      { intros p Hp. destruct (P p Hp) as [P1 P2]. specialize (S (fst p)). rewrite (entry_found l p (fst p) Dl Hp (key_eq_refl k HK _ P1)) in S.
        destruct (entry_of k l' (fst p)) as [v|] eqn:E; [|contradiction]. destruct (entry_some _ _ _ E) as (q & Hq & E1 & <-). exists q. rewrite key_eq_sym in E1. auto. }
      assert (M' : forall q, In q l' -> exists p, In p l /\ key_eq k (fst q) (fst p) = true).
      { intros q Hq. destruct (Q q Hq) as [Q1 Q2]. specialize (S (fst q)). rewrite (entry_found l' q (fst q) Dl' Hq (key_eq_refl k HK _ Q1)) in S.
        destruct (entry_of k l (fst q)) as [v|] eqn:E; [|contradiction]. destruct (entry_some _ _ _ E) as (p & Hp & E1 & <-). exists p. rewrite key_eq_sym in E1. auto. }
      destruct (match_perm D (fun p q => key_eq k (fst p) (fst q) = true /\ alike x (snd p) (snd q))) with (l := l) (l' := l') as (m & M1 & M2).
      + intros p p' q [H1 _] [H2 _]. rewrite key_eq_sym in H2. exact (key_eq_trans k _ _ _ H1 H2).
      + exact Dl.
      + apply Nat.le_antisymm.
        * apply (match_len D (fun p q => key_eq k (fst p) (fst q) = true /\ alike x (snd p) (snd q))); [|exact Dl|exact M]. intros p p' q [H1 _] [H2 _]. rewrite key_eq_sym in H2. exact (key_eq_trans k _ _ _ H1 H2).
        * apply (match_len D (fun p q => key_eq k (fst p) (fst q) = true)); [|exact Dl'|exact M']. intros p p' q H1 H2. rewrite key_eq_sym in H2. exact (key_eq_trans k _ _ _ H1 H2).
      + exact M.
      + cbn [alike]. exists m. split; [exact M1|]. refine (F2_imp _ _ _ _ _ M2). intros p q Hp Hq [H1 H2]. split; [|exact H2]. apply (Permutation_in _ (Permutation_sym M1)) in Hp.
        destruct (P p Hp). destruct (Q q Hq). destruct (numeric_parts l N p Hp). apply key_alike; assumption.
  Qed.
End Tables.
Theorem date_times hol known c c' : let table s := match s with [] => [] | _ => hol s end in
  wt (TUMap (TSInt 8) TString) (VMap (table c)) = true -> wt (TUMap (TSInt 8) TString) (VMap (table c')) = true ->
  (k_eq hol (KDateTime known) (VStr c) (VStr c') = true <-> same_table (TSInt 8) TString (table c) (table c')).
Proof.
  intros table W W'. unfold k_eq. fold (table c) (table c'). assert (N : forall l, numeric (TUMap (TSInt 8) TString) (VMap l) = true) by (intros l; cbn [numeric]; apply forallb_forall; reflexivity).
  apply tables; auto.
Qed.
Lemma nan_refuted : ~ (forall hol k v, has_eq k = true -> wt (k_ty k) v = true -> k_construct k v = Ok v -> k_eq hol k v v = true).
Proof. intros H. specialize (H (fun _ => []) (KImputer (TFloat 8)) (VFloat 9221120237041090560) eq_refl eq_refl eq_refl). discriminate. Qed.
