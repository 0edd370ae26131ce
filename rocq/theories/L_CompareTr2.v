(** C87: encoders that compare equal. *)
From Verif Require Import Base L_List M_Archive M_Codec M_Save M_Stats M_Encoders S_Compare M_Compare M_CompareTr S_CompareTr L_Codec L_Save L_Compare L_Compare2 L_Compare3.
Open Scope Z_scope.

Section Encoders.
  Variable k : ty.
  Hypothesis HK : keyable k = true.
  Notation find_label := (m_find (key_eq k)).
  Lemma entry_label l x : entry_of k (map (fun p => (fst p, VInt (snd p))) l) x = option_map VInt (find_label l x).
  Proof using Type.
    unfold entry_of. induction l as [|[y v] l IH]; [reflexivity|]. cbn [map find fst snd m_find]. destruct (key_eq k y x); [reflexivity|exact IH].
  Qed.
  Lemma same_labels l l' : same_table k (TUInt 4) (map (fun p => (fst p, VInt (snd p))) l) (map (fun p => (fst p, VInt (snd p))) l') <-> forall x, find_label l x = find_label l' x.
  Proof using Type.
    unfold same_table. split; intros H x; specialize (H x); rewrite !entry_label in *.
    - destruct (find_label l x) as [v|], (find_label l' x) as [v'|]; cbn in H; try contradiction; try reflexivity. now subst.
    - rewrite H. destruct (find_label l' x); cbn; reflexivity.
  Qed.
  Lemma label_range l x v : wt (TUMap k (TUInt 4)) (table_of l) = true -> find_label l x = Some v -> 0 <= v < 2 ^ 32.
  Proof using Type.
    intros W F. destruct (ok_parts _ _ _ W) as [P _]. assert (H : exists y, In (y, v) l).
    { clear -F. induction l as [|[y w] l IH]; cbn [m_find] in F; [discriminate|]. destruct (key_eq k y x).
      - injection F as ->. exists y. now left.
      - destruct (IH F) as [z Hz]. exists z. now right. }
    destruct H as [y Hy]. specialize (P (y, VInt v)). cbn [fst snd] in P. destruct P as [_ P].
    { apply in_map_iff. exists (y, v). split; [reflexivity|exact Hy]. }
    cbn [wt] in P. unfold fits_u in P. apply andb_true_iff in P. destruct P as [A B]. apply Z.leb_le in A. apply Z.ltb_lt in B. split; [exact A|]. eapply Z.lt_le_trans; [exact B|]. vm_compute. discriminate.
  Qed.
  Lemma table_equal l l' : wt (TUMap k (TUInt 4)) (table_of l) = true -> wt (TUMap k (TUInt 4)) (table_of l') = true -> cpp_eq (TUMap k (TUInt 4)) (table_of l) (table_of l') = true ->
    length l = length l' /\ forall x, find_label l x = find_label l' x.
  Proof using HK.
    intros W W' E. split.
    - cbn [cpp_eq table_of] in E. apply andb_true_iff in E. destruct E as [E _]. apply Nat.eqb_eq in E. now rewrite !map_length in E.
    - apply same_labels. assert (C : comparable (TUMap k (TUInt 4)) = true) by (cbn [comparable]; now rewrite HK).
      pose proof E as E0. rewrite (eq_alike _ C _ _ W W') in E0. destruct E0 as [N A]. pose proof (alike_numeric _ C _ _ W W' A N) as N'.
      exact (proj1 (tables k (TUInt 4) HK eq_refl _ _ W W' N N') E).
  Qed.
  Lemma encoders_equal hol e e' : wt (k_ty (KLabelEncoder k)) (members_of e) = true -> wt (k_ty (KLabelEncoder k)) (members_of e') = true ->
    k_eq hol (KLabelEncoder k) (members_of e) (members_of e') = true ->
    forall x, label_execute (key_eq k) e x = label_execute (key_eq k) e' x /\ onehot_execute (key_eq k) e x = onehot_execute (key_eq k) e' x.
  Proof using HK.
    intros W W' E x. cbn [k_ty wt members_of] in W, W'. apply andb_true_iff in W, W'. destruct W as [W _], W' as [W' _].
    cbn [k_eq k_ty members_of cpp_eq] in E. apply andb_true_iff in E. destruct E as [E M]. apply Bool.eqb_prop in M.
    destruct (table_equal _ _ W W' E) as [L F]. unfold label_execute, onehot_execute. rewrite M, L, F. now split.
  Qed.
  Lemma labels_same hol e e' : e_missing e = false -> e_missing e' = false -> wt (k_ty (KLabelEncoder k)) (members_of e) = true -> wt (k_ty (KLabelEncoder k)) (members_of e') = true ->
    numeric (k_ty (KLabelEncoder k)) (members_of e) = true -> numeric (k_ty (KLabelEncoder k)) (members_of e') = true ->
    (k_eq hol (KLabelEncoder k) (members_of e) (members_of e') = true <-> forall x, label_execute (key_eq k) e x = label_execute (key_eq k) e' x).
  Proof using HK.
    intros M M' W W' N N'. split; [intros E x; exact (proj1 (encoders_equal hol e e' W W' E x))|]. intros H.
    cbn [k_ty wt numeric members_of] in W, W', N, N'. apply andb_true_iff in W, W', N, N'. destruct W as [W _], W' as [W' _], N as [N _], N' as [N' _].
    cbn [k_eq k_ty members_of cpp_eq]. rewrite M, M'. apply andb_true_iff. split; [|reflexivity].
    apply (tables k (TUInt 4) HK eq_refl _ _ W W' N N'). apply same_labels. intros x. specialize (H x). unfold label_execute in H. rewrite M, M' in H.
    destruct (find_label (e_labels e) x) as [v|] eqn:F, (find_label (e_labels e') x) as [v'|] eqn:F'; try discriminate H; [|reflexivity].
    pose proof (label_range _ _ _ W F). pose proof (label_range _ _ _ W' F'). injection H as H. unfold u32 in H. rewrite !Z.add_0_r, !Z.mod_small in H by lia. now subst.
  Qed.
  Lemma numericalize_same hol l l' : wt (k_ty (KNumericalize k)) (table_of l) = true -> wt (k_ty (KNumericalize k)) (table_of l') = true ->
    numeric (k_ty (KNumericalize k)) (table_of l) = true -> numeric (k_ty (KNumericalize k)) (table_of l') = true ->
    (k_eq hol (KNumericalize k) (table_of l) (table_of l') = true <-> forall x, numericalize_execute (key_eq k) l x = numericalize_execute (key_eq k) l' x).
  Proof using HK.
    intros W W' N N'. cbn [k_eq k_ty] in *. unfold numericalize_execute. rewrite <- same_labels. exact (tables k (TUInt 4) HK eq_refl _ _ W W' N N').
  Qed.
End Encoders.
