(** C86: lemmas. *)
From Verif Require Import Base M_Archive M_Codec M_Save M_Loaded L_Codec2 L_Save.

Lemma identified k v v' further further' : wt (k_ty k) v = true -> wt (k_ty k) v' = true -> k_construct k v = Ok v -> k_construct k v' = Ok v' ->
  k_save k v ++ further = k_save k v' ++ further' -> v = v' /\ further = further'.
Proof.
  intros W W' C C' E. pose proof (save_load k v further W) as H. rewrite E, (save_load k v' further' W'), C, C' in H. cbn [bind] in H. injection H as -> ->. split; reflexivity.
Qed.
Lemma loaded_saves_again k bytes v rest further : good_ty (k_ty k) = true -> bytes_ok bytes = true -> k_load k bytes = Ok (v, rest) -> k_load k (k_save k v ++ further) = Ok (v, further).
Proof.
  intros G B E. destruct (load_constructible k bytes v rest G B E) as [W C]. rewrite (save_load k v further W), C. reflexivity.
Qed.
Lemma appended k v further : wt (k_ty k) v = true -> load_whole k (k_save k v ++ further) = k_construct k v.
Proof. intros W. unfold load_whole. rewrite (save_load k v further W). destruct (k_construct k v); reflexivity. Qed.
Lemma other_kind k k' v further : k_ty k = k_ty k' -> (k = KStandardScale <-> k' = KStandardScale) -> wt (k_ty k) v = true ->
  load_whole k' (k_save k v ++ further) = k_construct k' v.
Proof.
  intros T S W. assert (E : k_save k v = k_save k' v).
  { unfold k_save. rewrite T. replace (k_versioned k') with (k_versioned k); [reflexivity|]. destruct k, k'; try reflexivity; first [discriminate (proj1 S eq_refl)|discriminate (proj2 S eq_refl)]. }
  rewrite E. apply appended. now rewrite <- T.
Qed.
Lemma appended_refuted : ~ (forall k bytes v, bytes_ok bytes = true -> load_whole k bytes = Ok v -> bytes = k_save k v).
Proof. intros H. specialize (H KSampleAdd [1;0;0;0;7;0;0;0;42] (VInt 7) eq_refl eq_refl). discriminate. Qed.
Lemma other_kind_refuted : ~ (forall k k' v, k <> k' -> wt (k_ty k) v = true -> k_construct k v = Ok v -> throws (load_whole k' (k_save k v))).
Proof.
  intros H. specialize (H (KMaxAbs (TFloat 8)) (KImputer (TFloat 8)) (VFloat 4616189618054758400) ltac:(discriminate) eq_refl eq_refl). destruct H as [e H]. discriminate.
Qed.
