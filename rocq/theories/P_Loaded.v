(** C86: what saved data is loaded as.  [k]: a kind of transformer, [v]: its parameters ([wt]: of the right types; an unordered container is
    the list of its items in the order in which it was written).  [k_construct k v]: constructing it, [k_save]: its saved bytes,
    [load_whole]: CreateTransformerFromSavedData. *)
From Verif Require Import Base M_Archive M_Codec M_Save M_Loaded L_Codec2 L_Save L_Loaded.

(** Saved data determine the transformer: two transformers of one kind whose data begin alike are the same, and the data end at the same place. *)
Theorem C86_identified : forall (k : kind) (v v' : val) (further further' : list Z), wt (k_ty k) v = true -> wt (k_ty k) v' = true ->
  k_construct k v = Ok v -> k_construct k v' = Ok v' -> k_save k v ++ further = k_save k v' ++ further' -> v = v' /\ further = further'.
Proof. exact identified. Qed.
Print Assumptions C86_identified.
(** Whatever bytes were loaded: what was loaded can be saved, and loads as the same transformer again. *)
Theorem C86_loaded_saves_again : forall (k : kind) (bytes : list Z) (v : val) (rest further : list Z), good_ty (k_ty k) = true -> bytes_ok bytes = true ->
  k_load k bytes = Ok (v, rest) -> k_load k (k_save k v ++ further) = Ok (v, further).
Proof. exact loaded_saves_again. Qed.
Print Assumptions C86_loaded_saves_again.
(** What stands behind the saved data makes no difference ... *)
Theorem C86_appended : forall (k : kind) (v : val) (further : list Z), wt (k_ty k) v = true -> load_whole k (k_save k v ++ further) = k_construct k v.
Proof. exact appended. Qed.
Print Assumptions C86_appended.
(** ... and is not noticed: data that were not saved by any transformer may be accepted. *)
Theorem C86_appended_refuted : ~ (forall k bytes v, bytes_ok bytes = true -> load_whole k bytes = Ok v -> bytes = k_save k v).
Proof. exact appended_refuted. Qed.
Print Assumptions C86_appended_refuted.
(** Data of a transformer of another kind whose parameters have the same types are read as the parameters of this kind ... *)
Theorem C86_other_kind : forall (k k' : kind) (v : val) (further : list Z), k_ty k = k_ty k' -> (k = KStandardScale <-> k' = KStandardScale) -> wt (k_ty k) v = true ->
  load_whole k' (k_save k v ++ further) = k_construct k' v.
Proof. exact other_kind. Qed.
Print Assumptions C86_other_kind.
(** ... so the data of one featurizer may be accepted by another. *)
Theorem C86_other_kind_refuted : ~ (forall k k' v, k <> k' -> wt (k_ty k) v = true -> k_construct k v = Ok v -> throws (load_whole k' (k_save k v))).
Proof. exact other_kind_refuted. Qed.
Print Assumptions C86_other_kind_refuted.
(** The labels of a label encoder for strings, loaded as such, as a one-hot encoder, and as a scaler of doubles. *)
Example C86_case :
  let v := VPair (VMap [(VStr [98], VInt 1); (VStr [97; 98], VInt 0)]) (VBool true) in
  wt (k_ty (KLabelEncoder TString)) v = true /\ good_ty (k_ty (KLabelEncoder TString)) = true /\ bytes_ok (k_save (KLabelEncoder TString) v) = true /\
  load_whole (KLabelEncoder TString) (k_save (KLabelEncoder TString) v ++ [5]) = Ok v /\
  load_whole (KOneHot TString) (k_save (KLabelEncoder TString) v) = Ok v /\
  load_whole (KMaxAbs (TFloat 8)) (k_save (KLabelEncoder TString) v) = Ok (VFloat 4294967298) /\
  k_save (KLabelEncoder TString) v <> k_save (KLabelEncoder TString) (VPair (VMap [(VStr [98], VInt 1); (VStr [97; 98], VInt 2)]) (VBool true)).
Proof. repeat (split; [vm_compute; reflexivity|]). intros H. vm_compute in H. discriminate. Qed.
