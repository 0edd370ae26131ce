(** C08, C09: saving and loading transformers. *)
From Verif Require Import Base M_Archive M_Codec M_Save L_Codec2 L_Save.

(** C08.  The first four bytes of an archive are the little-endian 16-bit version numbers. *)
Theorem C08_other_versions_refused : forall (k : kind) (bytes : list Z),
  k <> KStandardScale -> bytes_ok bytes = true -> firstn 4 bytes <> [1;0; 0;0] -> k_load k bytes = Throw RuntimeError.
Proof. exact (fun k bs Hk => load_version_refused k bs (match k return (k <> KStandardScale -> k_versioned k = true) with KStandardScale => fun H => match H eq_refl with end | _ => fun _ => eq_refl end Hk)). Qed.
Print Assumptions C08_other_versions_refused.
Theorem C08_own_version_written : forall (k : kind) (v : val), k <> KStandardScale -> firstn 4 (k_save k v) = [1;0; 0;0].
Proof. exact (fun k v Hk => save_header k v (match k return (k <> KStandardScale -> k_versioned k = true) with KStandardScale => fun H => match H eq_refl with end | _ => fun _ => eq_refl end Hk)). Qed.
Print Assumptions C08_own_version_written.
(** StandardScaleWrapper writes no version: an archive that starts with any other version numbers is read as data. *)
Theorem C08_standard_scaler_refuted : forall major minor, fits_u 2 major = true -> fits_u 2 minor = true ->
  exists rest v, k_load KStandardScale (le_bytes 2 major ++ le_bytes 2 minor ++ rest) = Ok (v, []).
Proof.
  exact (fun major minor _ _ => ex_intro _ (repeat 0 12) (ex_intro _ (VPair (VFloat (le_val (le_bytes 2 major ++ le_bytes 2 minor ++ repeat 0 4))) (VFloat 0)) eq_refl)).
Qed.
Print Assumptions C08_standard_scaler_refuted.
Example C08_case : k_load KSampleAdd [1;0;0;0;7;0;0;0;42] = Ok (VInt 7, [42]) /\ k_load KSampleAdd [1;0;1;0;7;0;0;0] = Throw RuntimeError
  /\ k_load KSampleAdd [1;0;0] = Throw RuntimeError.
Proof. repeat split. Qed.

(** C09.  [v]: the parameters of any kind of transformer.  Loading the saved bytes is the same as constructing it again:
    it gives the same parameters or throws what the constructor throws, and leaves exactly the bytes that follow. *)
Theorem C09_save_load : forall (k : kind) (v : val) (further : list Z), wt (k_ty k) v = true ->
  k_load k (k_save k v ++ further) = do x <- k_construct k v; Ok (x, further).
Proof. exact save_load. Qed.
Print Assumptions C09_save_load.
Theorem C09_truncated_rejected : forall k v p s, wt (k_ty k) v = true -> k_save k v = p ++ s -> s <> [] -> throws (k_load k p).
Proof. exact load_truncated. Qed.
Print Assumptions C09_truncated_rejected.
(** Whatever the bytes, what is loaded is a transformer its constructor would accept. *)
Theorem C09_only_constructible : forall k bytes v rest, good_ty (k_ty k) = true -> bytes_ok bytes = true ->
  k_load k bytes = Ok (v, rest) -> wt (k_ty k) v = true /\ k_construct k v = Ok v.
Proof. exact load_constructible. Qed.
Print Assumptions C09_only_constructible.
Example C09_case :
  let v := VPair (VMap [(VStr [98], VInt 1); (VStr [97; 98], VInt 0)]) (VBool true) in
  wt (k_ty (KOneHot TString)) v = true /\ k_construct (KOneHot TString) v = Ok v /\
  k_load (KOneHot TString) (k_save (KOneHot TString) v ++ [5]) = Ok (v, [5]) /\
  k_save (KOneHot TString) v = [1;0; 0;0; 2;0;0;0; 1;0;0;0;98; 1;0;0;0; 2;0;0;0;97;98; 0;0;0;0; 1] /\
  k_load (KOneHot TString) [1;0; 0;0; 0;0;0;0; 1] = Throw InvalidArgument.
Proof. repeat split. Qed.
(** The same in terms of each transformer's own parameters: whatever can be constructed loads back, with the checks of the
    constructor spelled out.  [u_ok w z]: z is an unsigned integer of w bytes; [label_map t m]: m maps distinct values of
    type t to 32-bit labels. *)
Theorem C09_encoders : forall t m b further, label_map t m ->
  k_load (KOneHot t) (k_save (KOneHot t) (VPair (vmap m) (VBool b)) ++ further)
    = (match m with [] => Throw InvalidArgument | _ => Ok (VPair (vmap m) (VBool b), further) end) /\
  k_load (KLabelEncoder t) (k_save (KLabelEncoder t) (VPair (vmap m) (VBool b)) ++ further) = Ok (VPair (vmap m) (VBool b), further) /\
  k_load (KNumericalize t) (k_save (KNumericalize t) (vmap m) ++ further) = Ok (vmap m, further).
Proof. exact (fun t m b f H => conj (load_onehot t m b f H) (conj (load_label t m b f H) (load_numericalize t m f H))). Qed.
Print Assumptions C09_encoders.
Theorem C09_hash_encoder : forall seed cols further, u_ok 4 seed -> u_ok 4 cols ->
  k_load KHashOneHot (k_save KHashOneHot (VPair (VInt seed) (VInt cols)) ++ further) =
  if cols =? 0 then Throw RuntimeError else Ok (VPair (VInt seed) (VInt cols), further).
Proof. exact load_hash_onehot. Qed.
Print Assumptions C09_hash_encoder.
Theorem C09_rolling_window : forall calculation horizon max_window min_window further,
  u_ok 1 calculation -> u_ok 4 horizon -> u_ok 4 max_window -> u_ok 4 min_window ->
  let v := VPair (VInt calculation) (VPair (VInt horizon) (VPair (VInt max_window) (VInt min_window))) in
  k_load KRollingWindow (k_save KRollingWindow v ++ further) =
  if (1 <=? horizon) && (1 <=? min_window) && (min_window <=? max_window) then Ok (v, further) else Throw InvalidArgument.
Proof. exact load_rolling. Qed.
Print Assumptions C09_rolling_window.
Theorem C09_single_value : forall k t v further, k = KMaxAbs t \/ k = KImputer t \/ k = KCatImputer t -> wt t v = true ->
  k_load k (k_save k v ++ further) = Ok (v, further).
Proof. exact load_value. Qed.
Print Assumptions C09_single_value.
Theorem C09_robust_scaler : forall t median scale further, wt t median = true -> wt t scale = true ->
  k_load (KRobust t) (k_save (KRobust t) (VPair median scale) ++ further) = Ok (VPair median scale, further).
Proof. exact load_robust. Qed.
Print Assumptions C09_robust_scaler.
Theorem C09_fill_imputers : forall k t default further, k = KForwardFill t \/ k = KBackwardFill t ->
  (forall v, default = Some v -> wt t v = true) -> k_load k (k_save k (VOpt default) ++ further) = Ok (VOpt default, further).
Proof. exact load_fill. Qed.
Print Assumptions C09_fill_imputers.
Theorem C09_string_conversion : forall k nullable b further, k = KToString nullable \/ k = KFromString nullable ->
  k_load k (k_save k (VBool b) ++ further) = if b && negb nullable then Throw InvalidArgument else Ok (VBool b, further).
Proof. exact load_bool. Qed.
Print Assumptions C09_string_conversion.
(** [negative_double b]: b is the bit pattern of a double less than zero. *)
Theorem C09_standard_scaler : forall average deviation further, u_ok 8 average -> u_ok 8 deviation ->
  let v := VPair (VFloat average) (VFloat deviation) in
  (negative_double deviation -> k_load KStandardScale (k_save KStandardScale v ++ further) = Throw InvalidArgument) /\
  (~ negative_double deviation -> k_load KStandardScale (k_save KStandardScale v ++ further) = Ok (v, further)).
Proof. exact load_standard. Qed.
Print Assumptions C09_standard_scaler.
Theorem C09_normalizer : forall norms further, len32 norms = true -> Forall (u_ok 8) norms ->
  let v := VList (map VFloat norms) in
  (norms = [] \/ Exists negative_double norms -> k_load KNormalize (k_save KNormalize v ++ further) = Throw InvalidArgument) /\
  (~ (norms = [] \/ Exists negative_double norms) -> k_load KNormalize (k_save KNormalize v ++ further) = Ok (v, further)).
Proof. exact load_normalize. Qed.
Print Assumptions C09_normalizer.
Theorem C09_date_time : forall known country further, wt TString (VStr country) = true ->
  k_load (KDateTime known) (k_save (KDateTime known) (VStr country) ++ further) =
  if (Nat.eqb (length country) 0) || known country then Ok (VStr country, further) else Throw InvalidArgument.
Proof. exact load_datetime. Qed.
Print Assumptions C09_date_time.
Theorem C09_projections : forall colmaj t r c l further, wt (TColMaj t) (VMat r c l) = true ->
  k_load (KMatrix colmaj t) (k_save (KMatrix colmaj t) (VMat r c l) ++ further) =
  if (r =? 0) || (c =? 0) then Throw InvalidArgument else Ok (VMat r c l, further).
Proof. exact load_matrix. Qed.
Print Assumptions C09_projections.
Theorem C09_vectorizers : forall labels freqs total norm policy lower analyzer regex mn mx further,
  label_map TString labels -> label_map TString freqs -> u_ok 4 total -> u_ok 1 norm -> u_ok 4 policy -> u_ok 1 analyzer ->
  wt TString (VStr regex) = true -> u_ok 4 mn -> u_ok 4 mx ->
  let v := VPair (vmap labels) (VPair (vmap freqs) (VPair (VInt total) (VPair (VInt norm) (VPair (VInt policy)
     (VPair (VBool lower) (VPair (VInt analyzer) (VPair (VStr regex) (VPair (VInt mn) (VInt mx))))))))) in
  k_load KTfidf (k_save KTfidf v ++ further) =
  match labels, freqs with [], _ | _, [] => Throw InvalidArgument | _, _ => Ok (v, further) end.
Proof. exact load_tfidf. Qed.
Print Assumptions C09_vectorizers.
Theorem C09_short_grain_dropper : forall l further, len32 l = true -> Forall (fun g => wt (TVector TString) g = true) l ->
  distinct_by (key_eq (TVector TString)) l = true ->
  k_load KShortGrainDropper (k_save KShortGrainDropper (VSet l) ++ further) = Ok (VSet l, further).
Proof. exact load_grains. Qed.
Print Assumptions C09_short_grain_dropper.
(** The layout of every archive, and what each constructor refuses. *)
Example C09_layouts :
  k_save KHeaderOnly VUnit = [1;0;0;0] /\
  k_save (KLabelEncoder (TUInt 1)) (VPair (VMap [(VInt 7, VInt 0)]) (VBool false)) = [1;0;0;0; 1;0;0;0; 7; 0;0;0;0; 0] /\
  k_save (KNumericalize (TUInt 1)) (VMap [(VInt 7, VInt 0)]) = [1;0;0;0; 1;0;0;0; 7; 0;0;0;0] /\
  k_save KHashOneHot (VPair (VInt 5) (VInt 100)) = [1;0;0;0; 5;0;0;0; 100;0;0;0] /\
  k_load KHashOneHot [1;0;0;0; 5;0;0;0; 0;0;0;0] = Throw RuntimeError /\
  k_save (KMaxAbs (TSInt 2)) (VInt (-2)) = [1;0;0;0; 254;255] /\
  k_save (KRobust (TUInt 1)) (VPair (VInt 3) (VInt 4)) = [1;0;0;0; 3; 4] /\
  k_save KStandardScale (VPair (VFloat 1) (VFloat 2)) = [1;0;0;0;0;0;0;0; 2;0;0;0;0;0;0;0] /\
  k_load KStandardScale [1;0;0;0;0;0;0;0; 0;0;0;0;0;0;0;129] = Throw InvalidArgument /\
  k_save KNormalize (VList [VFloat 1]) = [1;0;0;0; 1;0;0;0; 1;0;0;0;0;0;0;0] /\
  k_load KNormalize [1;0;0;0; 0;0;0;0] = Throw InvalidArgument /\
  k_load KNormalize [1;0;0;0; 1;0;0;0; 1;0;0;0;0;0;0;128] = Throw InvalidArgument /\
  k_save (KImputer (TUInt 1)) (VInt 9) = [1;0;0;0; 9] /\
  k_save (KForwardFill (TUInt 1)) (VOpt (Some (VInt 9))) = [1;0;0;0; 1;9] /\
  k_save (KBackwardFill (TUInt 1)) (VOpt None) = [1;0;0;0; 0] /\
  k_save (KToString true) (VBool true) = [1;0;0;0; 1] /\
  k_load (KToString false) [1;0;0;0; 1] = Throw InvalidArgument /\
  k_load (KFromString false) [1;0;0;0; 1] = Throw InvalidArgument /\
  k_save KShortGrainDropper (VSet [VList [VStr [65]; VStr []]]) = [1;0;0;0; 1;0;0;0; 2;0;0;0; 1;0;0;0;65; 0;0;0;0] /\
  k_save (KDateTime (fun _ => true)) (VStr [85;83]) = [1;0;0;0; 2;0;0;0;85;83] /\
  k_load (KDateTime (fun _ => false)) [1;0;0;0; 2;0;0;0;85;83] = Throw InvalidArgument /\
  k_save KRollingWindow (VPair (VInt 1) (VPair (VInt 2) (VPair (VInt 5) (VInt 3)))) = [1;0;0;0; 1; 2;0;0;0; 5;0;0;0; 3;0;0;0] /\
  k_load KRollingWindow [1;0;0;0; 1; 0;0;0;0; 5;0;0;0; 3;0;0;0] = Throw InvalidArgument /\
  k_load KRollingWindow [1;0;0;0; 1; 2;0;0;0; 0;0;0;0; 0;0;0;0] = Throw InvalidArgument /\
  k_load KRollingWindow [1;0;0;0; 1; 2;0;0;0; 5;0;0;0; 0;0;0;0] = Throw InvalidArgument /\
  k_load KRollingWindow [1;0;0;0; 1; 2;0;0;0; 5;0;0;0; 6;0;0;0] = Throw InvalidArgument /\
  k_load (KMatrix true (TUInt 1)) ([1;0;0;0] ++ le_bytes 8 2 ++ le_bytes 8 1 ++ [6;7]) = Ok (VMat 2 1 [VInt 6; VInt 7], []) /\
  k_load (KMatrix false (TUInt 1)) ([1;0;0;0] ++ le_bytes 8 0 ++ le_bytes 8 3) = Throw InvalidArgument /\
  k_save KTfidf (VPair (VMap [(VStr [97], VInt 0)]) (VPair (VMap [(VStr [97], VInt 3)]) (VPair (VInt 4) (VPair (VInt 2)
     (VPair (VInt 6) (VPair (VBool true) (VPair (VInt 1) (VPair (VStr []) (VPair (VInt 1) (VInt 2))))))))))
   = [1;0;0;0; 1;0;0;0; 1;0;0;0;97; 0;0;0;0;  1;0;0;0; 1;0;0;0;97; 3;0;0;0;  4;0;0;0; 2; 6;0;0;0; 1; 1; 0;0;0;0; 1;0;0;0; 2;0;0;0].
Proof. repeat split. Qed.
