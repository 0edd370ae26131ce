From Verif Require Import Base M_Archive M_Codec M_Save L_Archive L_Codec L_Codec2.

Lemma read_version_ok rest : read_version (le_bytes 2 1 ++ le_bytes 2 0 ++ rest) = Ok (tt, rest).
Proof.
  unfold read_version. rewrite (get_fixed_emits 2 1 (le_bytes 2 0 ++ rest)). cbn [bind fst snd].
  rewrite (get_fixed_emits 2 0 rest). reflexivity.
Qed.

Lemma save_load k v further : wt (k_ty k) v = true ->
  k_load k (k_save k v ++ further) = do x <- k_construct k v; Ok (x, further).
Proof.
  intros Hw. unfold k_load, k_save, k_construct. destruct (k_versioned k).
  - rewrite <- !app_assoc. rewrite read_version_ok. cbn [bind snd].
    rewrite (dec_roundtrip _ _ _ Hw). cbn [bind fst]. destruct (k_refuses k v); reflexivity.
  - cbn [app bind snd]. rewrite (dec_roundtrip _ _ _ Hw). cbn [bind fst]. destruct (k_refuses k v); reflexivity.
Qed.

Lemma get_fixed_long w bs : (w <= length bs)%nat -> get_fixed w bs = Ok (le_val (firstn w bs), skipn w bs).
Proof. intros H. unfold get_fixed. destruct (Nat.ltb_spec (length bs) w); [lia|reflexivity]. Qed.
Lemma get_fixed_short w bs : (length bs < w)%nat -> get_fixed w bs = Throw RuntimeError.
Proof. intros H. unfold get_fixed. destruct (Nat.ltb_spec (length bs) w); [reflexivity|lia]. Qed.

Lemma version_refused bs : bytes_ok bs = true -> firstn 4 bs <> [1;0;0;0] -> read_version bs = Throw RuntimeError.
Proof.
  intros Hb Hne. destruct bs as [|a [|b [|c [|d r]]]]; try reflexivity.
  unfold read_version. rewrite get_fixed_long by (cbn; lia). cbn [bind fst snd firstn skipn].
  rewrite get_fixed_long by (cbn; lia). cbn [bind fst snd firstn skipn le_val].
  cbn [bytes_ok forallb] in Hb. unfold byte_ok in Hb. cbn [firstn] in Hne.
  destruct (Z.eqb_spec (a + 256 * (b + 256 * 0)) 1); cbn [negb orb]; [|reflexivity].
  destruct (Z.eqb_spec (c + 256 * (d + 256 * 0)) 0); cbn [negb]; [|reflexivity].
  exfalso. apply Hne. assert (a = 1 /\ b = 0 /\ c = 0 /\ d = 0) by lia. intuition congruence.
Qed.

Lemma load_version_refused k bs : k_versioned k = true -> bytes_ok bs = true -> firstn 4 bs <> [1;0;0;0] -> k_load k bs = Throw RuntimeError.
Proof. intros Hv Hb Hn. unfold k_load. rewrite Hv, (version_refused bs Hb Hn). reflexivity. Qed.

Lemma save_header k v : k_versioned k = true -> firstn 4 (k_save k v) = [1;0;0;0].
Proof. intros H. unfold k_save. rewrite H. reflexivity. Qed.

Lemma save_bytes_ok k v : wt (k_ty k) v = true -> bytes_ok (k_save k v) = true.
Proof.
  intros H. unfold k_save. rewrite bytes_ok_app, (enc_bytes_ok _ _ H). destruct (k_versioned k); reflexivity.
Qed.

Lemma load_constructible k bs v rest : good_ty (k_ty k) = true -> bytes_ok bs = true -> k_load k bs = Ok (v, rest) ->
  wt (k_ty k) v = true /\ k_construct k v = Ok v.
Proof.
  intros Hg Hb H. unfold k_load in H.
  assert (Hh : forall h, (if k_versioned k then read_version bs else Ok (tt, bs)) = Ok h -> bytes_ok (snd h) = true).
  { intros h. destruct (k_versioned k).
    - unfold read_version. unfold get_fixed at 1. destruct (Nat.ltb (length bs) 2); [discriminate|]. cbn [bind fst snd].
      unfold get_fixed. destruct (Nat.ltb (length (skipn 2 bs)) 2); [discriminate|]. cbn [bind fst snd].
      destruct (_ || _); [discriminate|]. intros [= <-]. cbn [snd].
      exact (L_Archive.bytes_ok_skipn 2 _ (L_Archive.bytes_ok_skipn 2 _ Hb)).
    - intros [= <-]. exact Hb. }
  destruct (if k_versioned k then read_version bs else Ok (tt, bs)) as [h|e|] eqn:E; cbn [bind] in H; try discriminate.
  specialize (Hh h eq_refl).
  destruct (dec (k_ty k) (snd h)) as [[x r]|e|] eqn:Ed; cbn [bind fst] in H; try discriminate.
  destruct (k_refuses k x) eqn:Er; [discriminate|]. injection H as -> ->.
  split; [exact (dec_well_formed _ _ _ _ Hg Hh Ed)|]. unfold k_construct. rewrite Er. reflexivity.
Qed.

Lemma load_truncated k v p s : wt (k_ty k) v = true -> k_save k v = p ++ s -> s <> [] -> throws (k_load k p).
Proof.
  intros Hw He Hs. unfold k_load, k_save in *. destruct (k_versioned k).
  - destruct p as [|a [|b [|c [|d r]]]]; try (eexists; reflexivity).
    change (le_bytes 2 1 ++ le_bytes 2 0) with [1;0;0;0] in He. cbn [app] in He. injection He as <- <- <- <- He.
    change (1 :: 0 :: 0 :: 0 :: r) with (le_bytes 2 1 ++ le_bytes 2 0 ++ r). rewrite read_version_ok. cbn [bind snd].
    destruct (dec_truncated _ _ _ _ Hw He Hs) as [e Ht]. rewrite Ht. cbn. eexists; reflexivity.
  - cbn [app] in He. cbn [bind snd]. destruct (dec_truncated _ _ _ _ Hw He Hs) as [e Ht]. rewrite Ht. cbn. eexists; reflexivity.
Qed.

(** Per transformer, in terms of the constructor arguments. *)
Definition u_ok (w : nat) (z : Z) : Prop := 0 <= z < 2 ^ (8 * Z.of_nat w).
Lemma u_ok_fits w z : u_ok w z -> fits_u w z = true.
Proof. unfold u_ok, fits_u, two_pow8. change 256 with (2 ^ 8). rewrite <- Z.pow_mul_r by lia. lia. Qed.

Lemma load_hash_onehot seed cols further : u_ok 4 seed -> u_ok 4 cols ->
  k_load KHashOneHot (k_save KHashOneHot (VPair (VInt seed) (VInt cols)) ++ further) =
  if cols =? 0 then Throw RuntimeError else Ok (VPair (VInt seed) (VInt cols), further).
Proof.
  intros H1 H2. rewrite save_load by (cbn [k_ty wt]; rewrite !u_ok_fits by assumption; reflexivity).
  unfold k_construct. cbn [k_refuses]. unfold u_ok in H2. destruct (Z.leb_spec cols 0), (Z.eqb_spec cols 0); try lia; reflexivity.
Qed.
Lemma load_rolling calc horizon mx mn further : u_ok 1 calc -> u_ok 4 horizon -> u_ok 4 mx -> u_ok 4 mn ->
  let v := VPair (VInt calc) (VPair (VInt horizon) (VPair (VInt mx) (VInt mn))) in
  k_load KRollingWindow (k_save KRollingWindow v ++ further) =
  if (1 <=? horizon) && (1 <=? mn) && (mn <=? mx) then Ok (v, further) else Throw InvalidArgument.
Proof.
  intros H1 H2 H3 H4 v. rewrite save_load by (cbn [k_ty wt v]; rewrite !u_ok_fits by assumption; reflexivity).
  unfold k_construct. cbn [k_refuses v].
  destruct (Z.ltb_spec horizon 1), (Z.ltb_spec mx 1), (Z.ltb_spec mn 1), (Z.ltb_spec mx mn),
    (Z.leb_spec 1 horizon), (Z.leb_spec 1 mn), (Z.leb_spec mn mx); try lia; reflexivity.
Qed.

(** A label map of the given key type. *)
Definition label_map (t : ty) (m : list (val * Z)) : Prop :=
  len32 m = true /\ Forall (fun p => wt t (fst p) = true /\ u_ok 4 (snd p)) m /\ distinct_by (key_eq t) (map fst m) = true.
Definition vmap (m : list (val * Z)) : val := VMap (map (fun p => (fst p, VInt (snd p))) m).
Lemma label_map_wt t m : label_map t m -> wt (TUMap t (TUInt 4)) (vmap m) = true.
Proof.
  intros (H1 & H2 & H3). cbn [wt vmap]. unfold vmap. cbn [wt]. unfold len32 in *. rewrite map_length, H1.
  rewrite map_map. cbn [fst snd]. change (map (fun x : val * Z => fst x) m) with (map fst m). rewrite H3, andb_true_r. cbn [andb].
  apply forallb_forall. intros p Hp. apply in_map_iff in Hp. destruct Hp as [q [<- Hq]]. cbn [fst snd wt].
  rewrite Forall_forall in H2. destruct (H2 q Hq) as [-> Hu]. now rewrite u_ok_fits.
Qed.
Lemma load_onehot t m b further : label_map t m ->
  let v := VPair (vmap m) (VBool b) in
  k_load (KOneHot t) (k_save (KOneHot t) v ++ further) =
  match m with [] => Throw InvalidArgument | _ => Ok (v, further) end.
Proof.
  intros H v. rewrite save_load by (unfold v; cbn [k_ty]; change (wt (TUMap t (TUInt 4)) (vmap m) && true = true); rewrite label_map_wt by exact H; reflexivity).
  unfold k_construct. cbn [v k_refuses vmap]. destruct m; reflexivity.
Qed.
Lemma load_label t m b further : label_map t m ->
  let v := VPair (vmap m) (VBool b) in
  k_load (KLabelEncoder t) (k_save (KLabelEncoder t) v ++ further) = Ok (v, further).
Proof.
  intros H v. rewrite save_load by (unfold v; cbn [k_ty]; change (wt (TUMap t (TUInt 4)) (vmap m) && true = true); rewrite label_map_wt by exact H; reflexivity).
  reflexivity.
Qed.
Lemma load_numericalize t m further : label_map t m ->
  k_load (KNumericalize t) (k_save (KNumericalize t) (vmap m) ++ further) = Ok (vmap m, further).
Proof. intros H. rewrite save_load by (cbn [k_ty]; exact (label_map_wt t m H)). reflexivity. Qed.

Lemma load_value k t v further : k = KMaxAbs t \/ k = KImputer t \/ k = KCatImputer t -> wt t v = true ->
  k_load k (k_save k v ++ further) = Ok (v, further).
Proof. intros [->|[->| ->]] Hw; rewrite save_load by exact Hw; reflexivity. Qed.
Lemma load_robust t m s further : wt t m = true -> wt t s = true ->
  k_load (KRobust t) (k_save (KRobust t) (VPair m s) ++ further) = Ok (VPair m s, further).
Proof. intros H1 H2. rewrite save_load by (cbn [k_ty wt]; now rewrite H1, H2). reflexivity. Qed.
Lemma load_fill k t o further : k = KForwardFill t \/ k = KBackwardFill t -> (forall v, o = Some v -> wt t v = true) ->
  k_load k (k_save k (VOpt o) ++ further) = Ok (VOpt o, further).
Proof.
  intros [->| ->] Hw; rewrite save_load by (cbn [k_ty wt]; destruct o; auto); reflexivity.
Qed.
Lemma load_bool k nullable b further : k = KToString nullable \/ k = KFromString nullable ->
  k_load k (k_save k (VBool b) ++ further) = if b && negb nullable then Throw InvalidArgument else Ok (VBool b, further).
Proof. intros [->| ->]; rewrite save_load by reflexivity; destruct b, nullable; reflexivity. Qed.

(** A double that is less than zero: sign bit set, not NaN, not -0.0. *)
Definition negative_double (b : Z) : Prop := 2 ^ 63 < b <= 2 ^ 63 + 0x7FF0000000000000.
Lemma negative_double_spec b : u_ok 8 b -> (negb (f_nan 8 b) && (f_key 8 b <? 0) = true <-> negative_double b).
Proof.
  unfold u_ok, negative_double, f_nan, f_key. change (two_pow8 8 / 2) with (2 ^ 63). change (Nat.eqb 8 4) with false. cbv iota.
  intros H. destruct (Z.leb_spec (2 ^ 63) b).
  - replace (b mod 2 ^ 63) with (b - 2 ^ 63) by (apply Z.mod_unique_pos with 1; lia). lia.
  - rewrite Z.mod_small by lia. lia.
Qed.
Lemma load_standard avg dev further : u_ok 8 avg -> u_ok 8 dev ->
  let v := VPair (VFloat avg) (VFloat dev) in
  (negative_double dev -> k_load KStandardScale (k_save KStandardScale v ++ further) = Throw InvalidArgument) /\
  (~ negative_double dev -> k_load KStandardScale (k_save KStandardScale v ++ further) = Ok (v, further)).
Proof.
  intros H1 H2 v. rewrite save_load by (cbn [k_ty wt v]; rewrite !u_ok_fits by assumption; reflexivity).
  unfold k_construct. cbn [k_refuses v]. rewrite <- (negative_double_spec dev H2).
  destruct (negb (f_nan 8 dev) && (f_key 8 dev <? 0)); split; intros H; try congruence; reflexivity.
Qed.
Lemma load_normalize norms further : len32 norms = true -> Forall (u_ok 8) norms ->
  let v := VList (map VFloat norms) in
  (norms = [] \/ Exists negative_double norms -> k_load KNormalize (k_save KNormalize v ++ further) = Throw InvalidArgument) /\
  (~ (norms = [] \/ Exists negative_double norms) -> k_load KNormalize (k_save KNormalize v ++ further) = Ok (v, further)).
Proof.
  intros Hl Hu v.
  assert (Hw : wt (k_ty KNormalize) v = true).
  { cbn [k_ty wt v]. unfold len32 in *. rewrite map_length, Hl. apply forallb_forall. intros x Hx. apply in_map_iff in Hx.
    destruct Hx as [b [<- Hb]]. cbn [wt]. rewrite Forall_forall in Hu. now apply u_ok_fits, Hu. }
  rewrite save_load by exact Hw. unfold k_construct.
  set (neg := fun x : val => match x with VFloat b => negb (f_nan 8 b) && (f_key 8 b <? 0) | _ => false end).
  assert (Hr : k_refuses KNormalize v = match norms with [] => Some InvalidArgument | _ => if existsb neg (map VFloat norms) then Some InvalidArgument else None end).
  { unfold v. destruct norms; reflexivity. }
  assert (He : existsb neg (map VFloat norms) = true <-> Exists negative_double norms).
  { rewrite existsb_exists, Exists_exists. split.
    - intros (x & Hx & Hn). apply in_map_iff in Hx. destruct Hx as [b [<- Hb]]. exists b. split; [exact Hb|].
      rewrite Forall_forall in Hu. now apply negative_double_spec; [apply Hu|].
    - intros (b & Hb & Hn). exists (VFloat b). split; [now apply in_map|]. rewrite Forall_forall in Hu.
      now apply negative_double_spec in Hn; [|apply Hu]. }
  rewrite Hr. rewrite <- He. destruct norms as [|x r].
  - split; [reflexivity|]. intros H. exfalso. apply H. now left.
  - destruct (existsb neg (map VFloat (x :: r))); split; intros H; try reflexivity.
    + exfalso. apply H. now right.
    + destruct H; discriminate.
Qed.
Lemma load_datetime known s further : wt TString (VStr s) = true ->
  k_load (KDateTime known) (k_save (KDateTime known) (VStr s) ++ further) =
  if (Nat.eqb (length s) 0) || known s then Ok (VStr s, further) else Throw InvalidArgument.
Proof.
  intros H. rewrite save_load by exact H. unfold k_construct. destruct s as [|c r]; [reflexivity|].
  cbn [k_refuses length Nat.eqb orb]. destruct (known (c :: r)); reflexivity.
Qed.
Lemma load_matrix colmaj t r c l further : wt (TColMaj t) (VMat r c l) = true ->
  k_load (KMatrix colmaj t) (k_save (KMatrix colmaj t) (VMat r c l) ++ further) =
  if (r =? 0) || (c =? 0) then Throw InvalidArgument else Ok (VMat r c l, further).
Proof.
  intros H. rewrite save_load by (destruct colmaj; exact H). unfold k_construct. cbn [k_refuses].
  destruct (Z.eqb_spec (r * c) 0), (Z.eqb_spec r 0), (Z.eqb_spec c 0); try nia; reflexivity.
Qed.
Lemma load_tfidf labels freqs total norm policy lower analyzer regex mn mx further :
  label_map TString labels -> label_map TString freqs -> u_ok 4 total -> u_ok 1 norm -> u_ok 4 policy -> u_ok 1 analyzer ->
  wt TString (VStr regex) = true -> u_ok 4 mn -> u_ok 4 mx ->
  let v := VPair (vmap labels) (VPair (vmap freqs) (VPair (VInt total) (VPair (VInt norm) (VPair (VInt policy)
     (VPair (VBool lower) (VPair (VInt analyzer) (VPair (VStr regex) (VPair (VInt mn) (VInt mx))))))))) in
  k_load KTfidf (k_save KTfidf v ++ further) =
  match labels, freqs with [], _ | _, [] => Throw InvalidArgument | _, _ => Ok (v, further) end.
Proof.
  intros H1 H2 H3 H4 H5 H6 H7 H8 H9 v.
  assert (Hw : wt (k_ty KTfidf) v = true).
  { unfold v. change (wt (TUMap TString (TUInt 4)) (vmap labels) && (wt (TUMap TString (TUInt 4)) (vmap freqs) &&
      (fits_u 4 total && (fits_u 1 norm && (fits_u 4 policy && (true && (fits_u 1 analyzer && (wt TString (VStr regex) && (fits_u 4 mn && fits_u 4 mx)))))))) = true).
    rewrite !label_map_wt, !u_ok_fits, H7 by assumption. reflexivity. }
  rewrite save_load by exact Hw. unfold k_construct, v, vmap. cbn [k_refuses].
  destruct labels, freqs; reflexivity.
Qed.
Lemma load_grains l further : len32 l = true -> Forall (fun g => wt (TVector TString) g = true) l -> distinct_by (key_eq (TVector TString)) l = true ->
  k_load KShortGrainDropper (k_save KShortGrainDropper (VSet l) ++ further) = Ok (VSet l, further).
Proof.
  intros H1 H2 H3. rewrite save_load; [reflexivity|]. unfold k_ty.
  change (len32 l && forallb (wt (TVector TString)) l && distinct_by (key_eq (TVector TString)) l = true).
  rewrite H1, H3. rewrite (proj2 (forallb_Forall _ _) H2). reflexivity.
Qed.
