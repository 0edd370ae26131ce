From Verif Require Import Base L_List M_Archive L_Archive M_Codec L_Codec L_Codec2 M_Save L_Save M_TsImpute M_TsSave S_TsSave.
Open Scope Z_scope.

(** *** Types, strategies *)
Lemma valid_type_spec id : valid_type id = true <-> type_id id.
Proof.
  unfold valid_type, type_id. rewrite orb_true_iff, andb_true_iff. cbn [existsb]. rewrite !orb_true_iff, !Z.eqb_eq.
  change 0x10010014 with 268501012. change 0x10010018 with 268501016. change 0x10020019 with 268566553. lia.
Qed.
Lemma valid_types_spec l : forallb valid_type l = true <-> Forall type_id l.
Proof. rewrite forallb_Forall. split; apply Forall_impl; intros a; apply valid_type_spec. Qed.
Lemma strategy_of_code s : strategy_of (strategy_code s) = Some s.
Proof. destruct s; reflexivity. Qed.

(** *** Values *)
Lemma len32_fits {A} (l : list A) : len32 l = true <-> fits32 l.
Proof. unfold len32, fits32. change (2 ^ 32) with 4294967296. lia. Qed.
Lemma fits32_map {A B} (f : A -> B) l : fits32 (map f l) <-> fits32 l.
Proof. unfold fits32. rewrite map_length. tauto. Qed.
Lemma ids_wt l : ids_ok l -> wt ids_ty (ids_val l) = true.
Proof.
  intros [H1 H2]. unfold ids_ty, ids_val. cbn [wt]. apply andb_true_iff. split; [apply len32_fits, fits32_map, H1|].
  rewrite forallb_Forall, Forall_map. eapply Forall_impl; [|exact H2]. intros a Ha. cbn [wt]. unfold fits_u, two_pow8, type_id in *.
  change (Z.of_nat 4) with 4. change (2 ^ (8 * 4)) with 4294967296.
  change 0x10010014 with 268501012 in Ha. change 0x10010018 with 268501016 in Ha. change 0x10020019 with 268566553 in Ha. cbn. lia.
Qed.
Lemma map_id_on {A B} (f : A -> B) (g : B -> A) l : (forall x, g (f x) = x) -> map g (map f l) = l.
Proof. intros H. rewrite map_map. induction l as [|a l IH]; [reflexivity|]. cbn [map]. now rewrite H, IH. Qed.
Lemma ids_of_val l : ids_of (ids_val l) = l.
Proof. unfold ids_of, ids_val. cbn [as_list]. now apply map_id_on. Qed.
Lemma ids_fits v : wt ids_ty v = true -> fits32 (ids_of v).
Proof.
  unfold ids_ty. destruct v; cbn [wt]; try discriminate. intros H. apply andb_true_iff in H as [H _]. unfold ids_of. cbn [as_list].
  apply fits32_map, len32_fits, H.
Qed.

Lemma bytes_ok_spec s : bytes_ok s = true <-> Forall (fun c => 0 <= c < 256) s.
Proof. unfold bytes_ok. rewrite forallb_Forall. split; apply Forall_impl; intros a; unfold byte_ok; lia. Qed.
Lemma text_wt s : wt TString (VStr s) = true <-> text_ok s.
Proof. cbn [wt]. rewrite andb_true_iff, bytes_ok_spec, len32_fits. unfold text_ok. tauto. Qed.
Lemma key_less_lists a : forall b, key_lt (TVector TString) (VList (map VStr a)) (VList (map VStr b)) = list_lt str_lt a b.
Proof.
  induction a as [|x a IH]; intros [|y b]; try reflexivity. specialize (IH b). cbn [key_lt] in *. cbn [map list_lt] in *. now rewrite IH.
Qed.
Lemma sorted_by_spec {A} (lt : A -> A -> bool) l : sorted_by lt l = true <-> StronglySorted (fun a b => lt a b = true) l.
Proof.
  induction l as [|a l IH]; cbn [sorted_by]; [split; auto; constructor|]. rewrite andb_true_iff, IH, forallb_Forall. split.
  - intros [H1 H2]. now constructor.
  - intros H. inversion H; subst. now split.
Qed.
Lemma strongly_map {A B} (R : A -> A -> Prop) (Q : B -> B -> Prop) (f : A -> B) l :
  (forall a b, In a l -> In b l -> (R a b <-> Q (f a) (f b))) -> (StronglySorted R l <-> StronglySorted Q (map f l)).
Proof.
  induction l as [|a l IH]; intros H; cbn [map]; [split; constructor|].
  assert (E : StronglySorted R l <-> StronglySorted Q (map f l)) by (apply IH; intros x y Hx Hy; apply H; now right).
  assert (G : Forall (R a) l <-> Forall (Q (f a)) (map f l)).
  { rewrite Forall_map, !Forall_forall. split; intros F x Hx; apply (H a x); auto; try (now left); now right. }
  split; intros S; inversion S; subst; constructor; tauto.
Qed.

Definition entry_val (e : list (list Z) * list Z) : val * val := (VList (map VStr (fst e)), VList (map VFloat (snd e))).
Definition entry_ok (e : list (list Z) * list Z) : Prop :=
  fits32 (fst e) /\ Forall text_ok (fst e) /\ fits32 (snd e) /\ Forall (fun b => 0 <= b < 2 ^ 64) (snd e).
Lemma key_wt k : wt (TVector TString) (VList (map VStr k)) = true <-> fits32 k /\ Forall text_ok k.
Proof.
  cbn [wt]. rewrite andb_true_iff, len32_fits, fits32_map, forallb_Forall, Forall_map.
  split; intros [H1 H2]; (split; [exact H1|]); eapply Forall_impl; [|exact H2| |exact H2]; intros s; apply text_wt.
Qed.
Lemma doubles_wt k : wt (TVector (TFloat 8)) (VList (map VFloat k)) = true <-> fits32 k /\ Forall (fun b => 0 <= b < 2 ^ 64) k.
Proof.
  cbn [wt]. rewrite andb_true_iff, len32_fits, fits32_map, forallb_Forall, Forall_map.
  assert (E : forall b, fits_u 8 b = true <-> 0 <= b < 2 ^ 64).
  { intros b. unfold fits_u. change (two_pow8 8) with (2 ^ 64). lia. }
  split; intros [H1 H2]; (split; [exact H1|]); eapply Forall_impl; [|exact H2| |exact H2]; intros s; apply E.
Qed.
Lemma wt_map k x l : wt (TMap k x) (VMap l) = true <->
  len32 l = true /\ Forall (fun p => wt k (fst p) = true /\ wt x (snd p) = true) l /\ sorted_by (key_lt k) (map fst l) = true.
Proof.
  cbn [wt]. rewrite !andb_true_iff, forallb_Forall. split.
  - intros [[H1 H2] H3]. repeat split; auto. eapply Forall_impl; [|exact H2]. cbn. intros a Ha. now apply andb_true_iff in Ha.
  - intros (H1 & H2 & H3). repeat split; auto. eapply Forall_impl; [|exact H2]. cbn. intros a Ha. now apply andb_true_iff.
Qed.
Lemma medians_wt m : wt medians_ty (medians_val m) = true <-> medians_ok m.
Proof.
  unfold medians_ty, medians_val, medians_ok. rewrite wt_map. rewrite len32_fits, fits32_map, Forall_map, sorted_by_spec, map_map.
  assert (E : StronglySorted (fun a b => key_lt (TVector TString) a b = true) (map (fun x => fst (VList (map VStr (fst x)), VList (map VFloat (snd x)))) m) <->
              ascending (map fst m)).
  { unfold ascending. cbn [fst].
    rewrite <- (strongly_map (fun a b => list_lt str_lt (fst a) (fst b) = true) (fun a b => key_lt (TVector TString) a b = true)
                  (fun x => VList (map VStr (fst x))) m) by (intros a b _ _; now rewrite key_less_lists).
    apply (strongly_map (fun a b => list_lt str_lt (fst a) (fst b) = true) (fun a b => list_lt str_lt a b = true) fst m). tauto. }
  rewrite E. cbn [fst snd].
  assert (G : Forall (fun x : list (list Z) * list Z => wt (TVector TString) (VList (map VStr (fst x))) = true /\ wt (TVector (TFloat 8)) (VList (map VFloat (snd x))) = true) m <->
              Forall entry_ok m).
  { split; apply Forall_impl; intros e; rewrite key_wt, doubles_wt; unfold entry_ok; tauto. }
  rewrite G. unfold entry_ok. tauto.
Qed.
Lemma medians_of_val m : medians_of (medians_val m) = m.
Proof.
  unfold medians_of, medians_val. rewrite map_map. cbn [fst snd as_list].
  induction m as [|[k v] m IH]; [reflexivity|]. cbn [map fst snd]. rewrite IH. repeat f_equal; now apply map_id_on.
Qed.
Lemma vector_of t (f : val -> list Z) : forall l, wt (TVector t) (VList l) = true -> Forall (fun v => wt t v = true) l.
Proof. intros l H. cbn [wt] in H. apply andb_true_iff in H as [_ H]. now apply forallb_Forall. Qed.
Lemma strs_back l : Forall (fun v => wt TString v = true) l -> map VStr (map as_str l) = l.
Proof. induction 1 as [|v l H _ IH]; [reflexivity|]. cbn [map]. rewrite IH. destruct v; try discriminate H. reflexivity. Qed.
Lemma floats_back l : Forall (fun v => wt (TFloat 8) v = true) l -> map VFloat (map as_float l) = l.
Proof. induction 1 as [|v l H _ IH]; [reflexivity|]. cbn [map]. rewrite IH. destruct v; try discriminate H. reflexivity. Qed.
Lemma medians_back v : wt medians_ty v = true -> medians_val (medians_of v) = v.
Proof.
  unfold medians_ty. destruct v; try discriminate. intros H. apply wt_map in H as (_ & H & _).
  unfold medians_val, medians_of. f_equal. rewrite map_map. cbn [fst snd].
  induction H as [|[a b] l [H1 H2] _ IH]; [reflexivity|]. cbn [map fst snd] in *. rewrite IH. f_equal.
  destruct a as [| | | |a| | | | | |]; try discriminate H1. destruct b as [| | | |b| | | | | |]; try discriminate H2. cbn [as_list].
  rewrite (strs_back a), (floats_back b); [reflexivity| |]; eapply vector_of; eauto; exact (fun _ => []).
Qed.

(** *** Round trips *)
Lemma enc_bool b : enc TBool (VBool b) = le_bytes 1 (if b then 1 else 0). Proof. reflexivity. Qed.
Lemma se_construct_ok s : settings_ok s -> se_construct s = Ok s.
Proof.
  intros (H1 & _ & H2 & _). unfold se_construct, i64_max. destruct (se_types s); [congruence|].
  destruct (Z.eqb_spec (se_freq s) 9223372036854775807); [lia|reflexivity].
Qed.
Lemma in_i64_spec z : in_i64 z = true <-> - 2 ^ 63 <= z < 2 ^ 63.
Proof. unfold in_i64, i64_min, i64_max. change (2 ^ 63) with 9223372036854775808. lia. Qed.
Lemma with_freq_ok p s : 0 < p -> settings_ok s -> settings_ok (with_freq (Z.quot (se_freq s) p * p) s).
Proof.
  intros Hp (H1 & H2 & H3 & H4). pose proof (quot_mul_spec (se_freq s) p Hp) as (_ & _ & A & B & _).
  unfold settings_ok, with_freq. cbn [se_freq se_types se_medians]. repeat split; auto; try apply H2; try apply H4; lia.
Qed.

Lemma ts_roundtrip p s further : 0 < p -> settings_ok s ->
  ts_load p (ts_save p s ++ further) = Ok (with_freq (Z.quot (se_freq s) p * p) s, further).
Proof.
  intros Hp Hs. pose proof Hs as (H1 & H2 & H3 & H4). unfold ts_load, ts_save. rewrite <- !app_assoc.
  rewrite read_version_ok. cbn [bind snd]. rewrite sysdur_roundtrip by (try exact Hp; apply in_i64_spec; lia). cbn [bind fst snd].
  rewrite (dec_roundtrip _ _ _ (ids_wt _ H2)). cbn [bind fst snd]. rewrite ids_of_val.
  destruct H2 as [H2 H2']. rewrite (proj2 (valid_types_spec _) H2'). cbn [negb].
  rewrite dec_roundtrip by (destruct (se_strategy s); reflexivity). cbn [bind fst snd as_int]. rewrite strategy_of_code.
  rewrite (dec_roundtrip _ _ _ (proj2 (medians_wt _) H4)). cbn [bind fst snd]. rewrite medians_of_val.
  rewrite (dec_roundtrip TBool (VBool (se_suppress s)) further eq_refl). cbn [bind fst snd as_bool].
  change (mkSettings (Z.quot (se_freq s) p * p) (se_types s) (se_strategy s) (se_medians s) (se_suppress s)) with (with_freq (Z.quot (se_freq s) p * p) s).
  rewrite (se_construct_ok _ (with_freq_ok p s Hp Hs)). reflexivity.
Qed.
Lemma serializer_ok k d : ids_ok k -> k <> [] -> ids_ok d -> d <> [] -> serializer k d = Ok (k, d).
Proof.
  intros [_ Hk] Nk [_ Hd] Nd. unfold serializer. destruct k as [|a k]; [congruence|]. destruct d as [|b d]; [congruence|].
  now rewrite (proj2 (valid_types_spec _) Hk), (proj2 (valid_types_spec _) Hd).
Qed.
Lemma mem_roundtrip p m further : 0 < p -> memory_ok m ->
  mem_load p (mem_save p m ++ further) =
  Ok (mkMemory (me_keys m) (me_data m) (with_freq (Z.quot (se_freq (me_settings m)) p * p) (me_settings m)), further).
Proof.
  intros Hp (Hk & Nk & Hd & Nd & Hs). unfold mem_load, mem_save. rewrite <- !app_assoc.
  rewrite (dec_roundtrip _ _ _ (ids_wt _ Hk)). cbn [bind fst snd]. rewrite (dec_roundtrip _ _ _ (ids_wt _ Hd)). cbn [bind fst snd].
  rewrite !ids_of_val, (serializer_ok _ _ Hk Nk Hd Nd). cbn [bind fst snd]. rewrite (ts_roundtrip p _ further Hp Hs). reflexivity.
Qed.

Theorem ts_save_load p s further : 0 < p -> settings_ok s ->
  exists f, ts_load p (ts_save p s ++ further) = Ok (with_freq f s, further) /\ cut p (se_freq s) f.
Proof. intros Hp Hs. eexists. split; [now apply ts_roundtrip|]. apply (quot_mul_spec _ _ Hp). Qed.
Theorem mem_save_load p m further : 0 < p -> memory_ok m ->
  exists f, mem_load p (mem_save p m ++ further) = Ok (mkMemory (me_keys m) (me_data m) (with_freq f (me_settings m)), further) /\
    cut p (se_freq (me_settings m)) f.
Proof. intros Hp Hs. eexists. split; [now apply mem_roundtrip|]. apply (quot_mul_spec _ _ Hp). Qed.

(** *** Truncation *)
Lemma throw_mono {A} e : mono (fun _ : list Z => @Throw (A * list Z) e).
Proof. intros bs x. left. now exists e. Qed.
Lemma read_version_mono : mono read_version.
Proof.
  unfold read_version.
  apply (bind_mono (get_fixed 2) (fun major r => do minor <- get_fixed 2 r; if negb (major =? 1) || negb (fst minor =? 0) then Throw RuntimeError else Ok (tt, snd minor)));
    [apply get_fixed_mono|]. intros bs x r _.
  apply (bind_mono (get_fixed 2) (fun minor r => if negb (x =? 1) || negb (minor =? 0) then Throw RuntimeError else Ok (tt, r))); [apply get_fixed_mono|].
  intros bs' y r' _. destruct (_ || _); [apply throw_mono|apply ret_mono].
Qed.
Lemma dec_sysdur_mono p : mono (dec_sysdur p).
Proof.
  unfold dec_sysdur.
  apply (bind_mono (dec (TSInt 8)) (fun v r => match v with VInt us => if in_i64 (us * p) then Ok (us * p, r) else UB | _ => UB end)); [apply dec_mono|].
  intros bs x r _. destruct x; try apply ub_mono. destruct (in_i64 (z * p)); [apply ret_mono|apply ub_mono].
Qed.
Section Stages.
  Variable p f : Z. Variable t : val. Variable st : strategy.
  Definition stage5 (m : val) : parser settings := fun r =>
    do suppress <- dec TBool r; do s <- se_construct (mkSettings f (ids_of t) st (medians_of m) (as_bool (fst suppress))); Ok (s, snd suppress).
  Lemma stage5_mono m : mono (stage5 m).
  Proof.
    apply (bind_mono (dec TBool) (fun b r => do s <- se_construct (mkSettings f (ids_of t) st (medians_of m) (as_bool b)); Ok (s, r)) (dec_mono _)).
    intros bs5 b r5 _. destruct (se_construct _) as [s|e|]; cbn [bind]; [apply ret_mono|apply throw_mono|apply ub_mono].
  Qed.
  Definition stage4 : parser settings := fun r => do medians <- dec medians_ty r; stage5 (fst medians) (snd medians).
  Lemma stage4_mono : mono stage4.
  Proof. apply (bind_mono (dec medians_ty) stage5 (dec_mono _)). intros bs m r _. apply stage5_mono. Qed.
End Stages.
Definition stage3 (f : Z) (t c : val) : parser settings := fun r =>
  match strategy_of (as_int c) with None => Throw RuntimeError | Some st => stage4 f t st r end.
Definition stage2 (f : Z) (t : val) : parser settings := fun r =>
  if negb (forallb valid_type (ids_of t)) then Throw RuntimeError else do code <- dec (TUInt 1) r; stage3 f t (fst code) (snd code).
Lemma stage2_mono f t : mono (stage2 f t).
Proof.
  unfold stage2. destruct (negb _); [apply throw_mono|]. apply (bind_mono (dec (TUInt 1)) (stage3 f t) (dec_mono _)). intros bs c r _.
  unfold stage3. destruct (strategy_of (as_int c)); [apply stage4_mono|apply throw_mono].
Qed.
Definition stage1 (f : Z) : parser settings := fun r => do types <- dec ids_ty r; stage2 f (fst types) (snd types).
Definition stage0 (p : Z) (u : unit) : parser settings := fun r => do freq <- dec_sysdur p r; stage1 (fst freq) (snd freq).
Lemma ts_load_mono p : mono (ts_load p).
Proof.
  apply (bind_mono read_version (stage0 p) read_version_mono). intros bs u r0 _.
  apply (bind_mono (dec_sysdur p) stage1 (dec_sysdur_mono p)). intros bs1 f r1 _.
  apply (bind_mono (dec ids_ty) (stage2 f) (dec_mono _)). intros bs2 t r2 _. apply stage2_mono.
Qed.
Definition mstage2 (p : Z) (k d : val) : parser memory := fun r =>
  do ids <- serializer (ids_of k) (ids_of d); do s <- ts_load p r; Ok (mkMemory (fst ids) (snd ids) (fst s), snd s).
Definition mstage1 (p : Z) (k : val) : parser memory := fun r => do data <- dec ids_ty r; mstage2 p k (fst data) (snd data).
Lemma mem_load_mono p : mono (mem_load p).
Proof.
  apply (bind_mono (dec ids_ty) (mstage1 p) (dec_mono _)). intros bs k r _.
  apply (bind_mono (dec ids_ty) (mstage2 p k) (dec_mono _)). intros bs1 d r1 _. unfold mstage2.
  destruct (serializer _ _) as [ids|e|]; cbn [bind]; [|apply throw_mono|apply ub_mono].
  apply (bind_mono (ts_load p) (fun s r => Ok (mkMemory (fst ids) (snd ids) s, r)) (ts_load_mono p)). intros bs2 s r2 _. apply ret_mono.
Qed.
Lemma mono_truncated {A} (q : parser A) (x : A) a b : mono q -> q (a ++ b) = Ok (x, []) -> b <> [] -> throws (q a).
Proof.
  intros M R Hb. destruct (M a b) as [T|E]; [exact T|]. rewrite E in R. destruct (q a) as [[y r]|e|]; cbn in R; try discriminate.
  injection R as _ R. apply app_eq_nil in R as [_ R]. contradiction.
Qed.
Theorem ts_truncated p s a b : 0 < p -> settings_ok s -> ts_save p s = a ++ b -> b <> [] -> throws (ts_load p a).
Proof.
  intros Hp Hs E Hb. pose proof (ts_roundtrip p s [] Hp Hs) as R. rewrite app_nil_r, E in R. exact (mono_truncated _ _ _ _ (ts_load_mono p) R Hb).
Qed.
Theorem mem_truncated p m a b : 0 < p -> memory_ok m -> mem_save p m = a ++ b -> b <> [] -> throws (mem_load p a).
Proof.
  intros Hp Hs E Hb. pose proof (mem_roundtrip p m [] Hp Hs) as R. rewrite app_nil_r, E in R. exact (mono_truncated _ _ _ _ (mem_load_mono p) R Hb).
Qed.
Theorem ts_versions p bs : bytes_ok bs = true -> firstn 4 bs <> [1;0;0;0] -> ts_load p bs = Throw RuntimeError.
Proof. intros Hb Hn. unfold ts_load. now rewrite (version_refused bs Hb Hn). Qed.

(** *** Hostile bytes *)
Lemma yields_version : yields read_version (fun _ => True).
Proof.
  intros bs x r Hb H. split; [exact I|]. unfold read_version in H.
  destruct (get_fixed 2 bs) as [[a r1]|e|] eqn:E1; cbn [bind fst snd] in H; try discriminate.
  destruct (get_fixed 2 r1) as [[b r2]|e|] eqn:E2; cbn [bind fst snd] in H; try discriminate.
  destruct (_ || _); [discriminate|]. injection H as _ <-.
  destruct (yields_fixed 2 bs a r1 Hb E1) as [_ B1]. now destruct (yields_fixed 2 r1 b r2 B1 E2).
Qed.
Lemma yields_sysdur p : yields (dec_sysdur p) (fun f => in_i64 f = true /\ (p | f)).
Proof.
  intros bs f r Hb H. unfold dec_sysdur in H. destruct (dec (TSInt 8) bs) as [[v r1]|e|] eqn:E; cbn [bind fst snd] in H; try discriminate.
  destruct (dec_wt (TSInt 8) eq_refl bs v r1 Hb E) as [_ B]. destruct v as [|us| | | | | | | | |]; try discriminate.
  destruct (in_i64 (us * p)) eqn:Ei; [|discriminate]. injection H as <- <-. repeat split; auto. now exists us.
Qed.
Lemma good_ids : good_ty ids_ty = true. Proof. reflexivity. Qed.
Lemma good_medians : good_ty medians_ty = true. Proof. reflexivity. Qed.

Theorem ts_yields p : yields (ts_load p) (fun s => settings_ok s /\ (p | se_freq s)).
Proof.
  intros bs s r Hb H. unfold ts_load in H.
  destruct (read_version bs) as [[u r0]|e|] eqn:E0; cbn [bind fst snd] in H; try discriminate. destruct (yields_version _ _ _ Hb E0) as [_ B0].
  destruct (dec_sysdur p r0) as [[f r1]|e|] eqn:E1; cbn [bind fst snd] in H; try discriminate. destruct (yields_sysdur p _ _ _ B0 E1) as [[F1 F2] B1].
  destruct (dec ids_ty r1) as [[t r2]|e|] eqn:E2; cbn [bind fst snd] in H; try discriminate. destruct (dec_wt _ good_ids _ _ _ B1 E2) as [Wt B2].
  destruct (forallb valid_type (ids_of t)) eqn:Ev; cbn [negb] in H; [|discriminate].
  destruct (dec (TUInt 1) r2) as [[c r3]|e|] eqn:E3; cbn [bind fst snd] in H; try discriminate. destruct (dec_wt (TUInt 1) eq_refl _ _ _ B2 E3) as [_ B3].
  destruct (strategy_of (as_int c)) as [st|]; [|discriminate].
  destruct (dec medians_ty r3) as [[m r4]|e|] eqn:E4; cbn [bind fst snd] in H; try discriminate. destruct (dec_wt _ good_medians _ _ _ B3 E4) as [Wm B4].
  destruct (dec TBool r4) as [[b r5]|e|] eqn:E5; cbn [bind fst snd] in H; try discriminate. destruct (dec_wt TBool eq_refl _ _ _ B4 E5) as [_ B5].
  unfold se_construct in H. cbn [se_types se_freq] in H.
  destruct (ids_of t) as [|i is] eqn:Ei; [discriminate|]. destruct (Z.eqb_spec f i64_max) as [|Ef]; [discriminate|]. cbn [bind] in H. injection H as <- <-.
  split; [|exact B5]. split; [|exact F2]. unfold settings_ok. cbn [se_freq se_types se_medians].
  apply in_i64_spec in F1. unfold i64_max in Ef. change (2 ^ 63) with 9223372036854775808 in *.
  split; [lia|]. split.
  { split; [rewrite <- Ei; now apply ids_fits|]. now apply valid_types_spec. }
  split; [discriminate|]. apply medians_wt. now rewrite (medians_back m Wm).
Qed.
Theorem mem_yields p : yields (mem_load p) (fun m => memory_ok m /\ (p | se_freq (me_settings m))).
Proof.
  intros bs m r Hb H. unfold mem_load in H.
  destruct (dec ids_ty bs) as [[k r0]|e|] eqn:E0; cbn [bind fst snd] in H; try discriminate. destruct (dec_wt _ good_ids _ _ _ Hb E0) as [Wk B0].
  destruct (dec ids_ty r0) as [[d r1]|e|] eqn:E1; cbn [bind fst snd] in H; try discriminate. destruct (dec_wt _ good_ids _ _ _ B0 E1) as [Wd B1].
  apply ids_fits in Wk, Wd. unfold serializer in H.
  destruct (ids_of k) as [|i is]; [discriminate|]. destruct (ids_of d) as [|j js]; [discriminate|].
  destruct (forallb valid_type (i :: is) && forallb valid_type (j :: js)) eqn:Ev; [|discriminate]. apply andb_true_iff in Ev as [V1 V2].
  cbn [bind fst snd] in H. destruct (ts_load p r1) as [[s r2]|e|] eqn:E2; cbn [bind fst snd] in H; try discriminate. injection H as <- <-.
  destruct (ts_yields p _ _ _ B1 E2) as [[S1 S2] B2]. split; [|exact B2]. cbn [me_settings]. split; [|exact S2].
  unfold memory_ok. cbn [me_keys me_data me_settings]. split; [split; [exact Wk|now apply valid_types_spec]|]. split; [discriminate|]. split; [split; [exact Wd|now apply valid_types_spec]|]. split; [discriminate|exact S1].
Qed.
Theorem ts_loaded p bs s rest : bytes_ok bs = true -> ts_load p bs = Ok (s, rest) -> settings_ok s /\ (p | se_freq s).
Proof. intros Hb H. exact (proj1 (ts_yields p bs s rest Hb H)). Qed.
Theorem mem_loaded p bs m rest : bytes_ok bs = true -> mem_load p bs = Ok (m, rest) -> memory_ok m /\ (p | se_freq (me_settings m)).
Proof. intros Hb H. exact (proj1 (mem_yields p bs m rest Hb H)). Qed.

(** *** CreateEstimator *)
Lemma create_accepts first keys data code suppress : 
  (exists x, ts_create first keys data code suppress = Ok x) <->
  keys <> [] /\ data <> [] /\ Forall type_id keys /\ Forall type_id data /\ 1 <= code <= 4 /\
  (code = 3 -> suppress = true \/ Forall (fun id => id = 10 \/ id = 11 \/ id = 12 \/ id = 15) data).
Proof.
  unfold ts_create. destruct keys as [|k ks]; [split; [intros [x H]; discriminate|intros H; exfalso; now apply (proj1 H)]|].
  destruct data as [|d ds]; [split; [intros [x H]; discriminate|intros H; exfalso; now apply (proj1 (proj2 H))]|].
  set (K := k :: ks). set (D := d :: ds).
  assert (Es : serializer K D = if forallb valid_type K && forallb valid_type D then Ok (K, D) else Throw InvalidArgument) by reflexivity.
  assert (Em : forallb supports_median D = true <-> Forall (fun id => id = 10 \/ id = 11 \/ id = 12 \/ id = 15) D).
  { rewrite forallb_Forall. split; apply Forall_impl; intros a; unfold supports_median; lia. }
  rewrite <- !valid_types_spec, <- Em. clear Em.
  assert (NK : K <> []) by discriminate. assert (ND : D <> []) by discriminate. clearbody K D.
  unfold strategy_of.
  destruct (Z.eqb_spec code 1); [|destruct (Z.eqb_spec code 2); [|destruct (Z.eqb_spec code 3); [|destruct (Z.eqb_spec code 4)]]].
  all: try (split; [intros [x H]; discriminate|intros H; exfalso; lia]).
  all: rewrite Es; unfold ts_estimator; destruct (forallb valid_type K), (forallb valid_type D), suppress, (forallb supports_median D), first; cbn;
    (split; [intros [x H]; try discriminate H; repeat split; auto; try lia; try congruence|
             intros (_ & _ & A & B & _ & C); try discriminate A; try discriminate B; try (destruct (C e); discriminate); eexists; reflexivity]).
Qed.
Lemma create_keeps first keys data code suppress x : ts_create first keys data code suppress = Ok x ->
  exists st, strategy_code st = code /\ x = (keys, data, st, suppress).
Proof.
  unfold ts_create. destruct keys as [|k ks]; [discriminate|]. destruct data as [|d ds]; [discriminate|].
  unfold serializer. destruct (_ && _); [|destruct (strategy_of code), first; cbn [bind]; try discriminate; destruct (ts_estimator _ _ _); discriminate].
  unfold strategy_of. intros H.
  destruct (Z.eqb_spec code 1) as [->|]; [exists Forward|destruct (Z.eqb_spec code 2) as [->|]; [exists Backward|destruct (Z.eqb_spec code 3) as [->|]; [exists Median|
    destruct (Z.eqb_spec code 4) as [->|]; [exists Interpolate|discriminate]]]].
  all: (split; [reflexivity|]); destruct first; cbn [bind] in H; destruct (ts_estimator _ _ _); cbn [bind] in H; congruence.
Qed.
Theorem create_spec first keys data code suppress :
  (exists st, strategy_code st = code /\ ts_create first keys data code suppress = Ok (keys, data, st, suppress)) <->
  keys <> [] /\ data <> [] /\ Forall type_id keys /\ Forall type_id data /\ 1 <= code <= 4 /\
  (code = 3 -> suppress = true \/ Forall (fun id => id = 10 \/ id = 11 \/ id = 12 \/ id = 15) data).
Proof.
  rewrite <- (create_accepts first keys data code suppress). split.
  - intros (st & _ & H). eexists; exact H.
  - intros (x & H). destruct (create_keeps _ _ _ _ _ _ H) as (st & A & ->). now exists st.
Qed.
Theorem create_refuses first keys data code suppress x :
  match ts_create first keys data code suppress with Ok y => True | Throw e => e = x -> x = InvalidArgument \/ x = RuntimeError | UB => False end.
Proof.
  unfold ts_create, serializer. destruct keys as [|k ks]; [auto|]. destruct data as [|d ds]; [auto|]. unfold ts_estimator.
  destruct (strategy_of code) as [[]|]; [..|auto]; destruct (_ && _), first; cbn; auto; destruct (negb suppress && _); cbn; auto.
Qed.
