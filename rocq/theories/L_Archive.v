From Verif Require Import Base L_List M_Archive S_Archive.

Ltac dlia := Z.div_mod_to_equations; lia.

Lemma le_bytes_length w v : length (le_bytes w v) = w.
Proof. revert v; induction w as [|w IH]; intros v; simpl; [reflexivity|]. now rewrite IH. Qed.

Lemma two_pow8_S w : two_pow8 (S w) = 256 * two_pow8 w.
Proof. unfold two_pow8. rewrite Nat2Z.inj_succ, Z.pow_succ_r; lia. Qed.
Lemma two_pow8_pos w : 0 < two_pow8 w.
Proof. unfold two_pow8. apply Z.pow_pos_nonneg; lia. Qed.

Lemma le_bytes_spec w v : le_bytes w v = spec_bytes w v.
Proof.
  unfold spec_bytes. revert v. induction w as [|w IH]; intros v; [reflexivity|].
  cbn [le_bytes seq map]. f_equal.
  - rewrite Z.pow_0_r, Z.div_1_r. reflexivity.
  - rewrite IH, <- seq_shift, map_map. apply map_ext. intros i.
    rewrite Nat2Z.inj_succ, Z.pow_succ_r by lia.
    rewrite Z.div_div; [reflexivity|lia|]. apply Z.pow_pos_nonneg; lia.
Qed.

Lemma le_bytes_bytes_ok w v : bytes_ok (le_bytes w v) = true.
Proof.
  revert v; induction w as [|w IH]; intros v; [reflexivity|].
  cbn [le_bytes bytes_ok forallb]. change (forallb byte_ok (le_bytes w (v / 256))) with (bytes_ok (le_bytes w (v/256))).
  rewrite IH. unfold byte_ok. pose proof (Z.mod_pos_bound v 256). lia.
Qed.

Lemma le_val_le_bytes w v : le_val (le_bytes w v) = v mod two_pow8 w.
Proof.
  revert v; induction w as [|w IH]; intros v.
  - cbn. change (two_pow8 0) with 1. now rewrite Z.mod_1_r.
  - cbn [le_bytes le_val]. rewrite IH, two_pow8_S.
    pose proof (two_pow8_pos w).
    rewrite Z.rem_mul_r by lia. lia.
Qed.

Lemma le_val_bound bs : bytes_ok bs = true -> 0 <= le_val bs < two_pow8 (length bs).
Proof.
  induction bs as [|b r IH]; intros H.
  - cbn. unfold two_pow8. cbn. lia.
  - cbn [bytes_ok forallb] in H. apply andb_true_iff in H as [Hb Hr].
    specialize (IH Hr). cbn [le_val length]. rewrite two_pow8_S.
    unfold byte_ok in Hb. lia.
Qed.

Lemma le_bytes_le_val bs : bytes_ok bs = true -> le_bytes (length bs) (le_val bs) = bs.
Proof.
  induction bs as [|b r IH]; intros H; [reflexivity|].
  cbn [bytes_ok forallb] in H. apply andb_true_iff in H as [Hb Hr].
  cbn [le_val length le_bytes]. unfold byte_ok in Hb.
  replace ((b + 256 * le_val r) mod 256) with b by dlia.
  replace ((b + 256 * le_val r) / 256) with (le_val r) by dlia.
  now rewrite IH.
Qed.

Lemma fits_u_mod w v : fits_u w v = true -> v mod two_pow8 w = v.
Proof. unfold fits_u. intros H. apply Z.mod_small. lia. Qed.

Lemma le_val_le_bytes_fits w v : fits_u w v = true -> le_val (le_bytes w v) = v.
Proof. intros H. rewrite le_val_le_bytes. now apply fits_u_mod. Qed.

(** What is written does not depend on the byte order of the host. *)
Lemma le_bytes_mod w v : le_bytes w (v mod two_pow8 w) = le_bytes w v.
Proof.
  assert (H := le_bytes_le_val (le_bytes w v) (le_bytes_bytes_ok w v)).
  rewrite le_bytes_length, le_val_le_bytes in H. exact H.
Qed.

Lemma ser_repr (le : bool) w v :
  (if le then obj_repr le w v else obj_repr le w (swap_endian le w v)) = le_bytes w v.
Proof.
  destruct le; [reflexivity|].
  unfold swap_endian, obj_repr, obj_val.
  rewrite rev_involutive.
  (* swap yields le_val (rev le_bytes) *)
  assert (Hok : bytes_ok (rev (le_bytes w v)) = true).
  { unfold bytes_ok. rewrite forallb_forall. intros x Hx. apply in_rev in Hx.
    pose proof (le_bytes_bytes_ok w v) as H. unfold bytes_ok in H. rewrite forallb_forall in H. auto. }
  pose proof (le_bytes_le_val _ Hok) as H. rewrite rev_length, le_bytes_length in H.
  rewrite H. apply rev_involutive.
Qed.

Lemma ar_serialize_eq le w a v : (1 <= w)%nat ->
  ar_serialize le w a v =
  match ar_mode a with
  | Deserializing => Throw RuntimeError
  | Serializing => Ok (mkArchive Serializing (ar_buf a ++ le_bytes w v) (ar_base a) (ar_pos a))
  end.
Proof.
  intros Hw.
  assert (E : ar_serialize le w a v = ar_serialize_ptr a false (le_bytes w v)).
  { unfold ar_serialize, ar_serialize_native. rewrite <- (ser_repr le w v). now destruct le. }
  rewrite E. unfold ar_serialize_ptr. destruct (ar_mode a); [|reflexivity].
  rewrite le_bytes_length. destruct (Nat.eqb_spec w 0); [lia|]. reflexivity.
Qed.

Lemma des_val (le : bool) w bs : length bs = w -> bytes_ok bs = true ->
  (if le then obj_val le bs else swap_endian le w (obj_val le bs)) = le_val bs.
Proof.
  intros Hl Hok. destruct le; [reflexivity|].
  unfold swap_endian, obj_repr, obj_val.
  assert (Hok' : bytes_ok (rev bs) = true).
  { unfold bytes_ok in *. rewrite forallb_forall in *. intros x Hx. apply in_rev in Hx. auto. }
  pose proof (le_bytes_le_val _ Hok') as H. rewrite rev_length, Hl in H.
  rewrite rev_involutive, H, rev_involutive. reflexivity.
Qed.

Lemma bytes_ok_app a b : bytes_ok (a ++ b) = bytes_ok a && bytes_ok b.
Proof. unfold bytes_ok. apply forallb_app. Qed.

Lemma bytes_ok_firstn n l : bytes_ok l = true -> bytes_ok (firstn n l) = true.
Proof.
  intros H. rewrite <- (firstn_skipn n l), bytes_ok_app in H. now apply andb_true_iff in H.
Qed.
Lemma bytes_ok_skipn n l : bytes_ok l = true -> bytes_ok (skipn n l) = true.
Proof.
  intros H. rewrite <- (firstn_skipn n l), bytes_ok_app in H. now apply andb_true_iff in H.
Qed.

(** A well-formed reading archive. *)
Definition rd_ok (a : archive) : Prop :=
  ar_mode a = Deserializing /\ (ar_pos a <= length (ar_buf a))%nat /\ bytes_ok (ar_buf a) = true.

Definition advance (a : archive) (n : nat) : archive :=
  mkArchive Deserializing (ar_buf a) (ar_base a) (ar_pos a + n).

Lemma remaining_length a : length (remaining a) = (length (ar_buf a) - ar_pos a)%nat.
Proof. unfold remaining. apply skipn_length. Qed.

Lemma remaining_advance a n : remaining (advance a n) = skipn n (remaining a).
Proof. unfold remaining, advance; cbn. rewrite skipn_skipn. f_equal; lia. Qed.

Lemma ar_deserialize_eq le w a : rd_ok a ->
  ar_deserialize le w a =
  if Nat.ltb (length (remaining a)) w then Throw RuntimeError
  else Ok (le_val (firstn w (remaining a)), advance a w).
Proof.
  intros (Hm & Hp & Hok).
  unfold ar_deserialize, ar_deserialize_native. rewrite Hm, remaining_length.
  destruct (Nat.ltb_spec (length (ar_buf a) - ar_pos a) w) as [H|H].
  - now destruct le.
  - pose proof (des_val le w (firstn w (remaining a))) as D.
    rewrite firstn_length, remaining_length in D.
    specialize (D ltac:(lia) (bytes_ok_firstn _ _ (bytes_ok_skipn _ _ Hok))).
    destruct le; cbn [bind fst snd]; unfold advance; now rewrite D.
Qed.

(** The object and its parser view. *)
Lemma get_fixed_refines le w a : rd_ok a ->
  match get_fixed w (remaining a) with
  | Ok (v, rest) => exists a', ar_deserialize le w a = Ok (v, a') /\ rd_ok a' /\ remaining a' = rest
                               /\ ar_buf a' = ar_buf a /\ ar_base a' = ar_base a
  | Throw e => ar_deserialize le w a = Throw e
  | UB => False
  end.
Proof.
  intros H. rewrite (ar_deserialize_eq le w a H). unfold get_fixed.
  pose proof (remaining_length a) as Hl.
  destruct (Nat.ltb_spec (length (remaining a)) w) as [Hlt|Hge]; [reflexivity|].
  exists (advance a w). repeat split.
  - cbn. destruct H as (_ & Hp & _). lia.
  - cbn. apply H.
  - apply remaining_advance.
Qed.

Lemma get_block_refines n a : rd_ok a -> 0 <= n ->
  ar_base a + Z.of_nat (length (ar_buf a)) + n < 18446744073709551616 ->
  match get_block n (remaining a) with
  | Ok (v, rest) => exists a', ar_read_block n a = Ok (v, a') /\ rd_ok a' /\ remaining a' = rest
                               /\ ar_buf a' = ar_buf a /\ ar_base a' = ar_base a
  | Throw e => ar_read_block n a = Throw e
  | UB => False
  end.
Proof.
  intros (Hm & Hp & Hok) Hn Haddr. unfold get_block, ar_read_block.
  destruct (Z.eqb_spec n 0) as [->|Hn0].
  { exists a. repeat split; auto. }
  unfold ar_get_buffer_ptr. rewrite Hm.
  pose proof (remaining_length a) as Hl.
  destruct (Nat.eqb_spec (ar_pos a) (length (ar_buf a))) as [He|He].
  - destruct (remaining a); cbn in Hl; [reflexivity|lia].
  - cbn [bind]. unfold ar_update_buffer_ptr. rewrite Hm.
    destruct (remaining a) as [|b r] eqn:Hr; cbn [length] in Hl; [lia|].
    destruct (Z.leb_spec 18446744073709551616 (ar_base a + Z.of_nat (ar_pos a) + n)); [lia|].
    destruct (Z.ltb_spec (Z.of_nat (length (b :: r))) n) as [Hlt|Hge]; cbn [length] in *.
    + destruct (Z.ltb_spec (ar_base a + Z.of_nat (length (ar_buf a))) (ar_base a + Z.of_nat (ar_pos a) + n)); [reflexivity|lia].
    + destruct (Z.ltb_spec (ar_base a + Z.of_nat (length (ar_buf a))) (ar_base a + Z.of_nat (ar_pos a) + n)); [lia|].
      cbn [bind]. exists (advance a (Z.to_nat n)). repeat split; auto.
      * cbn. lia.
      * rewrite remaining_advance, Hr. reflexivity.
Qed.

(** C01 *)
Lemma write_all_eq le vs a : ar_mode a = Serializing -> Forall spec_fits vs ->
  ar_write_all le a vs =
  Ok (mkArchive Serializing (ar_buf a ++ flat_map (fun p => le_bytes (fst p) (snd p)) vs) (ar_base a) (ar_pos a)).
Proof.
  revert a. induction vs as [|[w v] r IH]; intros a Hm HF.
  - cbn. rewrite app_nil_r. destruct a; cbn in *; now subst.
  - cbn [ar_write_all]. inversion HF as [|? ? Hf HF']; subst. destruct Hf as [Hw Hv]; cbn in Hw, Hv.
    rewrite ar_serialize_eq, Hm by exact Hw. cbn [bind].
    rewrite IH; cbn [ar_mode ar_buf ar_base ar_pos flat_map fst snd]; auto.
    now rewrite app_assoc.
Qed.

Lemma read_all_eq le vs a rest : rd_ok a -> Forall spec_fits vs ->
  remaining a = flat_map (fun p => le_bytes (fst p) (snd p)) vs ++ rest ->
  exists a', ar_read_all le a (map fst vs) = Ok (map snd vs, a') /\ rd_ok a' /\ remaining a' = rest.
Proof.
  revert a. induction vs as [|[w v] r IH]; intros a Ha HF Hr.
  - exists a. auto.
  - inversion HF as [|? ? Hf HF']; subst. destruct Hf as [Hw Hv]; cbn in Hw, Hv.
    cbn [map fst snd ar_read_all].
    pose proof (get_fixed_refines le w a Ha) as G.
    cbn [flat_map fst snd] in Hr. rewrite <- app_assoc in Hr.
    unfold get_fixed in G. rewrite Hr in G.
    assert (Hlen : length (le_bytes w v) = w) by apply le_bytes_length.
    rewrite app_length, Hlen in G.
    destruct (Nat.ltb_spec (w + length (flat_map (fun p => le_bytes (fst p) (snd p)) r ++ rest)) w); [lia|].
    rewrite firstn_app, skipn_app, Hlen, Nat.sub_diag in G.
    rewrite firstn_all2, skipn_all2 in G by lia. cbn [firstn skipn app] in G. rewrite app_nil_r in G.
    destruct G as (a1 & E & Ha1 & Hr1 & _). rewrite E. cbn [bind fst snd].
    destruct (IH a1 Ha1 HF' Hr1) as (a2 & E2 & Ha2 & Hr2). rewrite E2. cbn [bind fst snd].
    exists a2. split; [|auto]. rewrite le_val_le_bytes_fits; [reflexivity|].
    unfold fits_u, two_pow8. lia.
Qed.

Lemma flat_le_ok vs : bytes_ok (flat_map (fun p => le_bytes (fst p) (snd p)) vs) = true.
Proof.
  induction vs as [|[w v] r IH]; [reflexivity|]. cbn [flat_map]. rewrite bytes_ok_app, IH, le_bytes_bytes_ok. reflexivity.
Qed.

Lemma flat_le_nil vs : Forall spec_fits vs ->
  length (flat_map (fun p => le_bytes (fst p) (snd p)) vs) = 0%nat -> vs = [].
Proof.
  intros HF H. destruct vs as [|[w v] r]; [reflexivity|]. exfalso.
  inversion HF as [|? ? Hf HF']; subst. destruct Hf as [Hw _].
  cbn [flat_map fst snd] in *. rewrite app_length, le_bytes_length in H. lia.
Qed.

Lemma rd_ok_new base data : bytes_ok data = true -> rd_ok (ar_new_read base data).
Proof. intros H. repeat split; cbn; auto; lia. Qed.

Lemma scalar_roundtrip le_w le_r base vs : Forall spec_fits vs ->
  exists bytes a1 a2, ar_write_all le_w ar_new_write vs = Ok a1 /\ ar_commit a1 = Ok (bytes, a2) /\
    bytes = flat_map (fun p => spec_bytes (fst p) (snd p)) vs /\
    forall k, (k <= length vs)%nat ->
      exists a, ar_read_all le_r (ar_new_read base bytes) (map fst (firstn k vs)) = Ok (map snd (firstn k vs), a)
                /\ ar_at_end a = Ok (Nat.eqb k (length vs)).
Proof.
  intros HF. rewrite write_all_eq by auto. cbn [ar_new_write ar_buf app ar_base ar_pos].
  eexists _, _, _. split; [reflexivity|]. split; [reflexivity|]. cbn [ar_buf]. split.
  { apply flat_map_ext. intros [w v]. apply le_bytes_spec. }
  intros k Hk.
  set (bytes := flat_map _ vs).
  assert (HFk : Forall spec_fits (firstn k vs)).
  { rewrite <- (firstn_skipn k vs) in HF. now apply Forall_app in HF. }
  assert (HFs : Forall spec_fits (skipn k vs)).
  { rewrite <- (firstn_skipn k vs) in HF. now apply Forall_app in HF. }
  destruct (read_all_eq le_r (firstn k vs) (ar_new_read base bytes)
              (flat_map (fun p => le_bytes (fst p) (snd p)) (skipn k vs))) as (a & E & Ha & Hr); auto.
  { apply rd_ok_new, flat_le_ok. }
  { unfold remaining; cbn. unfold bytes. rewrite <- flat_map_app, firstn_skipn. reflexivity. }
  exists a. split; [exact E|].
  unfold ar_at_end. destruct Ha as (Hm & Hp & Hok). rewrite Hm. f_equal.
  pose proof (remaining_length a) as Hl. rewrite Hr in Hl.
  destruct (Nat.eqb_spec k (length vs)) as [->|Hne].
  - rewrite skipn_all in Hl. cbn in Hl. apply Nat.eqb_eq. lia.
  - apply Nat.eqb_neq. intros Heq.
    assert (Hz : skipn k vs = []) by (apply flat_le_nil; [exact HFs|lia]).
    apply (f_equal (@length _)) in Hz. rewrite skipn_length in Hz. cbn in Hz. lia.
Qed.

(** C02 *)
Lemma ar_step_rd le a o : rd_ok a -> op_valid o ->
  snd (ar_step le a o) <> RUB ->
  rd_ok (fst (ar_step le a o)) /\ ar_buf (fst (ar_step le a o)) = ar_buf a.
Proof.
  intros Ha Ho Hub. pose proof Ha as (Hm & Hp & Hok).
  destruct o as [w v|n d| |w| |d| |b]; cbn [ar_step fst snd] in *.
  - rewrite ar_serialize_eq, Hm by exact Ho. cbn. auto.
  - unfold ar_serialize_ptr. rewrite Hm. cbn. auto.
  - unfold ar_commit. rewrite Hm. cbn. auto.
  - rewrite ar_deserialize_eq by exact Ha. pose proof (remaining_length a).
    destruct (Nat.ltb_spec (length (remaining a)) w); cbn; [auto|]. repeat split; cbn; auto; lia.
  - auto.
  - unfold ar_update_buffer_ptr in *. rewrite Hm in *. cbn in Ho.
    destruct (Z.leb_spec 18446744073709551616 (ar_base a + Z.of_nat (ar_pos a) + d)); [cbn in Hub; congruence|].
    destruct (Z.ltb_spec (ar_base a + Z.of_nat (length (ar_buf a))) (ar_base a + Z.of_nat (ar_pos a) + d)); cbn; [auto|].
    repeat split; cbn; auto; lia.
  - auto.
  - auto.
Qed.

Lemma ar_run_rd le ops a : rd_ok a -> Forall op_valid ops ->
  ~ In RUB (snd (ar_run le a ops)) ->
  rd_ok (fst (ar_run le a ops)) /\ ar_buf (fst (ar_run le a ops)) = ar_buf a.
Proof.
  revert a. induction ops as [|o r IH]; intros a Ha HF Hub; [cbn; auto|].
  cbn [ar_run] in *.
  destruct (ar_step le a o) as [a1 x] eqn:E1. destruct (ar_run le a1 r) as [a2 xs] eqn:E2. cbn [fst snd] in *.
  inversion HF as [|? ? Ho HF']; subst.
  pose proof (ar_step_rd le a o Ha Ho) as S. rewrite E1 in S. cbn [fst snd] in S.
  destruct S as [S1 S2]. { intros ->. apply Hub. now left. }
  specialize (IH a1 S1 HF'). rewrite E2 in IH. cbn [fst snd] in IH.
  destruct IH as [I1 I2]. { intros Hin. apply Hub. now right. }
  split; [exact I1|congruence].
Qed.

Lemma ar_run_cursor le base data ops : bytes_ok data = true -> Forall op_valid ops ->
  ~ In RUB (snd (ar_run le (ar_new_read base data) ops)) ->
  let a := fst (ar_run le (ar_new_read base data) ops) in
  ar_mode a = Deserializing /\ ar_buf a = data /\ (ar_pos a <= length data)%nat.
Proof.
  intros Hok HF Hub a. unfold a.
  destruct (ar_run_rd le ops (ar_new_read base data) (rd_ok_new _ _ Hok) HF Hub) as [(Hm & Hp & _) Hb].
  rewrite Hb in Hp. cbn in Hb, Hp. auto.
Qed.

(** With addresses far from the top of the address space and deltas of 32 bits nothing is undefined. *)
Definition op_small (o : ar_op) : Prop := match o with OUpdate d => d < 4294967296 | _ => True end.

Lemma ar_step_noub le a o : ar_mode a = Serializing \/ rd_ok a -> op_valid o -> op_small o ->
  ar_base a + Z.of_nat (length (ar_buf a)) + 4294967296 <= 18446744073709551616 ->
  snd (ar_step le a o) <> RUB.
Proof.
  intros Ha Ho Hs Hb.
  destruct o as [w v|n d| |w| |d| |b]; cbn [ar_step fst snd].
  - rewrite ar_serialize_eq by exact Ho. now destruct (ar_mode a).
  - unfold ar_serialize_ptr. destruct (ar_mode a); cbn; [|discriminate].
    now destruct (_ || _).
  - unfold ar_commit. now destruct (ar_mode a).
  - destruct Ha as [Hm|Ha].
    + unfold ar_deserialize, ar_deserialize_native. rewrite Hm. now destruct le.
    + rewrite ar_deserialize_eq by exact Ha. now destruct (Nat.ltb _ _).
  - unfold ar_get_buffer_ptr. destruct (ar_mode a); cbn; [discriminate|]. now destruct (Nat.eqb _ _).
  - unfold ar_update_buffer_ptr. destruct (ar_mode a) eqn:Hm; cbn; [discriminate|].
    destruct Ha as [Ha|Ha]; [congruence|]. destruct Ha as (_ & Hp & _). cbn in Hs, Ho.
    destruct (Z.leb_spec 18446744073709551616 (ar_base a + Z.of_nat (ar_pos a) + d)); [lia|].
    now destruct (Z.ltb _ _).
  - unfold ar_at_end. now destruct (ar_mode a).
  - unfold ar_clone. destruct (ar_mode a); cbn; [discriminate|]. now destruct (Nat.eqb _ _).
Qed.

Lemma ar_step_base le a o : ar_base (fst (ar_step le a o)) = ar_base a.
Proof.
  destruct o as [w v|n d| |w| |d| |b]; cbn [ar_step fst snd]; auto.
  - unfold ar_serialize, ar_serialize_native, ar_serialize_ptr.
    destruct le, (ar_mode a); cbn [st_of]; auto; match goal with |- context [if ?c then _ else _] => now destruct c end.
  - unfold ar_serialize_ptr. destruct (ar_mode a); cbn [st_of]; auto; match goal with |- context [if ?c then _ else _] => now destruct c end.
  - unfold ar_commit. now destruct (ar_mode a).
  - unfold ar_deserialize, ar_deserialize_native. destruct le, (ar_mode a); cbn [bind]; auto;
      match goal with |- context [if ?c then _ else _] => now destruct c end.
  - unfold ar_update_buffer_ptr. destruct (ar_mode a); cbn; auto.
    destruct (Z.leb _ _); cbn; auto. now destruct (Z.ltb _ _).
Qed.

Lemma ar_run_noub le ops a : rd_ok a -> Forall op_valid ops -> Forall op_small ops ->
  ar_base a + Z.of_nat (length (ar_buf a)) + 4294967296 <= 18446744073709551616 ->
  ~ In RUB (snd (ar_run le a ops)).
Proof.
  revert a. induction ops as [|o r IH]; intros a Ha HV HS Hb; [cbn; auto|].
  cbn [ar_run].
  inversion HV as [|? ? Ho HV']; subst. inversion HS as [|? ? Hs HS']; subst.
  pose proof (ar_step_noub le a o (or_intror Ha) Ho Hs Hb) as N.
  pose proof (ar_step_rd le a o Ha Ho N) as [S1 S2].
  pose proof (ar_step_base le a o) as Bs.
  destruct (ar_step le a o) as [a1 x] eqn:E1. cbn [fst snd] in *.
  assert (Hb1 : ar_base a1 + Z.of_nat (length (ar_buf a1)) + 4294967296 <= 18446744073709551616)
    by (rewrite S2, Bs; exact Hb).
  specialize (IH a1 S1 HV' HS' Hb1).
  destruct (ar_run le a1 r) as [a2 xs]. cbn [snd] in *.
  intros [->|Hin]; auto.
Qed.

Lemma read_exact le base data ops w : bytes_ok data = true -> Forall op_valid ops -> (1 <= w)%nat ->
  ~ In RUB (snd (ar_run le (ar_new_read base data) ops)) ->
  let a := fst (ar_run le (ar_new_read base data) ops) in
  let rest := skipn (ar_pos a) data in
  if Nat.ltb (length rest) w
  then ar_step le a (ORead w) = (a, RThrow RuntimeError)
  else exists v a', ar_step le a (ORead w) = (a', RVal v)
         /\ ar_pos a' = (ar_pos a + w)%nat /\ ar_buf a' = data
         /\ 0 <= v < 256 ^ Z.of_nat w /\ spec_bytes w v = firstn w rest.
Proof.
  intros Hok HF Hw Hub a rest.
  destruct (ar_run_rd le ops (ar_new_read base data) (rd_ok_new _ _ Hok) HF Hub) as [Ha Hb].
  fold a in Ha, Hb. cbn [ar_new_read ar_buf] in Hb.
  assert (Hrest : rest = remaining a) by (unfold rest, remaining; now rewrite Hb).
  rewrite Hrest. cbn [ar_step]. rewrite ar_deserialize_eq by exact Ha.
  destruct (Nat.ltb_spec (length (remaining a)) w) as [Hlt|Hge]; [reflexivity|].
  cbn [st_of out_of fst snd].
  assert (Hbk : bytes_ok (firstn w (remaining a)) = true).
  { apply bytes_ok_firstn. rewrite <- Hrest. unfold rest. now apply bytes_ok_skipn. }
  assert (Hln : length (firstn w (remaining a)) = w) by (rewrite firstn_length; lia).
  eexists _, _. split; [reflexivity|]. cbn. repeat split; auto.
  - now apply le_val_bound in Hbk.
  - apply le_val_bound in Hbk. rewrite Hln in Hbk. unfold two_pow8 in Hbk. lia.
  - rewrite <- le_bytes_spec. rewrite <- Hln at 1. now apply le_bytes_le_val.
Qed.

(** C03 *)
Lemma writer_refines le ops a : ar_mode a = Serializing -> Forall op_valid ops ->
  snd (ar_run le a ops) = spec_writer (ar_buf a) ops.
Proof.
  revert a. induction ops as [|o r IH]; intros a Hm HF; [reflexivity|].
  cbn [ar_run]. inversion HF as [|? ? Ho HF']; subst.
  destruct o as [w v|n d| |w| |d| |b]; cbn [ar_step spec_writer op_valid] in *.
  - rewrite ar_serialize_eq, Hm by exact Ho. cbn [st_of out_of].
    match goal with |- context [ar_run le ?x r] => specialize (IH x); destruct (ar_run le x r) end.
    cbn [snd ar_mode ar_buf] in *. rewrite IH, le_bytes_spec; auto.
  - unfold ar_serialize_ptr. rewrite Hm.
    destruct n, d as [|b d]; cbn [length Nat.eqb negb andb orb Bool.eqb];
      cbn [st_of out_of ar_buf];
      (match goal with |- context [ar_run le ?x r] => specialize (IH x); destruct (ar_run le x r) end);
      cbn [snd ar_mode ar_buf] in *; rewrite IH; auto.
  - unfold ar_commit. rewrite Hm. cbn [st_of out_of fst snd].
    match goal with |- context [ar_run le ?x r] => specialize (IH x); destruct (ar_run le x r) end.
    cbn [snd ar_mode ar_buf] in *. rewrite IH; auto.
  - unfold ar_deserialize, ar_deserialize_native. rewrite Hm. destruct le; cbn [bind st_of out_of];
      specialize (IH a Hm HF'); match goal with |- context [ar_run ?l a r] => destruct (ar_run l a r) end;
      cbn [snd] in *; now rewrite IH.
  - unfold ar_get_buffer_ptr. rewrite Hm. cbn [out_of].
    specialize (IH a Hm HF'). destruct (ar_run le a r). cbn [snd] in *. now rewrite IH.
  - unfold ar_update_buffer_ptr. rewrite Hm. cbn [st_of out_of].
    specialize (IH a Hm HF'). destruct (ar_run le a r). cbn [snd] in *. now rewrite IH.
  - unfold ar_at_end. rewrite Hm. cbn [out_of].
    specialize (IH a Hm HF'). destruct (ar_run le a r). cbn [snd] in *. now rewrite IH.
  - unfold ar_clone. rewrite Hm. cbn [out_of].
    specialize (IH a Hm HF'). destruct (ar_run le a r). cbn [snd] in *. now rewrite IH.
Qed.

Lemma reader_refuses_writes le a : ar_mode a = Deserializing ->
  (forall w v, (1 <= w)%nat -> ar_step le a (OWrite w v) = (a, RThrow RuntimeError)) /\
  (forall n d, ar_step le a (OWritePtr n d) = (a, RThrow RuntimeError)) /\
  ar_step le a OCommit = (a, RThrow RuntimeError).
Proof.
  intros Hm. repeat split.
  - intros w v Hw. cbn [ar_step]. rewrite ar_serialize_eq, Hm by exact Hw. reflexivity.
  - intros n d. cbn [ar_step]. unfold ar_serialize_ptr. rewrite Hm. reflexivity.
  - cbn [ar_step]. unfold ar_commit. rewrite Hm. reflexivity.
Qed.

(** [clone] does not move the original and copies exactly what is left. *)
Lemma clone_spec base a : rd_ok a ->
  ar_clone base a = match remaining a with [] => Throw RuntimeError | r => Ok (ar_new_read base r) end.
Proof.
  intros (Hm & Hp & _). unfold ar_clone. rewrite Hm.
  pose proof (remaining_length a) as Hl.
  destruct (Nat.eqb_spec (ar_pos a) (length (ar_buf a))) as [He|He]; destruct (remaining a); cbn in Hl; auto; lia.
Qed.

Lemma ptr_ctor_spec p data :
  ar_new_read_ptr p data =
  match p, data with
  | None, [] => Ok (mkArchive Deserializing [] 0 0)
  | Some b, _ :: _ => Ok (ar_new_read b data)
  | _, _ => Throw InvalidArgument
  end.
Proof. now destruct p, data. Qed.
