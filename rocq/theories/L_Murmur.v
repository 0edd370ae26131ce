From Verif Require Import Base L_List M_Encoders S_Encoders L_Archive L_Encoders.

Definition r32 (x : Z) : Prop := 0 <= x < 2 ^ 32.

Lemma u32_w32 z : u32 z = w32 z.
Proof. reflexivity. Qed.
Lemma u32_r32 z : r32 (u32 z).
Proof. unfold r32, u32. change (2 ^ 32) with 4294967296. apply Z.mod_pos_bound. lia. Qed.

Lemma high_bits x n i : 0 <= x < 2 ^ n -> 0 <= n -> n <= i -> Z.testbit x i = false.
Proof.
  intros Hx Hn Hi. destruct (Z.eq_dec x 0) as [->|Hne]; [apply Z.bits_0|].
  apply Z.bits_above_log2; [lia|]. apply Z.log2_lt_pow2; [lia|].
  apply Z.lt_le_trans with (2 ^ n); [lia|]. apply Z.pow_le_mono_r; lia.
Qed.

Lemma bits_bound x n : 0 <= n -> 0 <= x -> (forall i, n <= i -> Z.testbit x i = false) -> x < 2 ^ n.
Proof.
  intros Hn Hx H. destruct (Z.eq_dec x 0) as [->|Hne]; [apply Z.pow_pos_nonneg; lia|].
  apply Z.log2_lt_pow2; [lia|]. destruct (Z_lt_le_dec (Z.log2 x) n); [assumption|].
  specialize (H (Z.log2 x) l). rewrite Z.bit_log2 in H by lia. discriminate.
Qed.

Lemma lxor_r32 x y : r32 x -> r32 y -> r32 (Z.lxor x y).
Proof.
  unfold r32. intros Hx Hy. assert (0 <= Z.lxor x y) by (apply Z.lxor_nonneg; lia). split; [assumption|].
  apply bits_bound; [lia|assumption|]. intros i Hi. rewrite Z.lxor_spec.
  rewrite (high_bits x 32 i), (high_bits y 32 i) by lia. reflexivity.
Qed.
Lemma shiftr_r32 x n : 0 <= n -> r32 x -> r32 (Z.shiftr x n).
Proof.
  unfold r32. intros Hn Hx. rewrite Z.shiftr_div_pow2 by lia.
  assert (0 < 2 ^ n) by (apply Z.pow_pos_nonneg; lia). split; [apply Z.div_pos; lia|].
  apply Z.le_lt_trans with x; [|lia]. apply Z.div_le_upper_bound; nia.
Qed.

Lemma disjoint_add a b n : 0 <= n -> 0 <= b < 2 ^ n -> (forall i, 0 <= i < n -> Z.testbit a i = false) ->
  Z.lor a b = a + b /\ Z.lxor a b = a + b.
Proof.
  intros Hn Hb Ha. assert (Hland : Z.land a b = 0).
  { apply Z.bits_inj'. intros i Hi. rewrite Z.land_spec, Z.bits_0. destruct (Z_lt_le_dec i n).
    - rewrite Ha by lia. reflexivity.
    - rewrite (high_bits b n i) by lia. apply andb_false_r. }
  split; [|symmetry; now apply Z.add_nocarry_lxor].
  rewrite <- Z.lxor_lor by exact Hland. symmetry; now apply Z.add_nocarry_lxor.
Qed.

Lemma rotl32_rotate x r : r32 x -> 0 < r < 32 -> rotl32 x r = rotate x r.
Proof.
  intros Hx Hr. unfold rotl32, rotate. rewrite Z.shiftl_mul_pow2 by lia. rewrite (Z.shiftr_div_pow2 x (32 - r)) by lia.
  rewrite u32_w32. apply (disjoint_add _ _ r); [lia| |].
  - unfold r32 in Hx. assert (0 < 2 ^ (32 - r)) by (apply Z.pow_pos_nonneg; lia).
    split; [apply Z.div_pos; lia|]. apply Z.div_lt_upper_bound; [lia|]. rewrite <- Z.pow_add_r by lia.
    replace (32 - r + r) with 32 by lia. lia.
  - intros i Hi. unfold w32. rewrite Z.mod_pow2_bits_low by lia. apply Z.mul_pow2_bits_low. lia.
Qed.
Lemma rotate_r32 x r : r32 x -> 0 < r < 32 -> r32 (rotate x r).
Proof.
  intros Hx Hr. rewrite <- rotl32_rotate by assumption. unfold rotl32, r32.
  assert (H1 : r32 (u32 (Z.shiftl x r))) by apply u32_r32. assert (H2 : r32 (Z.shiftr x (32 - r))) by (apply shiftr_r32; [lia|assumption]).
  unfold r32 in *. assert (0 <= Z.lor (u32 (Z.shiftl x r)) (Z.shiftr x (32 - r))) by (apply Z.lor_nonneg; lia).
  split; [assumption|]. apply bits_bound; [lia|assumption|]. intros i Hi. rewrite Z.lor_spec.
  rewrite !(high_bits _ 32 i) by lia. reflexivity.
Qed.

Lemma mm_k_scramble k : mm_k k = scramble k.
Proof.
  unfold mm_k, scramble. rewrite rotl32_rotate; [reflexivity|apply u32_r32|lia].
Qed.
Lemma scramble_r32 k : r32 (scramble k).
Proof. apply u32_r32. Qed.
Lemma fmix_avalanche h : fmix32 h = avalanche h.
Proof. unfold fmix32, avalanche. rewrite !Z.shiftr_div_pow2 by lia. reflexivity. Qed.
Lemma avalanche_r32 h : r32 (avalanche h).
Proof.
  rewrite <- fmix_avalanche. unfold fmix32. apply lxor_r32; [apply u32_r32|]. apply shiftr_r32; [lia|apply u32_r32].
Qed.

Lemma mm_byte_skipn key a j : 0 <= a -> mm_byte key (a + Z.of_nat j) = match nth_error (skipn (Z.to_nat a) key) j with Some b => Ok b | None => UB end.
Proof.
  intros Ha. unfold mm_byte. destruct (Z.ltb_spec (a + Z.of_nat j) 0); [lia|].
  replace (Z.to_nat (a + Z.of_nat j)) with (Z.to_nat a + j)%nat by lia.
  set (n := Z.to_nat a). clearbody n. clear H Ha a. revert n. induction key as [|x k IH]; intros [|n]; cbn [skipn Nat.add]; auto.
  - destruct j; reflexivity.
  - cbn [nth_error]. apply IH.
Qed.

Lemma getblock_le32 key blocks i : 0 <= blocks + 4 * i -> (4 <= length (skipn (Z.to_nat (blocks + 4 * i)) key))%nat ->
  getblock32 key blocks i = Ok (le32 (firstn 4 (skipn (Z.to_nat (blocks + 4 * i)) key))).
Proof.
  intros H0 Hl. unfold getblock32. set (a := blocks + 4 * i) in *.
  pose proof (mm_byte_skipn key a 0 H0) as E0. pose proof (mm_byte_skipn key a 1 H0) as E1.
  pose proof (mm_byte_skipn key a 2 H0) as E2. pose proof (mm_byte_skipn key a 3 H0) as E3.
  rewrite Z.add_0_r in E0. change (Z.of_nat 1) with 1 in E1. change (Z.of_nat 2) with 2 in E2. change (Z.of_nat 3) with 3 in E3.
  rewrite E0, E1, E2, E3. destruct (skipn (Z.to_nat a) key) as [|b0 [|b1 [|b2 [|b3 r]]]]; cbn [length] in Hl; try lia.
  cbn [nth_error bind firstn]. unfold le32. cbn [fold_right]. f_equal. lia.
Qed.

Lemma mm_body_spec fuel : forall key blocks i h, i = - Z.of_nat fuel -> 0 <= blocks + 4 * i -> blocks <= Z.of_nat (length key) ->
  r32 h ->
  let m := mix_words fuel (skipn (Z.to_nat (blocks + 4 * i)) key) h in
  mm_body fuel key blocks i h = Ok (fst m) /\ snd m = skipn (Z.to_nat blocks) key /\ r32 (fst m).
Proof.
  induction fuel as [|f IH]; intros key blocks i h Hi H0 Hb Hh m.
  - subst m. cbn [mm_body mix_words fst snd]. replace (blocks + 4 * i) with blocks by lia. split; [reflexivity|]. split; [reflexivity|exact Hh].
  - subst m. cbn [mm_body mix_words]. rewrite getblock_le32; [|exact H0|rewrite skipn_length; lia]. cbn [bind].
    rewrite mm_k_scramble. set (k := scramble _). assert (Hk : r32 (Z.lxor h k)) by (apply lxor_r32; [exact Hh|apply scramble_r32]).
    rewrite rotl32_rotate by (auto; lia). change 3864292196 with 0xe6546b64. rewrite u32_w32.
    rewrite skipn_skipn. replace (4 + Z.to_nat (blocks + 4 * i))%nat with (Z.to_nat (blocks + 4 * (i + 1))) by lia.
    apply IH; [lia|lia|exact Hb|]. apply u32_r32.
Qed.

Lemma mm_tail_spec key tail len h rest : 0 <= tail -> rest = skipn (Z.to_nat tail) key -> len mod 4 = Z.of_nat (length rest) ->
  bytes_ok rest = true ->
  mm_tail key tail len h = Ok (match rest with [] => h | _ => Z.lxor h (scramble (le32 rest)) end).
Proof.
  intros Ht Hr Hl Hb. unfold mm_tail.
  assert (Hland : Z.land len 3 = Z.of_nat (length rest)).
  { change 3 with (Z.ones 2). rewrite Z.land_ones by lia. exact Hl. }
  rewrite Hland. clear Hland.
  pose proof (mm_byte_skipn key tail 0 Ht) as E0. pose proof (mm_byte_skipn key tail 1 Ht) as E1.
  pose proof (mm_byte_skipn key tail 2 Ht) as E2. rewrite <- Hr in *.
  rewrite Z.add_0_r in E0. change (Z.of_nat 1) with 1 in E1. change (Z.of_nat 2) with 2 in E2.
  assert (length rest < 4)%nat by (pose proof (Z.mod_pos_bound len 4); lia).
  destruct rest as [|b0 [|b1 [|b2 [|b3 r]]]]; cbn [length] in *; try lia.
  - reflexivity.
  - cbn [nth_error] in *. rewrite E0. cbn [Z.of_nat]. cbn -[scramble mm_k Z.lxor]. rewrite mm_k_scramble. rewrite Z.lxor_0_l.
    unfold le32. cbn [fold_right]. do 3 f_equal. lia.
  - cbn [nth_error] in *. rewrite E0, E1. change (Z.of_nat 2) with 2. cbn -[scramble mm_k Z.lxor Z.shiftl le32]. rewrite mm_k_scramble. rewrite Z.lxor_0_l.
    do 3 f_equal. cbn [bytes_ok forallb] in Hb. unfold byte_ok in Hb. rewrite Z.shiftl_mul_pow2 by lia.
    rewrite (proj2 (disjoint_add (b1 * 2 ^ 8) b0 8 ltac:(lia) ltac:(lia) ltac:(intros; apply Z.mul_pow2_bits_low; lia))).
    unfold le32. cbn [fold_right]. lia.
  - cbn [nth_error] in *. rewrite E0, E1, E2. change (Z.of_nat 3) with 3. cbn -[scramble mm_k Z.lxor Z.shiftl le32]. rewrite mm_k_scramble. rewrite Z.lxor_0_l.
    do 3 f_equal. cbn [bytes_ok forallb] in Hb. unfold byte_ok in Hb. rewrite !Z.shiftl_mul_pow2 by lia.
    rewrite (proj2 (disjoint_add (b2 * 2 ^ 16) (b1 * 2 ^ 8) 16 ltac:(lia) ltac:(lia) ltac:(intros; apply Z.mul_pow2_bits_low; lia))).
    rewrite (proj2 (disjoint_add (b2 * 2 ^ 16 + b1 * 2 ^ 8) b0 8 ltac:(lia) ltac:(lia)
      ltac:(intros; replace (b2 * 2 ^ 16 + b1 * 2 ^ 8) with ((b2 * 2 ^ 8 + b1) * 2 ^ 8) by lia; apply Z.mul_pow2_bits_low; lia))).
    unfold le32. cbn [fold_right]. lia.
Qed.

Lemma murmur_spec key seed : bytes_ok key = true -> Z.of_nat (length key) < 2 ^ 31 -> r32 seed ->
  murmur_hash key seed = Ok (murmur3 key seed) /\ r32 (murmur3 key seed).
Proof.
  intros Hb Hl Hs. set (n := Z.of_nat (length key)) in *.
  assert (Hlen : to_s 4 n = n).
  { unfold to_s. change (two_pow8 4) with (2 ^ 32). rewrite Z.mod_small by lia.
    destruct (Z.ltb_spec n (2 ^ 32 / 2)); [reflexivity|]. change (2 ^ 32 / 2) with (2 ^ 31) in *. lia. }
  unfold murmur_hash. fold n. rewrite Hlen. unfold murmur3_x86_32.
  rewrite Z.quot_div_nonneg by lia. assert (0 <= n / 4) by (apply Z.div_pos; lia).
  destruct (Z.ltb_spec (n / 4) 0); [lia|].
  assert (Hq : (length key / 4)%nat = Z.to_nat (n / 4)).
  { unfold n. rewrite <- (Nat2Z.id (length key / 4)). f_equal. rewrite Nat2Z.inj_div. reflexivity. }
  pose proof (Z.div_mod n 4 ltac:(lia)) as Hdm. pose proof (Z.mod_pos_bound n 4 ltac:(lia)) as Hmb.
  destruct (mm_body_spec (Z.to_nat (n / 4)) key (n / 4 * 4) (- (n / 4)) seed) as (H1 & H2 & H3); [lia|lia|lia|exact Hs|].
  replace (n / 4 * 4 + 4 * - (n / 4)) with 0 in H1, H2, H3 by lia. cbn [Z.to_nat skipn] in H1, H2, H3.
  rewrite H1. cbn [bind]. unfold murmur3. rewrite Hq.
  destruct (mix_words (Z.to_nat (n / 4)) key seed) as [h rest]. cbn [fst snd] in *.
  rewrite (mm_tail_spec key (n / 4 * 4) n h rest); [|lia|exact H2| |].
  - cbn [bind]. rewrite fmix_avalanche. fold n. rewrite u32_w32. unfold w32. rewrite (Z.mod_small n (2 ^ 32)) by lia.
    split; [reflexivity|]. apply avalanche_r32.
  - rewrite H2, skipn_length. lia.
  - rewrite H2. now apply L_Archive.bytes_ok_skipn.
Qed.

Lemma hash_onehot_spec seed cols t key : r32 seed -> 0 <= cols < 2 ^ 32 -> bytes_ok key = true -> Z.of_nat (length key) < 2 ^ 31 ->
  hash_onehot_make seed cols = Ok t ->
  hash_onehot_execute t key = Ok (mkSingle cols 1 (murmur3 key seed mod cols)) /\ 0 <= murmur3 key seed mod cols < cols.
Proof.
  intros Hs Hc Hb Hl Hm. unfold hash_onehot_make in Hm. destruct (Z.leb_spec cols 0); [discriminate|]. injection Hm as <-.
  unfold hash_onehot_execute. cbn [ho_seed ho_cols]. destruct (murmur_spec key seed Hb Hl Hs) as [-> Hr]. cbn [bind].
  pose proof (Z.mod_pos_bound (murmur3 key seed) cols ltac:(lia)). split; [|assumption].
  apply single_make_spec; lia.
Qed.

Lemma murmur_too_long key seed : Z.of_nat (length key) = 2 ^ 31 -> murmur_hash key seed = UB.
Proof. intros H. unfold murmur_hash. rewrite H. reflexivity. Qed.

Lemma long_key_exists n : 0 <= n -> exists s, bytes_ok s = true /\ Z.of_nat (length s) = n.
Proof.
  intros Hn. exists (repeat 0 (Z.to_nat n)). split; [|rewrite repeat_length; lia].
  generalize (Z.to_nat n). intros k. induction k; [reflexivity|]. cbn. exact IHk.
Qed.
Lemma container_hash_ok keys : Forall (fun k => bytes_ok k = true /\ Z.of_nat (length k) < 2 ^ 31) keys ->
  container_hash keys = Ok (fold_left (fun h k => murmur3 k h) keys 0) /\ r32 (fold_left (fun h k => murmur3 k h) keys 0).
Proof.
  unfold container_hash. assert (H0 : r32 0) by (unfold r32; lia). revert H0. generalize 0. intros h H0 Hf. revert h H0.
  induction Hf as [|k r [Hb Hl] _ IH]; intros h H0; [split; [reflexivity|exact H0]|].
  cbn [foldM fold_left]. destruct (murmur_spec k h Hb Hl H0) as [-> Hr]. cbn [bind]. now apply IH.
Qed.
Lemma murmur_refuted : exists key, bytes_ok key = true /\ Z.of_nat (length key) = 2 ^ 31 /\ forall seed, murmur_hash key seed = UB.
Proof.
  destruct (long_key_exists (2 ^ 31) ltac:(lia)) as (s & H1 & H2). exists s. repeat split; auto. intros. now apply murmur_too_long.
Qed.
