(** Printing a float with six decimals. *)
From Coq Require Import Reals Lra Psatz.
From Flocq Require Import Core.Core IEEE754.BinarySingleNaN.
From Verif Require Import Base M_Scale S_Scale L_Float M_String L_String S_TimeText L_TimeText M_FloatText S_FloatText L_FloatText L_FloatText2.
Open Scope Z_scope.

Definition values (s : list Z) : list Z := map (fun c => c - 48) s.
Lemma values_chars s : digit_chars (values s) = s.
Proof. unfold digit_chars, values. rewrite map_map. rewrite <- (map_id s) at 2. apply map_ext. intros c. lia. Qed.
Lemma values_digits s : forallb is_digit s = true -> digits_0_9 (values s).
Proof.
  intros H. apply Forall_map. rewrite forallb_forall in H. apply Forall_forall. intros c Hc. apply H in Hc. unfold is_digit in Hc.
  apply andb_prop in Hc as [A B]. apply Z.leb_le in A. apply Z.leb_le in B. lia.
Qed.
Lemma read_digits_number s : forall acc, forallb is_digit s = true -> read_digits acc s = acc * 10 ^ Z.of_nat (length s) + number (values s).
Proof.
  induction s as [|c s IH]; intros acc H; [cbn; lia|]. cbn [forallb] in H. apply andb_prop in H as [Hc H]. cbn [read_digits]. rewrite Hc.
  rewrite IH by exact H. cbn [values map length]. unfold number at 2. cbn [fold_left]. rewrite number_from.
  change (map (fun c0 => c0 - 48) s) with (values s). rewrite Nat2Z.inj_succ, Z.pow_succ_r by lia.
  unfold values. rewrite map_length. ring.
Qed.
Lemma number_app a b : number (a ++ b) = number a * 10 ^ Z.of_nat (length b) + number b.
Proof. unfold number at 1. rewrite fold_left_app. apply number_from. Qed.

(** No leading zeros. *)
Lemma digits_fuel_head f : forall n, 0 < n -> Z.log2 n <= Z.of_nat f -> exists c s, digits_fuel f n = c :: s /\ c <> 48.
Proof.
  induction f as [|f IH]; intros n Hn Hf.
  - cbn [digits_fuel]. assert (n = 1).
    { destruct (Z.eq_dec n 1) as [E|E]; [exact E|]. exfalso. assert (1 <= Z.log2 n) by (change 1 with (Z.log2 2); apply Z.log2_le_mono; lia). lia. }
    subst. exists 49, []. split; [reflexivity|discriminate].
  - cbn [digits_fuel]. destruct (Z.ltb_spec n 10) as [H|H]; [exists (48 + n), []; split; [reflexivity|lia]|].
    destruct (IH (n / 10)) as (c & s & E & N).
    + apply Z.div_str_pos. lia.
    + assert (Z.log2 (n / 10) <= Z.log2 (n / 2)) by (apply Z.log2_le_mono, Z.div_le_compat_l; lia).
      assert (Z.log2 (n / 2) = Z.log2 n - 1).
      { change 2 with (2 ^ 1) at 1. rewrite <- (Z.shiftr_div_pow2 n 1) by lia. rewrite Z.log2_shiftr by lia. pose proof (Z.log2_pos n). lia. }
      lia.
    + rewrite E. exists c, (s ++ [48 + n mod 10]). split; [reflexivity|exact N].
Qed.
Lemma digits_head n : 0 < n -> exists c s, digits n = c :: s /\ c <> 48.
Proof. intros H. apply digits_fuel_head; [exact H|]. rewrite Z2Nat.id; [lia|apply Z.log2_nonneg]. Qed.
Lemma digits_number n : 0 <= n -> digits_0_9 (values (digits n)) /\ number (values (digits n)) = n /\ digits n <> [].
Proof.
  intros H. destruct (L_String.digits_ok n H) as (A & B & C). split; [apply values_digits, A|]. split; [|exact B].
  rewrite read_digits_number in C by exact A. lia.
Qed.
Lemma digits_length n (k : nat) : 0 <= n < 10 ^ Z.of_nat k -> (1 <= k)%nat -> (length (digits n) <= k)%nat.
Proof.
  intros [H0 H] Hk. destruct (Z.eq_dec n 0) as [->|N]; [exact Hk|]. destruct (digits_head n ltac:(lia)) as (c & s & E & Nc).
  destruct (digits_number n H0) as (A & B & _). rewrite E in *. cbn [values map] in A, B. inversion A as [|? ? Hc Hs]; subst.
  change (c - 48 :: map (fun c0 => c0 - 48) s) with ([c - 48] ++ values s) in H. rewrite number_app in H.
  pose proof (number_bound _ Hs) as [Hb _]. fold (values s) in Hb.
  assert (L : 10 ^ Z.of_nat (length (values s)) < 10 ^ Z.of_nat k).
  { change (number [c - 48]) with (10 * 0 + (c - 48)) in H. pose proof (Z.pow_pos_nonneg 10 (Z.of_nat (length (values s))) ltac:(lia) ltac:(lia)). nia. }
  apply Z.pow_lt_mono_r_iff in L; [|lia|lia]. unfold values in L. rewrite map_length in L. cbn [length]. lia.
Qed.
Lemma zeros_number k l : number (repeat 0 k ++ l) = number l.
Proof. induction k as [|k IH]; [reflexivity|]. cbn [repeat app]. change (0 :: repeat 0 k ++ l) with ([0] ++ (repeat 0 k ++ l)). rewrite number_app, IH. reflexivity. Qed.
Lemma six_number n : 0 <= n < 1000000 -> digits_0_9 (values (six n)) /\ length (values (six n)) = 6%nat /\ number (values (six n)) = n.
Proof.
  intros H. destruct (digits_number n) as (A & B & _); [lia|]. pose proof (digits_length n 6 H ltac:(lia)) as L. unfold six, values in *. cbv zeta.
  rewrite map_app. replace (map (fun c => c - 48) (repeat 48 (6 - length (digits n)))) with (repeat 0 (6 - length (digits n))).
  2:{ generalize (6 - length (digits n))%nat. intros k. induction k as [|k IH]; [reflexivity|]. cbn. rewrite IH. reflexivity. }
  split; [apply Forall_app; split; [|exact A]|].
  - apply Forall_forall. intros x Hx. apply repeat_spec in Hx. lia.
  - split; [|rewrite zeros_number; exact B]. rewrite app_length, repeat_length, map_length. lia.
Qed.
Definition fixed_numeral (neg : bool) (N : Z) : numeral :=
  mkNumeral [] (if neg then Some true else None) (values (digits (N / 1000000))) (Some (values (six (N mod 1000000)))) None [].
Lemma fixed_text_numeral neg N : 0 <= N -> fixed_text neg N = numeral_text (fixed_numeral neg N) /\ six_decimals neg N (fixed_numeral neg N).
Proof.
  intros H. pose proof (Z.mod_pos_bound N 1000000 eq_refl) as Hm. pose proof (Z.div_pos N 1000000 H eq_refl) as Hd.
  destruct (six_number _ Hm) as (A & B & C). destruct (digits_number _ Hd) as (D & E & G). split.
  - unfold fixed_text, numeral_text. cbn [fixed_numeral n_blank n_sign n_whole n_point n_exponent n_rest app]. rewrite !values_chars.
    rewrite !app_nil_r. destruct neg; reflexivity.
  - unfold six_decimals. cbn [fixed_numeral n_blank n_sign n_whole n_point n_exponent n_rest decimals]. repeat split; try assumption.
    + destruct (Z.eq_dec (N / 1000000) 0) as [E0|E0]; [left; rewrite E0; reflexivity|right].
      destruct (digits_head (N / 1000000) ltac:(lia)) as (c & s & Ec & Nc). rewrite Ec. exists (c - 48), (values s). split; [reflexivity|lia].
    + rewrite number_app, B, C, E. change (10 ^ Z.of_nat 6) with 1000000. pose proof (Z.div_mod N 1000000 ltac:(discriminate)). lia.
Qed.
Lemma six_decimals_ok neg N n : six_decimals neg N n -> numeral_ok n.
Proof.
  intros (A & B & C & D & E & G & H & K & L & M). unfold numeral_ok. rewrite A, C, D. repeat split; try assumption.
  - constructor.
  - intros Q. apply app_eq_nil in Q as [Q _]. destruct L as [L|(d & ds & L & _)]; rewrite L in Q; discriminate.
Qed.
Open Scope R_scope.
Lemma six_decimals_value neg N n : six_decimals neg N n -> numeral_value n = IZR (if neg then (- N)%Z else N) / 1000000.
Proof.
  intros (A & B & C & D & E & G & H & K & L & M). unfold numeral_value, exponent. rewrite C, B, M, H.
  replace (signed (if neg then Some true else None) N) with (if neg then (- N)%Z else N) by (destruct neg; reflexivity).
  change (ten (0 - Z.of_nat 6)) with (/ 1000000). reflexivity.
Qed.

(** The number printed. *)
Lemma millionths_ok m e : millionths m e = ZnearestE (IZR (Zpos m) * bpow radix2 e * 1000000).
Proof.
  unfold millionths. cbv zeta. destruct (Z.leb_spec 0 e) as [H|H].
  - replace (IZR (Z.pos m) * bpow radix2 e * 1000000) with (IZR (Z.pos m * 1000000 * 2 ^ e)).
    + rewrite Zrnd_IZR; [reflexivity|apply valid_rnd_N].
    + rewrite !mult_IZR. change (2 ^ e)%Z with (Zpower radix2 e). rewrite IZR_Zpower by exact H. ring.
  - set (n := (Z.pos m * 1000000)%Z). set (d := (2 ^ (- e))%Z). assert (Hd : (0 < d)%Z) by (apply Z.pow_pos_nonneg; lia).
    replace (IZR (Z.pos m) * bpow radix2 e * 1000000) with (IZR n / IZR d).
    2:{ unfold n, d. rewrite mult_IZR. change (2 ^ (- e))%Z with (Zpower radix2 (- e)). rewrite IZR_Zpower by lia. rewrite bpow_opp. unfold Rdiv.
        rewrite Rinv_inv. ring. }
    pose proof (Z.div_mod n d ltac:(lia)) as Q. pose proof (Z.mod_pos_bound n d Hd) as B. apply IZR_lt in Hd.
    assert (Fl : Zfloor (IZR n / IZR d) = (n / d)%Z).
    { apply Zfloor_div. intros E. apply IZR_lt in Hd || idtac. rewrite E in Hd. lra. }
    unfold Znearest. rewrite Fl.
    assert (Dif : IZR n / IZR d - IZR (n / d) = IZR (n mod d) / IZR d).
    { rewrite Q at 1. rewrite plus_IZR, mult_IZR. field. lra. }
    rewrite Dif.
    assert (Ce : (n mod d <> 0)%Z -> Zceil (IZR n / IZR d) = (n / d + 1)%Z).
    { intros N. rewrite Zceil_floor_neq, Fl; [reflexivity|]. rewrite Fl. intros E.
      assert (IZR (n mod d) / IZR d = 0) by lra. apply N. apply eq_IZR. apply (Rmult_eq_reg_r (/ IZR d)); [|apply Rinv_neq_0_compat; lra].
      unfold Rdiv in H0. rewrite H0. ring. }
    assert (Hh : IZR (n mod d) / IZR d - / 2 = IZR (2 * (n mod d) - d) * / (2 * IZR d)).
    { rewrite minus_IZR, mult_IZR. field. lra. }
    assert (Hi : 0 < / (2 * IZR d)) by (apply Rinv_0_lt_compat; lra).
    destruct (Z.ltb_spec (2 * (n mod d)) d) as [L|L].
    { rewrite Rcompare_Lt; [reflexivity|]. apply Rminus_lt. rewrite Hh. assert (IZR (2 * (n mod d) - d) < 0) by (apply IZR_lt; lia). nra. }
    destruct (Z.ltb_spec d (2 * (n mod d))) as [G|G].
    { rewrite Rcompare_Gt; [rewrite Ce by lia; reflexivity|]. apply Rminus_gt. rewrite Hh. assert (0 < IZR (2 * (n mod d) - d)) by (apply IZR_lt; lia). nra. }
    rewrite Rcompare_Eq. 2:{ apply Rminus_diag_uniq. rewrite Hh. replace (2 * (n mod d) - d)%Z with 0%Z by lia. ring. }
    destruct (Z.even (n / d)); cbn [negb]; [reflexivity|]. rewrite Ce; [reflexivity|lia].
Qed.
Lemma millionths_nonneg m e : (0 <= millionths m e)%Z.
Proof.
  rewrite millionths_ok. apply le_IZR. 
  assert (IZR 0 <= IZR (ZnearestE (IZR (Z.pos m) * bpow radix2 e * 1000000))); [|assumption].
  apply IZR_le. rewrite <- (Zrnd_IZR ZnearestE 0). apply Zrnd_le; [apply valid_rnd_N|].
  pose proof (bpow_gt_0 radix2 e). pose proof (IZR_lt 0 (Zpos m) eq_refl). apply Rmult_le_pos; [|lra]. apply Rmult_le_pos; lra.
Qed.

Section Print.
  Context {prec emax : Z} {Hp : Prec_gt_0 prec} {Hm : Prec_lt_emax prec emax}.
  Notation F := (binary_float prec emax).
  (** The millionths of a finite float. *)
  Definition shown (x : F) : Z := ZnearestE (Rabs (B2R x) * 1000000).
  Lemma shown_nonneg (x : F) : (0 <= shown x)%Z.
  Proof.
    unfold shown. rewrite <- (Zrnd_IZR ZnearestE 0). apply Zrnd_le; [apply valid_rnd_N|]. pose proof (Rabs_pos (B2R x)). lra.
  Qed.
  Lemma to_string_shown (x : F) : is_finite x = true -> float_to_string x = fixed_text (Bsign x) (shown x).
  Proof.
    intros H. destruct x as [s|s| |s m e B]; try discriminate H.
    - unfold shown. cbn [B2R]. rewrite Rabs_R0, Rmult_0_l, Zrnd_IZR by apply valid_rnd_N. reflexivity.
    - cbn [float_to_string Bsign]. f_equal. rewrite millionths_ok. unfold shown. cbn [B2R]. f_equal. f_equal.
      unfold F2R. cbn [Fnum Fexp]. rewrite Rabs_mult, (Rabs_right (bpow radix2 e)) by (apply Rle_ge, bpow_ge_0). f_equal.
      rewrite <- abs_IZR. destruct s; reflexivity.
  Qed.
  Theorem print_numeral (x : F) : is_finite x = true ->
    exists n, float_to_string x = numeral_text n /\ six_decimals (Bsign x) (shown x) n.
  Proof. intros H. exists (fixed_numeral (Bsign x) (shown x)). rewrite to_string_shown by exact H. apply fixed_text_numeral, shown_nonneg. Qed.
End Print.
