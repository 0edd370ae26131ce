(** Conversion lemmas for C68. *)
From Coq Require Import Reals.
From Flocq Require Import Core.Core IEEE754.BinarySingleNaN IEEE754.Binary IEEE754.Bits.
From Verif Require Import Base L_List M_Archive L_Archive M_Codec L_Codec M_Pipeline M_Keyed S_Keyed L_Keyed M_Grain L_Grain4 M_Save M_String L_String M_TsImpute M_FloatText
  L_FloatText4 M_TimeText S_TimeText L_TimeText4 S_Date S_Scale M_TsSave M_TsRows S_TsRows.
Open Scope Z_scope.

(** *** Keys *)
Lemma str_names (a : list Z) : forall b, M_Codec.str_eqb a b = M_Grain.list_eqb Z.eqb a b.
Proof. induction a as [|x a IH]; intros [|y b]; cbn; try reflexivity; now rewrite <- IH. Qed.
Lemma str_lex (a : list Z) : forall b, M_Codec.str_lt a b = M_Grain.lex_lt Z.ltb a b.
Proof.
  induction a as [|x a IH]; intros [|y b]; cbn; try reflexivity. rewrite <- IH.
  destruct (Z.ltb_spec x y); cbn; [reflexivity|]. destruct (Z.eqb_spec x y), (Z.ltb_spec y x); cbn; try reflexivity; lia.
Qed.
Lemma key_names (a : list (list Z)) : forall b, key_eqb a b = names_eqb a b.
Proof. unfold key_eqb, names_eqb. induction a as [|x a IH]; intros [|y b]; cbn; try reflexivity. now rewrite IH, str_names. Qed.
Lemma key_lex (a : list (list Z)) : forall b, key_ltb a b = names_lt a b.
Proof.
  unfold key_ltb, names_lt. induction a as [|x a IH]; intros [|y b]; cbn; try reflexivity. rewrite IH, !str_lex.
  destruct (lex_lt Z.ltb x y); cbn; [reflexivity|]. destruct (lex_lt Z.ltb y x); reflexivity.
Qed.
Lemma key_is_order : key_order key_eqb key_ltb.
Proof.
  destruct names_order as (H1 & H2 & H3 & H4). split; [|split; [|split]].
  - intros x y. rewrite key_names. apply H1.
  - intros x. rewrite key_lex. apply H2.
  - intros x y z. rewrite !key_lex. apply H3.
  - intros x y. rewrite !key_lex. apply H4.
Qed.

(** *** Bits *)
Lemma single_back x : single_of_bits (single_bits x) = x.
Proof. unfold single_of_bits, single_bits, b32_of_bits, bits_of_b32. rewrite binary_float_of_bits_of_binary_float. apply B2BSN_BSN2B. Qed.
Lemma double_back x : double_of_bits (double_bits x) = x.
Proof. unfold double_of_bits, double_bits, b64_of_bits, bits_of_b64. rewrite binary_float_of_bits_of_binary_float. apply B2BSN_BSN2B. Qed.
Lemma single_range x : 0 <= single_bits x < 2 ^ 32.
Proof. unfold single_bits, bits_of_b32. apply (bits_of_binary_float_range 23 8); lia. Qed.
Lemma double_range x : 0 <= double_bits x < 2 ^ 64.
Proof. unfold double_bits, bits_of_b64. apply (bits_of_binary_float_range 52 11); lia. Qed.
Lemma fixed4 n r : 0 <= n < 2 ^ 32 -> get_fixed 4 (le_bytes 4 n ++ r) = Ok (n, r).
Proof. intros H. rewrite get_fixed_emits. change (two_pow8 4) with (2 ^ 32). now rewrite Z.mod_small. Qed.
Lemma fixed8 n r : 0 <= n < 2 ^ 64 -> get_fixed 8 (le_bytes 8 n ++ r) = Ok (n, r).
Proof. intros H. rewrite get_fixed_emits. change (two_pow8 8) with (2 ^ 64). now rewrite Z.mod_small. Qed.
Lemma nan_single : le_bytes 4 (single_bits BinarySingleNaN.B754_nan) = nan_bytes 11.
Proof. reflexivity. Qed.
Lemma nan_double : le_bytes 8 (double_bits BinarySingleNaN.B754_nan) = nan_bytes 12.
Proof. reflexivity. Qed.

Lemma kept_back prec emax (Hp : Prec_gt_0 prec) (Hm : Prec_lt_emax prec emax) underflow (x : BinarySingleNaN.binary_float prec emax) :
  20 <= prec -> 22 <= emax -> kept x -> float_from_string underflow (float_to_string x) = Ok x.
Proof.
  intros H1 H2 [(s & ->)|(Hf & k & E)]; [destruct s; reflexivity|]. exact (six_decimals_kept H1 H2 underflow x k Hf E).
Qed.
Lemma kept_not_nan prec emax (x : BinarySingleNaN.binary_float prec emax) : kept x -> BinarySingleNaN.is_nan x = false.
Proof. intros [(s & ->)|(Hf & _)]; [reflexivity|]. now destruct x. Qed.
Lemma plain_column id t : plain_id id t -> column_of id = Some (Plain t) /\ plain_ty t /\ ~ is_float id.
Proof.
  intros H. unfold is_float.
  destruct H; (split; [reflexivity|]); (split; [|lia]); unfold plain_ty; auto; right; right;
    (eexists; split; [|first [left; reflexivity|right; reflexivity]]); unfold int_width; auto.
Qed.

Section Clock.
  Variable places : nat.
  Variable rounding : Z -> nat -> Z.
  Hypothesis Hplaces : (1 <= places <= 16)%nat.
  Hypothesis Hround : nearest places rounding.
  Notation second := (10 ^ Z.of_nat places).

  Lemma second_pos : 0 < second. Proof using. apply Z.pow_pos_nonneg; [reflexivity|apply Nat2Z.is_nonneg]. Qed.

  Lemma systp_text sec r : in_i64 (sec * second) = true -> dec_systp second (enc (TSInt 8) (VInt sec) ++ r) = Ok (sec * second, r).
  Proof.
    intros H. pose proof second_pos as P. pose proof (systp_roundtrip second (sec * second) r P H) as E.
    unfold enc_systp in E. rewrite Z.quot_mul in E by lia. exact E.
  Qed.
  Lemma time_back sec : showable places sec ->
    in_i64 (sec * second) = true /\ time_from_string places rounding (time_to_string places (sec * second)) = Ok (sec * second).
  Proof.
    intros ((c & y & m & d & Hc & Hd & Hy) & H1 & H2). pose proof second_pos as P.
    assert (E : day_number second (sec * second) = sec / 86400).
    { unfold day_number. rewrite Z.div_mul_cancel_r by lia. reflexivity. }
    split.
    - unfold in_i64, i64_min, i64_max. change (2 ^ 63) with 9223372036854775808 in *.
      assert (86400 * second * (sec / 86400) <= sec * second).
      { pose proof (Z.mul_div_le sec 86400 ltac:(lia)). nia. }
      lia.
    - rewrite (round_trip c places rounding (sec * second) y m d Hplaces Hround Hc); rewrite ?E; auto.
      rewrite Z.div_mul by lia. reflexivity.
  Qed.

  Variable underflow : list Z -> bool.
  Variable duration_text : Z -> list Z.
  Notation load_text := (load_text places duration_text).
  Notation load_cell := (load_cell places duration_text).
  Notation save_text := (save_text places rounding underflow).
  Notation save_cell := (save_cell places rounding underflow).

  (** The text of a value, and the value of its text. *)
  Definition holds (c : M_TsRows.column) (b s : list Z) : Prop := (forall r, load_text c (b ++ r) = Ok (s, r)) /\ save_text c s = Ok b.
  Lemma value_holds id b s : value_text places id b s -> exists c, column_of id = Some c /\ holds c b s.
  Proof.
    intros [(t & v & Hid & Hw & -> & ->)|[(-> & x & Hk & -> & ->)|[(-> & x & Hk & -> & ->)|(-> & sec & Hs & -> & ->)]]].
    - destruct (plain_column id t Hid) as (Hc & Hp & _). exists (Plain t). split; [exact Hc|]. split.
      + intros r. cbn. rewrite (dec_roundtrip t v r Hw). reflexivity.
      + cbn. rewrite (round_trip_plain t v Hp Hw). reflexivity.
    - exists Single. split; [reflexivity|]. split.
      + intros r. cbn [M_TsRows.load_text]. rewrite fixed4 by apply single_range. cbn [bind fst snd]. rewrite single_back. reflexivity.
      + cbn [M_TsRows.save_text]. rewrite kept_back by (try exact Hk; lia). reflexivity.
    - exists Double. split; [reflexivity|]. split.
      + intros r. cbn [M_TsRows.load_text]. rewrite fixed8 by apply double_range. cbn [bind fst snd]. rewrite double_back. reflexivity.
      + cbn [M_TsRows.save_text]. rewrite kept_back by (try exact Hk; lia). reflexivity.
    - exists Time. split; [reflexivity|]. destruct (time_back sec Hs) as (Hi & E). split.
      + intros r. cbn [M_TsRows.load_text]. rewrite systp_text by exact Hi. reflexivity.
      + cbn [M_TsRows.save_text]. rewrite E. cbn [bind]. unfold enc_systp. rewrite Z.quot_mul by (pose proof second_pos; lia). reflexivity.
  Qed.
  Lemma key_holds id b s : key_text places id b s -> exists c, column_of id = Some c /\ holds c b s.
  Proof.
    intros [H|([-> | ->] & -> & ->)]; [now apply value_holds| |].
    - exists Single. split; [reflexivity|]. split; [intros r; reflexivity|reflexivity].
    - exists Double. split; [reflexivity|]. split; [intros r; reflexivity|reflexivity].
  Qed.
End Clock.
