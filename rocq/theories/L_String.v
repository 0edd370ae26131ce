From Verif Require Import Base M_Codec M_String.

Lemma read_digits_app : forall a acc s, forallb is_digit a = true ->
  read_digits acc (a ++ s) = read_digits (read_digits acc a) s.
Proof.
  induction a as [|c a IH]; intros acc s H; [reflexivity|]. cbn [app read_digits forallb] in *. apply andb_prop in H. destruct H as [H1 H2].
  rewrite H1. now apply IH.
Qed.

Lemma digits_fuel_ok : forall f n, 0 <= n -> Z.log2 n <= Z.of_nat f ->
  forallb is_digit (digits_fuel f n) = true /\ digits_fuel f n <> [] /\
  forall acc, read_digits acc (digits_fuel f n) = acc * 10 ^ Z.of_nat (length (digits_fuel f n)) + n.
Proof.
  induction f as [|f IH]; intros n Hn Hf.
  - assert (n <= 1). { destruct (Z.le_gt_cases n 1); [lia|]. pose proof (Z.log2_le_mono 2 n ltac:(lia)). change (Z.log2 2) with 1 in *. lia. }
    cbn [digits_fuel]. rewrite Z.mod_small by lia. split; [|split; [discriminate|]].
    + cbn [forallb]. unfold is_digit. lia.
    + intros acc. cbn [read_digits length]. unfold is_digit. destruct (_ && _) eqn:E; [|lia]. change (10 ^ Z.of_nat 1) with 10. lia.
  - cbn [digits_fuel]. destruct (Z.ltb_spec n 10) as [H|H].
    + split; [cbn [forallb]; unfold is_digit; lia|]. split; [discriminate|]. intros acc. cbn [read_digits length]. unfold is_digit. destruct (_ && _) eqn:E; [|lia].
      change (10 ^ Z.of_nat 1) with 10. lia.
    + assert (Hd : 0 <= n / 10) by (apply Z.div_pos; lia).
      assert (Hl : Z.log2 (n / 10) <= Z.of_nat f).
      { assert (n / 10 <= n / 2) by (apply Z.div_le_compat_l; lia).
        assert (Z.log2 (n / 2) = Z.log2 n - 1). { change 2 with (2 ^ 1) at 1. rewrite <- (Z.shiftr_div_pow2 n 1) by lia. rewrite Z.log2_shiftr by lia. pose proof (Z.log2_pos n). lia. }
        pose proof (Z.log2_le_mono _ _ H0). lia. }
      destruct (IH (n / 10) Hd Hl) as [I1 [I2 I3]].
      pose proof (Z.mod_pos_bound n 10 ltac:(lia)).
      split; [|split].
      * rewrite forallb_app, I1. cbn [forallb andb]. unfold is_digit. lia.
      * intros E. apply app_eq_nil in E. destruct E. discriminate.
      * intros acc. rewrite read_digits_app by exact I1. rewrite I3. cbn [read_digits]. unfold is_digit. destruct (_ && _) eqn:E; [|lia].
        rewrite app_length. cbn [length]. rewrite Nat2Z.inj_add, Z.pow_add_r by lia. change (10 ^ Z.of_nat 1) with 10.
        pose proof (Z.div_mod n 10 ltac:(lia)). lia.
Qed.
Lemma digits_ok : forall n, 0 <= n -> forallb is_digit (digits n) = true /\ digits n <> [] /\ read_digits 0 (digits n) = n.
Proof.
  intros n Hn. unfold digits. pose proof (Z.log2_nonneg n). destruct (digits_fuel_ok (Z.to_nat (Z.log2 n)) n Hn) as [A [B C]]; [lia|].
  split; [exact A|]. split; [exact B|]. rewrite C. lia.
Qed.
Lemma until_nul_digits : forall s, forallb is_digit s = true -> until_nul s = s.
Proof.
  induction s as [|c s IH]; intros H; [reflexivity|]. cbn in *. apply andb_prop in H. destruct H as [H1 H2]. unfold is_digit in H1.
  destruct (Z.eqb_spec c 0); [lia|]. now rewrite IH.
Qed.
Lemma read_number_decimal : forall z, read_number (decimal z) = Some (z <? 0, Z.abs z).
Proof.
  intros z. unfold decimal, read_number. destruct (Z.ltb_spec z 0) as [H|H].
  - destruct (digits_ok (- z) ltac:(lia)) as [A [B C]]. cbn [until_nul]. destruct (Z.eqb_spec 45 0); [lia|].
    rewrite until_nul_digits by exact A. cbn [skip_space]. change (is_space 45) with false. cbv iota. change (45 =? 45) with true. cbv iota.
    destruct (digits (- z)) as [|c r] eqn:E; [congruence|]. assert (Hc : is_digit c = true) by (cbn in A; apply andb_prop in A; tauto).
    rewrite Hc. rewrite C. do 2 f_equal. lia.
  - destruct (digits_ok z H) as [A [B C]]. rewrite until_nul_digits by exact A.
    destruct (digits z) as [|c r] eqn:E; [congruence|]. assert (Hc : is_digit c = true) by (cbn in A; apply andb_prop in A; tauto).
    cbn [skip_space]. assert (Hs : is_space c = false) by (unfold is_space, is_digit in *; lia). rewrite Hs.
    unfold is_digit in Hc. destruct (Z.eqb_spec c 45); [lia|]. destruct (Z.eqb_spec c 43); [lia|].
    unfold is_digit at 1. rewrite Hc. rewrite C. do 2 f_equal. lia.
Qed.
Lemma sto_signed_decimal : forall w z, sto_signed w (decimal z) = if fits_s w z then Ok z else Throw OutOfRange.
Proof. intros w z. unfold sto_signed. rewrite read_number_decimal. destruct (Z.ltb_spec z 0); [rewrite Z.abs_neq, Z.opp_involutive by lia|rewrite Z.abs_eq by lia]; reflexivity. Qed.
Lemma sto_unsigned_decimal : forall z, 0 <= z -> sto_unsigned (decimal z) = if fits_u 8 z then Ok z else Throw OutOfRange.
Proof.
  intros z H. unfold sto_unsigned. rewrite read_number_decimal. destruct (Z.ltb_spec z 0); [lia|]. rewrite Z.abs_eq by lia.
  destruct (fits_u 8 z) eqn:E; [|reflexivity]. unfold to_u, fits_u in *. rewrite Z.mod_small by lia. reflexivity.
Qed.

Definition int_width (w : nat) : Prop := w = 1%nat \/ w = 2%nat \/ w = 4%nat \/ w = 8%nat.
Lemma from_signed : forall w z, int_width w -> from_string (TSInt w) (decimal z) =
  if fits_s w z then Ok (VInt z) else if Nat.ltb w 4 && fits_s 4 z then Throw InvalidArgument else Throw OutOfRange.
Proof.
  intros w z Hw. cbn [from_string]. rewrite !sto_signed_decimal.
  destruct Hw as [-> |[-> |[-> | ->]]]; cbn [Nat.ltb Nat.leb andb].
  1,2: destruct (fits_s 4 z) eqn:E; cbn [bind];
       [reflexivity| match goal with |- _ = if ?b then _ else _ => replace b with false; [reflexivity|] end;
         symmetry; unfold fits_s, two_pow8 in *; cbn in *; lia].
  all: destruct (fits_s _ z); reflexivity.
Qed.
Lemma from_unsigned : forall w z, int_width w -> 0 <= z -> from_string (TUInt w) (decimal z) =
  if fits_u w z then Ok (VInt z) else if fits_u 8 z then Throw InvalidArgument else Throw OutOfRange.
Proof.
  intros w z Hw Hz. cbn [from_string]. rewrite sto_unsigned_decimal by exact Hz.
  destruct Hw as [-> |[-> |[-> | ->]]]; cbn [Nat.ltb Nat.leb].
  1,2,3: destruct (fits_u 8 z) eqn:E; cbn [bind];
       [reflexivity| match goal with |- _ = if ?b then _ else _ => replace b with false; [reflexivity|] end;
         symmetry; unfold fits_u, two_pow8 in *; cbn in *; lia].
  destruct (fits_u 8 z); reflexivity.
Qed.
Lemma from_unsigned_negative : forall w z, int_width w -> z < 0 -> from_string (TUInt w) (decimal z) =
  if - z <? 2 ^ 64 then if fits_u w (2 ^ 64 + z) then Ok (VInt (2 ^ 64 + z)) else Throw InvalidArgument else Throw OutOfRange.
Proof.
  intros w z Hw Hz. cbn [from_string]. unfold sto_unsigned. rewrite read_number_decimal. destruct (Z.ltb_spec z 0); [|lia].
  rewrite Z.abs_neq, Z.opp_involutive by lia. unfold fits_u at 1 3. change (two_pow8 8) with (2 ^ 64).
  destruct (Z.leb_spec 0 (- z)); [|lia]. cbn [andb].
  destruct (Z.ltb_spec (- z) (2 ^ 64)); [|destruct (Nat.ltb w 8); reflexivity].
  replace (to_u 8 z) with (2 ^ 64 + z).
  2:{ unfold to_u. change (two_pow8 8) with (2 ^ 64). symmetry. rewrite <- (Z.mod_small (2 ^ 64 + z) (2 ^ 64)) by lia.
      rewrite <- (Z_mod_plus_full z 1 (2 ^ 64)). f_equal. lia. }
  destruct Hw as [-> |[-> |[-> | ->]]]; cbn [Nat.ltb Nat.leb bind]; try reflexivity.
  assert (E : fits_u 8 (2 ^ 64 + z) = true). { unfold fits_u. change (two_pow8 8) with (2 ^ 64). lia. } now rewrite E.
Qed.

Lemma list_eqb_refl : forall a, list_eqb a a = true.
Proof. intros a. unfold list_eqb. destruct (list_eq_dec _ a a); congruence. Qed.
Lemma list_eqb_neq : forall a b, a <> b -> list_eqb a b = false.
Proof. intros a b H. unfold list_eqb. destruct (list_eq_dec _ a b); congruence. Qed.

(** The types in question. *)
Definition plain_ty (t : ty) : Prop := t = TBool \/ t = TString \/ exists w, int_width w /\ (t = TSInt w \/ t = TUInt w).

Lemma round_trip_plain : forall t v, plain_ty t -> wt t v = true -> from_string t (to_string t v) = Ok v.
Proof.
  intros t v [-> |[-> |[w [Hw [-> | ->]]]]] Hv; destruct v; cbn in Hv; try discriminate; cbn [to_string].
  - destruct b; reflexivity.
  - reflexivity.
  - rewrite from_signed by exact Hw. apply andb_prop in Hv. destruct Hv as [Hv _]. rewrite Hv. reflexivity.
  - rewrite from_unsigned; [rewrite Hv; reflexivity|exact Hw|]. unfold fits_u in Hv. lia.
Qed.
Lemma decimal_not_null : forall z, decimal z <> s_null.
Proof.
  intros z H. pose proof (read_number_decimal z) as E. rewrite H in E. discriminate.
Qed.
Lemma decimal_not_empty : forall z, decimal z <> [].
Proof. intros z H. pose proof (read_number_decimal z) as E. rewrite H in E. discriminate. Qed.
Lemma to_string_null : forall t v, plain_ty t -> wt t v = true -> to_string t v = s_null -> t = TString.
Proof.
  intros t v [-> |[-> |[w [Hw [-> | ->]]]]] Hv E; destruct v; cbn in Hv; try discriminate; cbn [to_string] in E; try reflexivity.
  - destruct b; discriminate.
  - now apply decimal_not_null in E.
  - now apply decimal_not_null in E.
Qed.
Lemma to_string_empty : forall t v, plain_ty t -> wt t v = true -> to_string t v = [] -> t = TString.
Proof.
  intros t v [-> |[-> |[w [Hw [-> | ->]]]]] Hv E; destruct v; cbn in Hv; try discriminate; cbn [to_string] in E; try reflexivity.
  - destruct b; discriminate.
  - now apply decimal_not_empty in E.
  - now apply decimal_not_empty in E.
Qed.
Lemma round_trip_option : forall t v, plain_ty t -> wt (TOption t) v = true -> v <> VOpt (Some (VStr s_null)) ->
  from_string (TOption t) (to_string (TOption t) v) = Ok v.
Proof.
  intros t v Ht Hv Hn. destruct v as [| | | | | | | | | |o]; cbn in Hv; try discriminate. destruct o as [v|].
  - cbn [to_string from_string]. rewrite list_eqb_neq.
    + rewrite round_trip_plain by assumption. reflexivity.
    + intros E. pose proof (to_string_null t v Ht Hv E). subst t. destruct v; cbn in Hv; try discriminate. cbn in E. subst. congruence.
  - reflexivity.
Qed.
Lemma featurizers_round_trip : forall empty t v, plain_ty t -> wt (TOption t) v = true ->
  v <> VOpt (Some (VStr s_null)) -> (empty = true -> v <> VOpt (Some (VStr []))) ->
  from_string_featurizer empty (TOption t) (string_featurizer empty (TOption t) v) = Ok v.
Proof.
  intros empty t v Ht Hv H1 H2. destruct empty; [|apply round_trip_option; assumption].
  destruct v as [| | | | | | | | | |o]; cbn in Hv; try discriminate. destruct o as [v|]; [|reflexivity].
  unfold string_featurizer. destruct (to_string (TOption t) (VOpt (Some v))) as [|c r] eqn:E.
  - exfalso. cbn in E. pose proof (to_string_empty t v Ht Hv E). subst t. destruct v; cbn in Hv; try discriminate. cbn in E. subst. now apply H2.
  - unfold from_string_featurizer. rewrite <- E. apply round_trip_option; assumption.
Qed.
Lemma string_injective : forall t v w, plain_ty t -> wt t v = true -> wt t w = true -> to_string t v = to_string t w -> v = w.
Proof.
  intros t v w Ht Hv Hw E. pose proof (round_trip_plain t v Ht Hv) as A. rewrite E, (round_trip_plain t w Ht Hw) in A. congruence.
Qed.
Lemma negative_unsigned : forall (z : Z), - 2 ^ 64 < z < 0 ->
  from_string (TUInt 8) (decimal z) = Ok (VInt (2 ^ 64 + z)) /\
  forall w, int_width w -> fits_u w (2 ^ 64 + z) = true -> from_string (TUInt w) (decimal z) = Ok (VInt (2 ^ 64 + z)).
Proof.
  intros z Hz.
  assert (H : forall w, int_width w -> fits_u w (2 ^ 64 + z) = true -> from_string (TUInt w) (decimal z) = Ok (VInt (2 ^ 64 + z))).
  { intros w Hw Hf. rewrite from_unsigned_negative by (auto; lia). rewrite Hf. destruct (Z.ltb_spec (- z) (2 ^ 64)); [reflexivity|lia]. }
  split; [|exact H]. apply H; [unfold int_width; tauto|]. unfold fits_u. change (two_pow8 8) with (2 ^ 64). lia.
Qed.
Lemma signed_range : forall (w : nat) (z : Z), int_width w ->
  (fits_s w z = true -> from_string (TSInt w) (decimal z) = Ok (VInt z)) /\
  (fits_s w z = false -> throws (from_string (TSInt w) (decimal z))).
Proof.
  intros w z Hw. rewrite from_signed by exact Hw. split; intros ->; [reflexivity|].
  destruct (_ && _); eexists; reflexivity.
Qed.
Lemma unsigned_range : forall (w : nat) (z : Z), int_width w -> 0 <= z ->
  (fits_u w z = true -> from_string (TUInt w) (decimal z) = Ok (VInt z)) /\
  (fits_u w z = false -> throws (from_string (TUInt w) (decimal z))).
Proof.
  intros w z Hw Hz. rewrite from_unsigned by assumption. split; intros ->; [reflexivity|].
  destruct (fits_u 8 z); eexists; reflexivity.
Qed.
