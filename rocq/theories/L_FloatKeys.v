(** The order of bit patterns used for floating point keys is the IEEE order of the numbers they stand for. *)
From Coq Require Import Lia.
From Flocq Require Import Core.Core IEEE754.Binary IEEE754.Bits.
From Coq Require Import SpecFloat.
From Verif Require Import Base M_Archive M_Codec.
Open Scope Z_scope.

Section Order.
  Variable mm em emn : Z.
  Hypothesis Hmm : 0 < mm.
  Inductive shape (s : bool) (k : Z) : spec_float -> Prop :=
  | sh_zero : k = 0 -> shape s k (S754_zero s)
  | sh_fin m e : 0 <= e - emn -> Zpos m < 2 * mm -> (0 < e - emn -> mm <= Zpos m) -> k = (e - emn) * mm + Zpos m -> k < (em - 1) * mm -> shape s k (S754_finite s m e)
  | sh_inf : k = (em - 1) * mm -> 0 < k -> shape s k (S754_infinity s).
  Definition signed (s : bool) (k : Z) : Z := if s then - k else k.
  Lemma shape_compare s1 k1 f1 s2 k2 f2 : shape s1 k1 f1 -> shape s2 k2 f2 -> SFcompare f1 f2 = Some (Z.compare (signed s1 k1) (signed s2 k2)).
  Proof.
    assert (Fin : forall m1 e1 m2 e2, 0 <= e1 - emn -> Zpos m1 < 2 * mm -> (0 < e1 - emn -> mm <= Zpos m1) -> 0 <= e2 - emn -> Zpos m2 < 2 * mm -> (0 < e2 - emn -> mm <= Zpos m2) ->
       match Z.compare e1 e2 with Eq => Pos.compare_cont Eq m1 m2 | c => c end = Z.compare ((e1 - emn) * mm + Zpos m1) ((e2 - emn) * mm + Zpos m2)).
    { intros m1 e1 m2 e2 A1 A2 A3 B1 B2 B3. destruct (Z.compare_spec e1 e2) as [E|L|G].
      - subst. change (Pos.compare_cont Eq m1 m2) with (Z.compare (Zpos m1) (Zpos m2)). now rewrite Zcompare_plus_compat.
      - symmetry. apply Z.compare_lt_iff. assert (mm <= Zpos m2) by (apply B3; lia). nia.
      - symmetry. apply Z.compare_gt_iff. assert (mm <= Zpos m1) by (apply A3; lia). nia. }
    intros [E1|m1 e1 A1 A2 A3 A4 A5|E1 P1] [E2|m2 e2 B1 B2 B3 B4 B5|E2 P2]; cbn [SFcompare]; f_equal.
    1,2,3,4,6,7,8,9: assert (Pp : forall m e k, 0 <= e - emn -> k = (e - emn) * mm + Zpos m -> 0 < k) by (intros; subst; nia).
    1,2,3,4,5,6,7,8: try (specialize (Pp _ _ _ A1 A4) as P1); try (specialize (Pp _ _ _ B1 B4) as P2); destruct s1, s2; unfold signed; symmetry;
      first [apply Z.compare_eq_iff; lia|apply Z.compare_lt_iff; lia|apply Z.compare_gt_iff; lia].
    assert (P1 : 0 < k1) by (subst; nia). assert (P2 : 0 < k2) by (subst; nia).
    destruct s1, s2; unfold signed.
    - rewrite Z.compare_opp, A4, B4, <- (Fin m2 e2 m1 e1) by assumption. rewrite (Z.compare_antisym e1 e2).
      destruct (Z.compare e1 e2); try reflexivity. cbn [CompOpp]. change (CompOpp (Z.compare (Zpos m1) (Zpos m2)) = Z.compare (Zpos m2) (Zpos m1)). symmetry. apply Z.compare_antisym.
    - symmetry. apply Z.compare_lt_iff. lia.
    - symmetry. apply Z.compare_gt_iff. lia.
    - rewrite A4, B4, <- (Fin m1 e1 m2 e2) by assumption. destruct (Z.compare e1 e2); reflexivity.
  Qed.
End Order.

Section Bits.
  Variable mw ew : Z.
  Hypothesis Hmw : 0 < mw.
  Hypothesis Hew : 1 < ew.
  Let mm := 2 ^ mw.
  Let em := 2 ^ ew.
  Let emn := SpecFloat.emin (mw + 1) (2 ^ (ew - 1)).
  Lemma aux_shape x : 0 <= x -> let k := x mod (mm * em) in
    if (em - 1) * mm <? k then FF2SF (binary_float_of_bits_aux mw ew x) = S754_nan
    else shape mm em emn (mm * em <=? x) k (FF2SF (binary_float_of_bits_aux mw ew x)).
  Proof.
    intros Hx k. assert (Hmm : 0 < mm) by (apply Z.pow_pos_nonneg; lia).
    assert (Hem : 4 <= em) by (unfold em; change 4 with (2 ^ 2); apply Z.pow_le_mono_r; lia).
    assert (Hk : k = (x / mm) mod em * mm + x mod mm).
    { unfold k. rewrite Z.rem_mul_r by lia. lia. }
    unfold binary_float_of_bits_aux, split_bits. fold mm em emn.
    pose proof (Z.mod_pos_bound x mm Hmm) as HM. pose proof (Z.mod_pos_bound (x / mm) em ltac:(lia)) as HE.
    set (M := x mod mm) in *. set (E := (x / mm) mod em) in *. set (sx := mm * em <=? x).
    destruct (Z.ltb_spec ((em - 1) * mm) k) as [L|L].
    - assert (E = em - 1) by nia. assert (0 < M) by nia.

      destruct (Zeq_bool E 0) eqn:Z0; [apply Zeq_bool_eq in Z0; lia|].
      destruct (Zeq_bool E (em - 1)) eqn:Z1; [|apply Zeq_bool_neq in Z1; lia].
      destruct M as [|p|p]; [lia|reflexivity|lia].
    - destruct (Zeq_bool E 0) eqn:Z0.
      + apply Zeq_bool_eq in Z0. destruct M as [|p|p] eqn:EM; [| |lia].
        * apply sh_zero. lia.
        * assert (mm <= (em - 1) * mm) by nia. rewrite Z0 in Hk. apply sh_fin; rewrite ?Z.sub_diag; lia.
      + apply Zeq_bool_neq in Z0. destruct (Zeq_bool E (em - 1)) eqn:Z1.
        * apply Zeq_bool_eq in Z1. destruct M as [|p|p] eqn:EM; [|nia|lia]. apply sh_inf; nia.
        * apply Zeq_bool_neq in Z1. destruct (M + mm) as [|p|p] eqn:EM; [lia| |lia].
          assert (HE2 : (E + 1) * mm <= (em - 1) * mm) by (apply Z.mul_le_mono_nonneg_r; lia).
          replace (E + emn - 1) with (emn + (E - 1)) by lia. apply sh_fin; replace (emn + (E - 1) - emn) with (E - 1) by lia; lia.
  Qed.
End Bits.

Definition key_compare (w : nat) (x y : Z) : option comparison := if f_nan w x || f_nan w y then None else Some (Z.compare (f_key w x) (f_key w y)).
Lemma key_compare_32 x y : 0 <= x < 2 ^ 32 -> 0 <= y < 2 ^ 32 -> Bcompare 24 128 (b32_of_bits x) (b32_of_bits y) = key_compare 4 x y.
Proof.
  intros Hx Hy. unfold Bcompare. unfold BinarySingleNaN.Bcompare. rewrite !B2SF_B2BSN, <- !FF2SF_B2FF.
  unfold b32_of_bits, binary_float_of_bits. rewrite !B2FF_FF2B.
  pose proof (aux_shape 23 8 ltac:(lia) ltac:(lia) x (proj1 Hx)) as Sx. pose proof (aux_shape 23 8 ltac:(lia) ltac:(lia) y (proj1 Hy)) as Sy. cbv zeta in Sx, Sy.
  unfold key_compare, f_nan, f_key. cbn [Nat.eqb].
  change (two_pow8 4 / 2) with (2 ^ 23 * 2 ^ 8). change 2139095040 with ((2 ^ 8 - 1) * 2 ^ 23).
  destruct ((2 ^ 8 - 1) * 2 ^ 23 <? x mod (2 ^ 23 * 2 ^ 8)); cbn [orb]; [rewrite Sx; reflexivity|].
  destruct ((2 ^ 8 - 1) * 2 ^ 23 <? y mod (2 ^ 23 * 2 ^ 8)); [rewrite Sy; destruct (FF2SF _); reflexivity|].
  exact (shape_compare (2 ^ 23) (2 ^ 8) _ ltac:(lia) _ _ _ _ _ _ Sx Sy).
Qed.
Lemma key_compare_64 x y : 0 <= x < 2 ^ 64 -> 0 <= y < 2 ^ 64 -> Bcompare 53 1024 (b64_of_bits x) (b64_of_bits y) = key_compare 8 x y.
Proof.
  intros Hx Hy. unfold Bcompare. unfold BinarySingleNaN.Bcompare. rewrite !B2SF_B2BSN, <- !FF2SF_B2FF.
  unfold b64_of_bits, binary_float_of_bits. rewrite !B2FF_FF2B.
  pose proof (aux_shape 52 11 ltac:(lia) ltac:(lia) x (proj1 Hx)) as Sx. pose proof (aux_shape 52 11 ltac:(lia) ltac:(lia) y (proj1 Hy)) as Sy. cbv zeta in Sx, Sy.
  unfold key_compare, f_nan, f_key. cbn [Nat.eqb].
  change (two_pow8 8 / 2) with (2 ^ 52 * 2 ^ 11). change 9218868437227405312 with ((2 ^ 11 - 1) * 2 ^ 52).
  destruct ((2 ^ 11 - 1) * 2 ^ 52 <? x mod (2 ^ 52 * 2 ^ 11)); cbn [orb]; [rewrite Sx; reflexivity|].
  destruct ((2 ^ 11 - 1) * 2 ^ 52 <? y mod (2 ^ 52 * 2 ^ 11)); [rewrite Sy; destruct (FF2SF _); reflexivity|].
  exact (shape_compare (2 ^ 52) (2 ^ 11) _ ltac:(lia) _ _ _ _ _ _ Sx Sy).
Qed.

Lemma nan_of_compare prec emax (a : Binary.binary_float prec emax) : Bcompare prec emax a a = None <-> Binary.is_nan prec emax a = true.
Proof.
  unfold Bcompare, BinarySingleNaN.Bcompare. destruct a as [s|s|s pl H|s m e H]; cbn; try (split; [discriminate|discriminate]); try (now split).
Qed.
Lemma from_compare w prec emax (a b : Binary.binary_float prec emax) x y :
  Bcompare prec emax a b = key_compare w x y -> Bcompare prec emax a a = key_compare w x x -> Bcompare prec emax b b = key_compare w y y ->
  (key_lt (TFloat w) (VFloat x) (VFloat y) = true <-> Bcompare prec emax a b = Some Lt) /\
  (key_eq (TFloat w) (VFloat x) (VFloat y) = true <-> Bcompare prec emax a b = Some Eq \/ (Binary.is_nan prec emax a = true /\ Binary.is_nan prec emax b = true)).
Proof.
  intros -> Ha Hb. rewrite <- !nan_of_compare, Ha, Hb. unfold key_compare. cbn [key_lt key_eq]. rewrite !Z.compare_refl.
  destruct (f_nan w x), (f_nan w y); cbn [orb andb negb]; try (split; split; intros; try discriminate; auto; tauto); try (split; split; intros H; try discriminate; destruct H as [H|[H1 H2]]; discriminate).
  split.
  - rewrite Z.ltb_lt. split; [intros H; f_equal; now apply Z.compare_lt_iff|intros [= H]; now apply Z.compare_lt_iff].
  - rewrite Z.eqb_eq. split; [intros H; left; f_equal; now apply Z.compare_eq_iff|intros [[= H]|[H _]]; [now apply Z.compare_eq_iff|discriminate]].
Qed.
Lemma float_keys x y : 0 <= x < 2 ^ 32 -> 0 <= y < 2 ^ 32 -> let c := Bcompare 24 128 (b32_of_bits x) (b32_of_bits y) in
  (key_lt (TFloat 4) (VFloat x) (VFloat y) = true <-> c = Some Lt) /\
  (key_eq (TFloat 4) (VFloat x) (VFloat y) = true <-> c = Some Eq \/ (Binary.is_nan 24 128 (b32_of_bits x) = true /\ Binary.is_nan 24 128 (b32_of_bits y) = true)).
Proof. intros Hx Hy. apply from_compare; now apply key_compare_32. Qed.
Lemma double_keys x y : 0 <= x < 2 ^ 64 -> 0 <= y < 2 ^ 64 -> let c := Bcompare 53 1024 (b64_of_bits x) (b64_of_bits y) in
  (key_lt (TFloat 8) (VFloat x) (VFloat y) = true <-> c = Some Lt) /\
  (key_eq (TFloat 8) (VFloat x) (VFloat y) = true <-> c = Some Eq \/ (Binary.is_nan 53 1024 (b64_of_bits x) = true /\ Binary.is_nan 53 1024 (b64_of_bits y) = true)).
Proof. intros Hx Hy. apply from_compare; now apply key_compare_64. Qed.
