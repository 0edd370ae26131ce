(** Reading the texts of numbers as doubles (C70). *)
From Coq Require Import Reals Lra.
From Flocq Require Import Core.Core IEEE754.BinarySingleNaN.
From Verif Require Import Base M_Archive M_Scale S_Scale L_Float M_String S_TimeText M_FloatText S_FloatText L_FloatText2 L_FloatText3 L_FloatText4 M_TsRows S_TsRows L_TsRows S_TsTrain.
Open Scope R_scope.

Lemma nearest_opp t : ZnearestE (- t) = (- ZnearestE t)%Z.
Proof.
  rewrite Znearest_opp. f_equal. unfold Znearest. destruct (Rcompare (t - IZR (Zfloor t)) (/ 2)); try reflexivity.
  rewrite Bool.negb_involutive. rewrite Z.even_opp, Z.add_1_r, Z.even_succ, <- Z.negb_even. reflexivity.
Qed.
Lemma printed_signed {prec emax} (x : binary_float prec emax) : is_finite x = true -> printed x = IZR (ZnearestE (B2R x * 1000000)) / 1000000.
Proof.
  intros H. unfold printed. f_equal. f_equal. pose proof (signed_abs x H) as S. unfold shown. set (a := Rabs (B2R x)) in *. rewrite S. destruct (Bsign x); [|reflexivity].
  rewrite <- Ropp_mult_distr_l, nearest_opp. reflexivity.
Qed.
Lemma read_double underflow (x : binary_float 53 1024) : is_nan x = false -> exists v, float_from_string underflow (float_to_string x) = Ok v /\ six_places x v.
Proof.
  intros N. destruct (is_finite x) eqn:F.
  - destruct (float_round_trip (prec := 53) (emax := 1024) ltac:(lia) ltac:(lia) underflow x F) as (y & A & B & C & D & _). exists y. split; [exact A|].
    right. split; [exact F|]. split; [exact B|]. split; [exact C|]. rewrite D. f_equal. now apply printed_signed.
  - exists x. split; [|left; destruct x as [s|s| |s m e B]; try discriminate; now exists s]. destruct x as [s|[|]| |s m e B]; try discriminate; reflexivity.
Qed.
Lemma single_fits (x : binary_float 24 128) : is_finite x = true -> Rabs (r64 (printed x)) < bpow radix2 1024.
Proof.
  intros H. apply Rle_lt_trans with (bpow radix2 129); [|apply bpow_lt; lia].
  change (r64 (printed x)) with (L_Float.rnd (prec := 53) (emax := 1024) (printed x)). rewrite L_Float.rnd_abs.
  assert (Q : generic_format radix2 (SpecFloat.fexp 53 1024) (bpow radix2 129)) by (apply (fmt_pow (prec := 53) (emax := 1024)); lia).
  rewrite <- (rnd_fmt (prec := 53) (emax := 1024) (bpow radix2 129) Q). apply rnd_mono.
  pose proof (printed_half x H) as P. pose proof (Rabs_triang (printed x - B2R x) (B2R x)) as T.
  replace (printed x - B2R x + B2R x) with (printed x) in T by ring. pose proof (abs_B2R_lt_emax _ _ x) as L.
  assert (1 <= bpow radix2 128) by (change 1 with (bpow radix2 0); apply bpow_le; lia). change (bpow radix2 129) with (bpow radix2 (128 + 1)). rewrite bpow_plus. change (bpow radix2 1) with 2. lra.
Qed.
Lemma read_single underflow (x : binary_float 24 128) : is_nan x = false ->
  exists v : binary_float 53 1024, float_from_string underflow (float_to_string x) = Ok v /\ six_places x v.
Proof.
  intros N. destruct (is_finite x) eqn:F.
  - destruct (print_numeral x F) as (n & En & Hn). pose proof (parse_numeral (prec := 53) (emax := 1024) underflow n (six_decimals_ok _ _ _ Hn)) as Q.
    rewrite En. rewrite (six_decimals_value _ _ _ Hn) in Q. fold (printed x) in Q.
    destruct (float_from_string underflow (numeral_text n)) as [y|e|].
    + destruct Q as (Q1 & Q2 & Q3). exists y. split; [reflexivity|]. right. split; [exact F|]. split; [exact Q1|]. split.
      * rewrite Q3. destruct Hn as (_ & B & _). rewrite B. destruct (Bsign x); reflexivity.
      * rewrite Q2. f_equal. now apply printed_signed.
    + exfalso. destruct Q as [_ [Q|[Q1 Q2]]]; [pose proof (single_fits x F); lra|].
      apply (printed_normal (prec := 24) (emax := 128) ltac:(lia) x Q1). eapply Rlt_le_trans; [exact Q2|]. apply bpow_le. lia.
    + destruct Q.
  - exists (if Bsign x then B754_infinity true else B754_infinity false). destruct x as [s|s| |s m e B]; try discriminate. destruct s; (split; [reflexivity|left; eexists; split; reflexivity]).
Qed.
(** A double with at most six decimals is itself. *)
Lemma six_places_kept (x v : binary_float 53 1024) : kept x -> six_places x v -> v = x.
Proof.
  intros K H. destruct H as [(s & -> & ->)|(F & G & S & E)]; [reflexivity|]. apply B2R_Bsign_inj; [exact G|exact F| |exact S].
  pose proof (kept_back 53 1024 _ _ (fun _ => true) x ltac:(lia) ltac:(lia) K) as Q.
  destruct (float_round_trip (prec := 53) (emax := 1024) ltac:(lia) ltac:(lia) (fun _ => true) x F) as (y & A & _ & _ & D & _).
  rewrite A in Q. injection Q as ->. rewrite E, <- (printed_signed x F). symmetry. exact D.
Qed.
Lemma text_readable id b s underflow : is_float id -> (exists places, text_of places id b s) -> exists v, float_from_string underflow s = Ok v /\ number_of id b v.
Proof.
  intros Hf (p & [G|[G|G]]).
  - destruct G as [(t & v & Hid & _)|[(-> & x & Hk & -> & ->)|[(-> & x & Hk & -> & ->)|(-> & _)]]].
    + exfalso. now apply (plain_column id t Hid).
    + destruct (read_single underflow x (kept_not_nan _ _ _ Hk)) as (v & E & S). exists v. split; [exact E|]. left. eauto.
    + destruct (read_double underflow x (kept_not_nan _ _ _ Hk)) as (v & E & S). exists v. split; [exact E|]. right. eauto.
    + destruct Hf; discriminate.
  - destruct G as (-> & x & Hk & -> & ->). destruct (read_single underflow x Hk) as (v & E & S). exists v. split; [exact E|]. left. eauto.
  - destruct G as (-> & x & Hk & -> & ->). destruct (read_double underflow x Hk) as (v & E & S). exists v. split; [exact E|]. right. eauto.
Qed.
