(** Weights and norms. *)
From Coq Require Import Reals Lra Psatz.
From Flocq Require Import Core.Core IEEE754.BinarySingleNaN.
From Verif Require Import Base L_List M_Stats S_Stats L_Stats M_Scale S_Scale L_Float L_Scale2 M_Docs S_Docs L_Docs L_Docs3.
Open Scope R_scope.

Section Bounds.
  Context {prec emax : Z} {Hp : Prec_gt_0 prec} {Hm : Prec_lt_emax prec emax}.
  Notation F := (binary_float prec emax).
  (** A result between two numbers of the format. *)
  Lemma rnd_between (lo hi x : R) : rnd (prec := prec) (emax := emax) lo = lo -> rnd (prec := prec) (emax := emax) hi = hi -> lo <= x <= hi ->
    lo <= rnd (prec := prec) (emax := emax) x <= hi.
  Proof using Hp. intros H1 H2 (H3 & H4). split; [rewrite <- H1|rewrite <- H2]; apply rnd_mono; assumption. Qed.
  Lemma rnd_pow2 e : (0 <= e < emax)%Z -> rnd (prec := prec) (emax := emax) (bpow radix2 e) = bpow radix2 e.
  Proof using Hp Hm. intro H. apply rnd_fmt. apply fmt_pow; lia. Qed.
End Bounds.

(** *** Sums of non-negative numbers *)
Section Sum.
  Variable b : Z.
  Hypothesis Hb : (0 <= b /\ b + 24 < 128)%Z.
  Notation term_ok x := (is_finite (x : float32) = true /\ 0 <= B2R (x : float32) <= bpow radix2 b).

  Lemma multiple_fmt (j : Z) : (0 <= j <= 2 ^ 24)%Z -> r32 (IZR j * bpow radix2 b) = IZR j * bpow radix2 b.
  Proof using Hb.
    intro Hj. apply (@rnd_fmt 24 128 _). destruct (Z.eq_dec j (2 ^ 24)) as [->|Hn].
    - replace (IZR (2 ^ 24) * bpow radix2 b) with (bpow radix2 (24 + b)); [apply fmt_pow; lia|].
      rewrite bpow_plus. f_equal.
    - apply generic_format_FLT. exists (Float radix2 j b); [reflexivity| |]; cbn [Fnum Fexp]; unfold SpecFloat.emin; [|lia].
      change (Zpower radix2 24) with (2 ^ 24)%Z. lia.
  Qed.
  Lemma multiple_big (j : Z) : (0 <= j <= 2 ^ 24)%Z -> Rabs (IZR j * bpow radix2 b) < bpow radix2 128.
  Proof using Hb.
    intro Hj. pose proof (bpow_gt_0 radix2 b) as Hpos. rewrite Rabs_right.
    - apply Rle_lt_trans with (IZR (2 ^ 24) * bpow radix2 b).
      + apply Rmult_le_compat_r; [lra|]. apply IZR_le. lia.
      + replace (IZR (2 ^ 24) * bpow radix2 b) with (bpow radix2 (24 + b)); [apply bpow_lt; lia|]. rewrite bpow_plus. f_equal.
    - apply Rle_ge. apply Rmult_le_pos; [apply IZR_le; lia|lra].
  Qed.
  Lemma sum_step (a x : float32) (j : Z) : (0 <= j < 2 ^ 24)%Z -> is_finite a = true -> 0 <= B2R a <= IZR j * bpow radix2 b -> term_ok x ->
    is_finite (fadd a x) = true /\ B2R a <= B2R (fadd a x) /\ B2R x <= B2R (fadd a x) /\ B2R (fadd a x) <= IZR (j + 1) * bpow radix2 b.
  Proof using Hb.
    intros Hj Fa Ha (Fx & Hx).
    assert (Hsum : 0 <= B2R a + B2R x <= IZR (j + 1) * bpow radix2 b) by (rewrite plus_IZR; lra).
    assert (Hr : 0 <= rnd (prec := 24) (emax := 128) (B2R a + B2R x) <= IZR (j + 1) * bpow radix2 b).
    { apply rnd_between; [apply rnd_0|apply multiple_fmt; lia|exact Hsum]. }
    destruct (fadd_ok a x Fa Fx) as (E & Ff).
    { eapply Rle_lt_trans; [|apply (multiple_big (j + 1)); lia]. rewrite !Rabs_right by lra. apply Hr. }
    split; [exact Ff|]. rewrite E. split; [|split].
    - rewrite <- (@rnd_B2R 24 128 _ a) at 1. apply rnd_mono. lra.
    - rewrite <- (@rnd_B2R 24 128 _ x) at 1. apply rnd_mono. lra.
    - apply Hr.
  Qed.
  Lemma sum_ok (l : list float32) : forall (a : float32) (j : Z), (0 <= j)%Z -> (j + Z.of_nat (length l) <= 2 ^ 24)%Z -> is_finite a = true ->
    0 <= B2R a <= IZR j * bpow radix2 b -> (forall x, In x l -> term_ok x) ->
    is_finite (fold_left fadd l a) = true /\ B2R a <= B2R (fold_left fadd l a) /\ (forall x, In x l -> B2R x <= B2R (fold_left fadd l a)) /\
    B2R (fold_left fadd l a) <= IZR (j + Z.of_nat (length l)) * bpow radix2 b.
  Proof using Hb.
    induction l as [|x l IH]; intros a j Hj Hl Fa Ha Hx; cbn [fold_left length] in *.
    - rewrite Z.add_0_r. repeat split; auto; try lra. intros x [].
    - destruct (sum_step a x j) as (S1 & S2 & S3 & S4); auto; [lia|apply Hx; left; reflexivity|].
      destruct (IH (fadd a x) (j + 1)%Z) as (T1 & T2 & T3 & T4); auto; try lia; [lra|intros y Hy; apply Hx; right; exact Hy|].
      split; [exact T1|]. split; [lra|]. split.
      + intros y [<-|Hy]; [lra|apply T3, Hy].
      + replace (j + Z.of_nat (S (length l)))%Z with (j + 1 + Z.of_nat (length l))%Z by lia. exact T4.
  Qed.
End Sum.

(** *** The square root of a rounded square is not below the number. *)
Lemma sqrt_square (x : float32) : is_finite x = true -> 1 <= B2R x <= bpow radix2 43 ->
  B2R x <= r32 (sqrt (r32 (B2R x * B2R x))).
Proof.
  intros Fx (H1 & H2). set (w := B2R x) in *.
  assert (Fw : generic_format radix2 (SpecFloat.fexp 24 128) w) by (apply generic_format_B2R).
  (* w = m 2^e with 2^23 <= m < 2^24 *)
  pose (e := (mag radix2 w - 24)%Z). assert (Hmag : (1 <= mag radix2 w)%Z).
  { apply mag_ge_bpow. rewrite Rabs_right by lra. change (bpow radix2 (1 - 1)) with 1. exact H1. }
  assert (Hce : cexp radix2 (SpecFloat.fexp 24 128) w = e) by (unfold cexp, SpecFloat.fexp, SpecFloat.emin, e; lia).
  assert (Hbp : bpow radix2 (e + 23) <= w < bpow radix2 (e + 24)).
  { destruct (mag radix2 w) as (k & Hk). cbn [mag_val] in *. specialize (Hk ltac:(lra)). rewrite Rabs_right in Hk by lra. unfold e.
    replace (k - 24 + 23)%Z with (k - 1)%Z by lia. replace (k - 24 + 24)%Z with k by lia. exact Hk. }
  set (u := bpow radix2 e) in *. assert (Hu : 0 < u) by apply bpow_gt_0.
  assert (B23 : bpow radix2 (e + 23) = IZR (2 ^ 23) * u) by (rewrite bpow_plus; unfold u; rewrite Rmult_comm; reflexivity).
  assert (B24 : bpow radix2 (e + 24) = IZR (2 ^ 24) * u) by (rewrite bpow_plus; unfold u; rewrite Rmult_comm; reflexivity).
  rewrite B23, B24 in Hbp. set (y := r32 (w * w)). set (s := sqrt y).
  destruct (Req_dec w (IZR (2 ^ 23) * u)) as [Ew|Ew].
  - (* a power of two: everything is exact *)
    assert (Ey : y = w * w).
    { unfold y. apply (@rnd_fmt 24 128 _). rewrite Ew, <- B23, <- bpow_plus. apply generic_format_bpow. unfold SpecFloat.fexp, SpecFloat.emin, e in *. lia. }
    unfold s. rewrite Ey, sqrt_square by lra. rewrite (@rnd_fmt 24 128 _ w Fw : r32 w = w). lra.
  - assert (Hm : w > IZR (2 ^ 23) * u) by lra.
    (* the error of the square *)
    assert (Herr : Rabs (y - w * w) <= / 2 * ulp radix2 (SpecFloat.fexp 24 128) (w * w)).
    { apply error_le_half_ulp. apply (fexp_correct 24 128); reflexivity. }
    assert (Hww : 0 < w * w) by nra.
    rewrite ulp_neq_0 in Herr by lra.
    assert (Hmag2 : (2 * mag radix2 w - 1 <= mag radix2 (w * w) <= 2 * mag radix2 w)%Z).
    { pose proof (mag_mult radix2 w w ltac:(lra) ltac:(lra)). lia. }
    assert (Hce2 : cexp radix2 (SpecFloat.fexp 24 128) (w * w) = (mag radix2 (w * w) - 24)%Z) by (unfold cexp, SpecFloat.fexp, SpecFloat.emin; lia).
    rewrite Hce2 in Herr.
    (* s > w - u/2 *)
    assert (Hs : w - u / 2 < s).
    { unfold s. apply Rsqr_incrst_0; [|lra|apply sqrt_pos]. rewrite Rsqr_sqrt.
      - unfold Rsqr. apply Rabs_le_inv in Herr.
        destruct (Z.eq_dec (mag radix2 (w * w)) (2 * mag radix2 w)) as [E2|E2].
        + (* w * w >= 2^(2 mag - 1) *)
          assert (Hlow : bpow radix2 (2 * (e + 24) - 1) <= w * w).
          { destruct (mag radix2 (w * w)) as (k & Hk). cbn [mag_val] in *. specialize (Hk ltac:(lra)). rewrite Rabs_right in Hk by lra.
            replace (2 * (e + 24) - 1)%Z with (k - 1)%Z by (unfold e; lia). apply Hk. }
          assert (Eu : bpow radix2 (mag radix2 (w * w) - 24) = IZR (2 ^ 24) * (u * u)).
          { rewrite E2. replace (2 * mag radix2 w - 24)%Z with (24 + (e + e))%Z by (unfold e; lia). rewrite !bpow_plus. reflexivity. }
          rewrite Eu in Herr.
          assert (El : bpow radix2 (2 * (e + 24) - 1) = IZR (2 ^ 47) * (u * u)).
          { replace (2 * (e + 24) - 1)%Z with (47 + (e + e))%Z by lia. rewrite !bpow_plus. reflexivity. }
          rewrite El in Hlow. change (IZR (2 ^ 47)) with 140737488355328 in Hlow. change (IZR (2 ^ 24)) with 16777216 in *.
          (* w >= 11863283 u *)
          assert (Hw : 11863283 * u <= w) by nra. nra.
        + assert (E2' : (mag radix2 (w * w) = 2 * mag radix2 w - 1 :> Z)%Z) by lia.
          assert (Eu : bpow radix2 (mag radix2 (w * w) - 24) = IZR (2 ^ 23) * (u * u)).
          { rewrite E2'. replace (2 * mag radix2 w - 1 - 24)%Z with (23 + (e + e))%Z by (unfold e; lia). rewrite !bpow_plus. reflexivity. }
          rewrite Eu in Herr. change (IZR (2 ^ 23)) with 8388608 in *. nra.
      - unfold y. rewrite <- (@rnd_0 24 128 _). apply (@rnd_mono 24 128 _). lra. }
    (* nearest *)
    destruct (Rle_or_lt w (r32 s)) as [Hok|Hlt]; [exact Hok|exfalso].
    pose proof (round_N_pt radix2 (SpecFloat.fexp 24 128) (fun z => negb (Z.even z)) s) as (Fr & Hn).
    specialize (Hn w Fw). fold (rounded 24 128 s) in Hn.
    assert (Hpred : r32 s <= pred radix2 (SpecFloat.fexp 24 128) w).
    { apply pred_ge_gt; auto. apply (fexp_correct 24 128); reflexivity. }
    assert (Ep : pred radix2 (SpecFloat.fexp 24 128) w = w - u).
    { rewrite pred_eq_pos by lra. unfold pred_pos. rewrite Req_bool_false.
      - rewrite ulp_neq_0 by lra. rewrite Hce. reflexivity.
      - replace (mag radix2 w - 1)%Z with (e + 23)%Z by (unfold e; lia). rewrite B23. exact Ew. }
    rewrite Ep in Hpred. destruct (Rle_or_lt w s).
    + revert Hn. rewrite (Rabs_left (r32 s - s)) by lra. rewrite Rabs_left1 by lra. lra.
    + revert Hn. rewrite (Rabs_left (r32 s - s)) by lra. rewrite Rabs_right by lra. lra.
Qed.

(** *** Weights *)
Lemma f64_ok z : (0 <= z <= 2 ^ 32)%Z -> B2R (f64 z) = IZR z /\ is_finite (f64 z) = true.
Proof. intro H. apply (@of_int_exact 53 1024 _ _ z). lia. Qed.
Lemma big64 x : 0 <= x <= bpow radix2 100 -> Rabs x < bpow radix2 1024.
Proof. intro H. rewrite Rabs_right by lra. apply Rle_lt_trans with (bpow radix2 100); [lra|]. apply bpow_lt. lia. Qed.
Lemma pow_le (z e : Z) : (0 <= e)%Z -> (z <= 2 ^ e)%Z -> IZR z <= bpow radix2 e.
Proof. intros He Hz. rewrite <- IZR_Zpower by exact He. apply IZR_le. exact Hz. Qed.
Lemma r64_1 : rnd (prec := 53) (emax := 1024) 1 = 1.
Proof. apply rnd_1. Qed.
(** A double operation whose exact result lies in [1, 2^k]. *)
Lemma r64_between k x : (0 <= k <= 100)%Z -> 1 <= x <= bpow radix2 k ->
  1 <= rnd (prec := 53) (emax := 1024) x <= bpow radix2 k /\ Rabs (rnd (prec := 53) (emax := 1024) x) < bpow radix2 1024.
Proof.
  intros Hk Hx. assert (H : 1 <= rnd (prec := 53) (emax := 1024) x <= bpow radix2 k).
  { apply rnd_between; [apply r64_1|apply rnd_pow2; lia|exact Hx]. }
  split; [exact H|]. apply big64. split; [lra|]. apply Rle_trans with (bpow radix2 k); [apply H|]. apply bpow_le. lia.
Qed.

Lemma Ok_inj {A} (a b : A) : Ok a = Ok b -> a = b.
Proof. congruence. Qed.

Section Weight.
  Variable ln : binary_float 53 1024 -> binary_float 53 1024.
  Hypothesis Hln : log_ok ln.

  (** 1 + log of a number from 1. *)
  Lemma one_plus_ln (x : binary_float 53 1024) : is_finite x = true -> 1 <= B2R x ->
    is_finite (fadd (f64 1) (ln x)) = true /\ 1 <= B2R (fadd (f64 1) (ln x)) <= bpow radix2 11 /\ B2R (fadd (f64 1) (ln x)) = r64 (1 + B2R (ln x)).
  Proof using Hln.
    intros Fx Hx. destruct (Hln x Fx Hx) as (Fl & Hl). destruct (f64_ok 1) as (O1 & O2); [lia|].
    assert (B11 : bpow radix2 11 = 2048) by reflexivity.
    destruct (r64_between 11 (1 + B2R (ln x))) as (R1 & R2); [lia|lra|].
    destruct (fadd_ok (f64 1) (ln x) O2 Fl) as (E & Ff); [rewrite O1; exact R2|]. split; [exact Ff|]. rewrite E, O1. split; [exact R1|reflexivity].
  Qed.
  Lemma ratio_ok (num den : Z) : (1 <= den <= num)%Z -> (num <= 2 ^ 32)%Z -> forall d : binary_float 53 1024, is_finite d = true -> B2R d = IZR den ->
    is_finite (fdiv (f64 num) d) = true /\ 1 <= B2R (fdiv (f64 num) d) /\ B2R (fdiv (f64 num) d) = r64 (IZR num / IZR den).
  Proof using Type.
    intros Hd Hn d Fd Ed. destruct (f64_ok num) as (N1 & N2); [lia|].
    assert (D0 : 1 <= IZR den) by (apply (IZR_le 1); lia). assert (Nd : IZR den <= IZR num) by (apply IZR_le; lia).
    assert (Nb : IZR num <= bpow radix2 32) by (apply pow_le; lia).
    assert (Hq : 1 <= IZR num / IZR den <= bpow radix2 32).
    { split.
      - apply Rmult_le_reg_r with (IZR den); [lra|]. unfold Rdiv. rewrite Rmult_assoc, Rinv_l, Rmult_1_r by lra. lra.
      - apply Rmult_le_reg_r with (IZR den); [lra|]. unfold Rdiv. rewrite Rmult_assoc, Rinv_l, Rmult_1_r by lra. nra. }
    destruct (r64_between 32 (IZR num / IZR den)) as (R1 & R2); [lia|exact Hq|].
    destruct (fdiv_ok (f64 num) d N2) as (E & Ff); [lra|rewrite N1, Ed; exact R2|]. split; [exact Ff|]. rewrite E, N1, Ed. split; [apply R1|reflexivity].
  Qed.

  (** The weight of a term that occurs, in a transformer whose document frequencies are between 1 and the number of documents. *)
  Lemma weight_value t term n w df0 : (1 <= n <= 2 ^ 32)%Z -> (0 <= tf_total t < 2 ^ 32 - 1)%Z ->
    m_find str_eqb (tf_freq t) term = Some df0 -> (1 <= df0 <= tf_total t)%Z ->
    weight ln t term n = Ok w -> is_finite w = true /\ 1 <= B2R w <= bpow radix2 43 /\
      tfidf_weight ln (tf_binary t) (tf_sublinear t) (tf_use_idf t) (tf_smooth t) n df0 (tf_total t) (B2R w).
  Proof using Hln.
    intros Hn Ht Hfind Hdf0. unfold weight. cbv zeta.
    set (tf := if tf_binary t then _ else _).
    assert (Htf : is_finite tf = true /\ 1 <= B2R tf <= bpow radix2 32 /\
      if tf_binary t then B2R tf = 1 else if tf_sublinear t then exists x, equals x (IZR n) /\ B2R tf = r64 (1 + B2R (ln x)) else B2R tf = IZR n).
    { destruct (f64_ok 1) as (O1 & O2); [lia|]. destruct (f64_ok n) as (N1 & N2); [lia|].
      assert (N3 : 1 <= IZR n <= bpow radix2 32) by (split; [apply (IZR_le 1); lia|apply pow_le; lia]).
      unfold tf. destruct (tf_binary t); cbv iota.
      { split; [exact O2|]. rewrite O1. split; [split; [lra|apply (pow_le 1); lia]|reflexivity]. }
      destruct (tf_sublinear t); cbn [negb]; cbv iota; [|rewrite N1; auto].
      destruct (one_plus_ln (f64 n) N2) as (A & B & C); [rewrite N1; lra|]. split; [exact A|]. split; [|exists (f64 n); split; [split; assumption|exact C]].
      split; [lra|]. apply Rle_trans with (bpow radix2 11); [lra|]. apply bpow_le. lia. }
    clearbody tf.
    assert (Hidf : forall idf, (if negb (tf_use_idf t) then Ok (f64 1)
               else match m_find str_eqb (tf_freq t) term with
                    | None => Throw OutOfRange
                    | Some df => Ok (fadd (f64 1) (ln (fdiv (f64 (u32 (1 + tf_total t)))
                        (if tf_smooth t then fadd (f64 1) (f64 df) else fadd (f64 0) (f64 df)))))
                    end) = Ok idf -> is_finite idf = true /\ 1 <= B2R idf <= bpow radix2 11 /\
                    if tf_use_idf t then exists q, equals q (r64 (IZR (1 + tf_total t) / IZR (if tf_smooth t then 1 + df0 else df0))) /\ B2R idf = r64 (1 + B2R (ln q))
                    else B2R idf = 1).
    { intros idf. destruct (f64_ok 1) as (O1 & O2); [lia|]. rewrite Hfind. destruct (tf_use_idf t); cbn [negb].
      - rename df0 into df. intro E. apply Ok_inj in E. rewrite <- E. destruct (f64_ok df) as (D1 & D2); [lia|]. destruct (f64_ok 0) as (Z1 & Z2); [lia|].
        replace (u32 (1 + tf_total t)) with (1 + tf_total t)%Z by (unfold u32; rewrite Z.mod_small; lia).
        assert (Hden : exists den, den = (if tf_smooth t then 1 + df else df)%Z /\ (1 <= den <= 1 + tf_total t)%Z /\ let d := if tf_smooth t then fadd (f64 1) (f64 df) else fadd (f64 0) (f64 df) in
          is_finite d = true /\ B2R d = IZR den).
        { assert (Hadd : forall k (Hk : (0 <= k <= 1)%Z), is_finite (f64 k) = true -> B2R (f64 k) = IZR k ->
            is_finite (fadd (f64 k) (f64 df)) = true /\ B2R (fadd (f64 k) (f64 df)) = IZR (k + df)).
          { intros k Hk Fk Ek.
            assert (Hr : rnd (prec := 53) (emax := 1024) (IZR k + IZR df) = IZR (k + df)).
            { rewrite <- plus_IZR. apply rnd_fmt. apply (@int_fmt 53 1024 _ _). lia. }
            destruct (fadd_ok (f64 k) (f64 df) Fk D2) as (E9 & Ff).
            - rewrite Ek, D1, Hr. apply big64. split; [apply (IZR_le 0); lia|]. apply pow_le; [lia|]. apply Z.le_trans with (2 ^ 33)%Z; [lia|].
              apply Z.pow_le_mono_r; lia.
            - split; [exact Ff|]. rewrite E9, Ek, D1. exact Hr. }
          destruct (tf_smooth t).
          - exists (1 + df)%Z. split; [reflexivity|]. split; [lia|]. apply Hadd; auto; lia.
          - exists (0 + df)%Z. split; [reflexivity|]. split; [lia|]. apply Hadd; auto; lia. }
        destruct Hden as (den & Eden & Hb & Fd & Ed). cbv zeta in Fd, Ed.
        destruct (ratio_ok (1 + tf_total t) den) with (d := if tf_smooth t then fadd (f64 1) (f64 df) else fadd (f64 0) (f64 df)) as (A & B & C); [exact Hb|lia|exact Fd|exact Ed|].
        destruct (one_plus_ln _ A B) as (F & G & H). split; [exact F|]. split; [exact G|]. eexists. split; [split; [exact A|]|exact H].
        rewrite C, Eden. reflexivity.
      - intro E. assert (E1 : idf = f64 1) by congruence. rewrite E1. split; [exact O2|]. rewrite O1. split; [|reflexivity]. split; [lra|].
        apply (pow_le 1%Z 11%Z); lia. }
    match goal with |- bind ?x _ = _ -> _ => destruct x as [idf| |] eqn:E; cbn [bind]; try discriminate end.
    destruct (Hidf idf eq_refl) as (Fi & Hi & Si). destruct Htf as (Ft & Hf & Sf). intro Ew. injection Ew as <-.
    assert (B43 : bpow radix2 43 = bpow radix2 32 * bpow radix2 11) by (rewrite <- bpow_plus; reflexivity).
    assert (Hprod : 1 <= B2R tf * B2R idf <= bpow radix2 43) by (rewrite B43; split; [nra|apply Rmult_le_compat; lra]).
    destruct (r64_between 43 (B2R tf * B2R idf)) as (R1 & R2); [lia|exact Hprod|].
    destruct (fmul_ok tf idf Ft Fi R2) as (E1 & E2). rewrite <- E1 in R1.
    assert (R3 : 1 <= rnd (prec := 24) (emax := 128) (B2R (fmul tf idf)) <= bpow radix2 43).
    { apply rnd_between; [apply rnd_1|apply rnd_pow2; lia|exact R1]. }
    destruct (convert_round (p' := 24) (e' := 128) (fmul tf idf) E2) as (C1 & C2).
    { rewrite Rabs_right by lra. apply Rle_lt_trans with (bpow radix2 43); [apply R3|]. apply bpow_lt. lia. }
    split; [exact C2|]. rewrite C1. split; [exact R3|]. exists (B2R tf), (B2R idf). split; [exact Sf|]. split; [exact Si|]. rewrite E1. reflexivity.
  Qed.
End Weight.

(** *** Norms *)
Lemma fold_map_snd (f : float32 -> float32) l : forall a, fold_left (fun a (r : Z * float32) => fadd a (f (snd r))) l a = fold_left fadd (map (fun r => f (snd r)) l) a.
Proof. induction l as [|x l IH]; intro a; [reflexivity|]. cbn [fold_left map]. apply IH. Qed.

Section Norm.
  Variable t : tfidf.
  Variable rs : list (Z * float32).
  Hypothesis Hw : forall i w, In (i, w) rs -> is_finite w = true /\ 1 <= B2R w <= bpow radix2 43.
  Hypothesis Hlen : (Z.of_nat (length rs) <= 2 ^ 24)%Z.

  Lemma norm_l1 : tf_norm t = L1 -> forall i w, In (i, w) rs ->
    within 0 1 (fdiv w (tf_norm_of t rs)) /\ is_finite (tf_norm_of t rs) = true.
  Proof using Hw Hlen.
    intros Hn i w Hin. unfold tf_norm_of. rewrite Hn. change (fun (a : binary_float 24 128) (r : Z * float32) => fadd a (snd r)) with
      (fun (a : float32) (r : Z * float32) => fadd a ((fun x => x) (snd r))). rewrite fold_map_snd.
    destruct (sum_ok 43 ltac:(lia) (map (fun r : Z * float32 => snd r) rs) fzero 0) as (S1 & _ & S3 & _).
    - lia.
    - rewrite map_length. exact Hlen.
    - reflexivity.
    - cbn [B2R fzero]. rewrite Rmult_0_l. lra.
    - intros x Hx. apply in_map_iff in Hx. destruct Hx as ((j, v) & E & Hx). cbn in E. subst v. destruct (Hw j x Hx). split; [assumption|lra].
    - destruct (Hw i w Hin) as (Fw & B). specialize (S3 w (in_map snd rs (i, w) Hin)).
      set (sum := fold_left fadd (map (fun r : Z * float32 => snd r) rs) fzero) in *.
      split; [|exact S1]. destruct (div_pos w sum Fw) as (D1 & D2 & _); [lra|lra|]. split; assumption.
  Qed.
  Lemma norm_l2 : tf_norm t = L2 -> forall i w, In (i, w) rs ->
    within 0 1 (fdiv w (tf_norm_of t rs)) /\ is_finite (tf_norm_of t rs) = true.
  Proof using Hw Hlen.
    intros Hn i w Hin. unfold tf_norm_of. rewrite Hn. change (fun (a : binary_float 24 128) (r : Z * float32) => fadd a (fmul (snd r) (snd r))) with
      (fun (a : float32) (r : Z * float32) => fadd a ((fun x => fmul x x) (snd r))). rewrite fold_map_snd.
    assert (B86 : bpow radix2 86 = bpow radix2 43 * bpow radix2 43) by (rewrite <- bpow_plus; reflexivity).
    assert (Hsq : forall j v, In (j, v) rs -> is_finite (fmul v v) = true /\ B2R (fmul v v) = r32 (B2R v * B2R v) /\ 1 <= B2R (fmul v v) <= bpow radix2 86).
    { intros j v Hv. destruct (Hw j v Hv) as (Fv & B). assert (P : 1 <= B2R v * B2R v <= bpow radix2 86) by (rewrite B86; split; nra).
      assert (R3 : 1 <= rnd (prec := 24) (emax := 128) (B2R v * B2R v) <= bpow radix2 86).
      { apply rnd_between; [apply rnd_1|apply rnd_pow2; lia|exact P]. }
      destruct (fmul_ok v v Fv Fv) as (E1 & E2).
      { rewrite Rabs_right by lra. apply Rle_lt_trans with (bpow radix2 86); [apply R3|]. apply bpow_lt. lia. }
      split; [exact E2|]. split; [exact E1|]. rewrite E1. exact R3. }
    destruct (sum_ok 86 ltac:(lia) (map (fun r : Z * float32 => fmul (snd r) (snd r)) rs) fzero 0) as (S1 & _ & S3 & S4).
    - lia.
    - rewrite map_length. exact Hlen.
    - reflexivity.
    - cbn [B2R fzero]. rewrite Rmult_0_l. lra.
    - intros x Hx. apply in_map_iff in Hx. destruct Hx as ((j, v) & E & Hx). cbn [snd] in E. subst x. destruct (Hsq j v Hx) as (A & _ & B). split; [exact A|lra].
    - destruct (Hw i w Hin) as (Fw & B). destruct (Hsq i w Hin) as (Q1 & Q2 & Q3).
      specialize (S3 (fmul w w) (in_map (fun r : Z * float32 => fmul (snd r) (snd r)) rs (i, w) Hin)).
      set (sum := fold_left fadd (map (fun r : Z * float32 => fmul (snd r) (snd r)) rs) fzero) in *.
      assert (Hs1 : 1 <= B2R sum) by lra.
      destruct (fsqrt_ok sum S1) as (T1 & T2); [lra| |].
      { right. destruct sum as [b|b| |b m ex Hb]; try discriminate S1; cbn [B2R Bsign] in *; [lra|]. destruct b; [|reflexivity].
        exfalso. assert (F2R (Float radix2 (cond_Zopp true (Zpos m)) ex) < 0) by (apply F2R_lt_0; reflexivity). lra. }
      assert (Hle : B2R w <= B2R (fsqrt sum)).
      { rewrite T1. apply Rle_trans with (r32 (sqrt (r32 (B2R w * B2R w)))); [apply sqrt_square; auto|].
        apply (@rnd_mono 24 128 _). apply sqrt_le_1_alt. rewrite <- Q2. exact S3. }
      split; [|exact T2]. destruct (div_pos w (fsqrt sum) Fw) as (D1 & D2 & _); [lra|lra|]. split; assumption.
  Qed.
End Norm.
