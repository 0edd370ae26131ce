(** Norms of rows; the deviation of a column. *)
From Coq Require Import Reals Lra Psatz.
From Flocq Require Import Core.Core IEEE754.BinarySingleNaN Plus_error.
From Verif Require Import Base L_List M_Estimator M_Stats M_Pipeline M_Impute M_Scale M_FloatStats M_FloatScale S_Stats S_FloatStats S_FloatScale L_Stats L_Float L_Scale2 L_Scale4 L_FloatStats L_FloatStats2 L_FloatStats3 L_FloatScale L_FloatScale2.
Open Scope R_scope.

Lemma float_big {p e : Z} {Hp : Prec_gt_0 p} {Hm : Prec_lt_emax p e} (x : binary_float p e) : (p <= 53)%Z -> (e <= 1024)%Z -> B2R x <> 0 -> bpow radix2 (-1074) <= Rabs (B2R x).
Proof.
  intros H1 H2 N. destruct (is_finite_strict x) eqn:E.
  - eapply Rle_trans; [|apply (abs_B2R_ge_emin p e); exact E]. apply bpow_le. unfold SpecFloat.emin. lia.
  - destruct x; try discriminate; cbn in N; lra.
Qed.

Section Rows.
  Context {p e : Z} {Hp : Prec_gt_0 p} {Hm : Prec_lt_emax p e}.
  Context {lp le : Z} {HLp : Prec_gt_0 lp} {HLm : Prec_lt_emax lp le}.
  Notation F := (binary_float p e).
  Notation L := (binary_float lp le).
  Notation u := (unit_error lp).
  Notation v := (unit_error 53).
  Lemma cells_float (row : list F) : cells (float_cells (lp := lp) (le := le) row) = map (fun x => convert x : L) (numbers row).
  Proof using Type. induction row as [|x row IH]; [reflexivity|]. cbn [float_cells map cells flat_map numbers filter]. destruct (is_nan x); cbn [negb map app]; [exact IH|f_equal; exact IH]. Qed.
  Lemma numbers_not_nan (row : list F) : Forall (fun x => is_nan x = false) (numbers row).
  Proof using Type. apply Forall_forall. intros x Hx. apply filter_In in Hx. destruct Hx as [_ H]. now destruct (is_nan x). Qed.
  Lemma convert_finite_back (x : F) : is_finite (convert x : L) = true -> is_finite x = true.
  Proof using Type. destruct x; auto. Qed.
  (** The numbers of a row, converted. *)
  Lemma converted (l : list F) : (p <= 53)%Z -> (e <= 1024)%Z -> (53 <= lp)%Z -> (1024 <= le)%Z -> Forall (fun x => is_nan x = false) l ->
    let cs := map (fun x => convert x : L) l in
    Forall (fun x => is_nan x = false) cs /\
    (forall x, In x cs -> is_finite x = true -> B2R x <> 0 -> bpow radix2 (-1074) <= Rabs (B2R x)) /\
    (Forall (fun x => is_finite x = true) cs -> Forall (fun x => is_finite x = true) l /\ map B2R cs = map B2R l).
  Proof using Hp Hm HLp HLm.
    intros H1 H2 H3 H4 N cs. rewrite Forall_forall in N. split; [|split].
    - unfold cs. rewrite Forall_map. apply Forall_forall. intros x Hx. rewrite convert_not_nan. auto.
    - intros y Hy Fy. unfold cs in Hy. apply in_map_iff in Hy. destruct Hy as (x & <- & Hx). apply convert_finite_back in Fy.
      rewrite (proj1 (convert_widen x ltac:(lia) ltac:(lia) Fy)). now apply float_big.
    - unfold cs. rewrite Forall_map, !Forall_forall. intros Fc. split; [intros x Hx; apply convert_finite_back; auto|].
      rewrite map_map. apply map_ext_in. intros x Hx. apply convert_widen; [lia|lia|]. apply convert_finite_back; auto.
  Qed.
  Lemma norm_of_inv st fi (l : list (option L)) n : norm_of st fi l = Ok n -> cells l <> [] /\ exists s, foldM st fzero (cells l) = Ok s /\ n = fi s.
  Proof using Type.
    unfold norm_of. destruct (cells l) as [|c r] eqn:E; [discriminate|]. intros H. split; [discriminate|]. destruct (foldM st fzero (c :: r)) as [s| |]; try discriminate. cbn in H. injection H as <-. eauto.
  Qed.
  Lemma numbers_reals (row : list F) : map B2R (numbers row) = real_values row. Proof using Type. reflexivity. Qed.

  Theorem l1_near (row : list F) (n : L) : (p <= 53)%Z -> (e <= 1024)%Z -> (53 <= lp)%Z -> (1024 <= le)%Z -> l1_norm (float_cells row) = Ok n ->
    let l := real_values row in
    l <> [] /\ Forall (fun x => is_finite x = true) (numbers row) /\ is_finite n = true /\ 0 <= B2R n /\ near ((1 + u) ^ (length l - 1)) 0 (B2R n) (l1 l).
  Proof using Hp Hm HLp HLm.
    intros H1 H2 H3 H4 H l. destruct (norm_of_inv _ _ _ _ H) as (NE & s & E & ->). rewrite cells_float in *.
    destruct (converted (numbers row) H1 H2 H3 H4 (numbers_not_nan row)) as (A & _ & C). destruct (abs_near _ _ NE A E) as (D & F & F0 & G). destruct (C D) as [C1 C2].
    rewrite C2, map_length in G. unfold l, real_values. split; [intros Q; apply NE; apply map_eq_nil in Q; unfold numbers; rewrite Q; reflexivity|].
    rewrite map_length. split; [exact C1|]. split; [exact F|]. split; [exact F0|exact G].
  Qed.
  Theorem l2_near (row : list F) (n : L) : (p <= 53)%Z -> (e <= 1024)%Z -> (53 <= lp)%Z -> (1024 <= le)%Z -> (Z.of_nat (length row) <= 2 ^ 53)%Z -> l2_norm (float_cells row) = Ok n ->
    let l := real_values row in
    l <> [] /\ Forall (fun x => is_finite x = true) (numbers row) /\ is_finite n = true /\ 0 <= B2R n /\ near ((1 + u) ^ (length l + 1)) (sqrt (INR (length l)) * core_loss le) (B2R n) (l2 l).
  Proof using Hp Hm HLp HLm.
    intros H1 H2 H3 H4 K H l. destruct (norm_of_inv _ _ _ _ H) as (NE & s & E & ->). rewrite cells_float in *.
    destruct (converted (numbers row) H1 H2 H3 H4 (numbers_not_nan row)) as (A & B & C). 
    assert (K' : (length (numbers row) <= length row)%nat) by (unfold numbers; clear; induction row as [|x r IH]; [reflexivity|]; cbn [filter]; destruct (negb (is_nan x)); cbn [length]; lia).
    destruct (root_near _ s H3 H4 NE ltac:(rewrite map_length; lia) A B E) as (D & F & G0 & G). destruct (C D) as [C1 C2].
    rewrite C2, map_length in G. unfold l, real_values. split; [intros Q; apply NE; apply map_eq_nil in Q; unfold numbers; rewrite Q; reflexivity|].
    rewrite map_length. split; [exact C1|]. split; [exact F|]. split; [exact G0|exact G].
  Qed.
End Rows.

Section Dev.
  Context {lp le : Z} {HLp : Prec_gt_0 lp} {HLm : Prec_lt_emax lp le}.
  Notation L := (binary_float lp le).
  Notation u := (unit_error lp).
  Notation v := (unit_error 53).
  Context {I : Type} (t : numty 53 1024 I) (avg : double).
  Notation diff := (fun x : I => convert (fsub (n_cv t x) avg) : L).
  Notation live := (filter (fun x => negb (n_null t x))).
  Hypothesis Favg : is_finite avg = true.

  Lemma sub_not_nan (x : double) : is_nan x = false -> is_nan (fsub x avg) = false.
  Proof using Favg.
    intros N. destruct (is_finite x) eqn:F.
    - pose proof (Bminus_correct 53 1024 _ _ mode_NE x avg F Favg) as C. unfold fsub. destruct (Rlt_bool _ _) in C; [apply is_finite_nan; apply C|]. destruct C as [C _]. destruct (Bminus mode_NE x avg); try reflexivity; discriminate C.
    - destruct x as [s|s| |s m ex B]; try discriminate. destruct avg; try discriminate; reflexivity.
  Qed.
  Lemma sub_finite (x : double) : is_nan x = false -> is_finite (fsub x avg) = true -> is_finite x = true.
  Proof using Favg. intros N F. destruct x as [s|s| |s m ex B]; try reflexivity; try discriminate. destruct avg; discriminate. Qed.

  Lemma dev_run (l : list I) : (forall x, In x l -> n_null t x = false -> is_nan (n_cv t x) = false) -> forall (s0 : L) b0 c0 s b c,
    foldM (dev_fit t avg) ((s0, b0), c0) l = Ok ((s, b), c) ->
    foldM (fun s x => add_checked s (fmul (Babs x) (Babs x))) s0 (map diff (live l)) = Ok s /\ c = (c0 + Z.of_nat (length (live l)))%Z /\ (b = true -> b0 = true \/ live l <> []).
  Proof using Favg.
    induction l as [|x l IH]; intros N s0 b0 c0 s b c H.
    - cbn in H. injection H as <- <- <-. cbn. repeat split; [lia|auto].
    - cbn [foldM] in H. unfold dev_fit in H at 1. cbn [filter]. destruct (n_null t x) eqn:Nx.
      + cbn [bind negb] in *. apply IH; [intros; apply N; auto; now right|exact H].
      + cbn [negb map foldM]. unfold l2_update in H. cbn [fst snd] in H. rewrite (sub_not_nan _ (N x (or_introl eq_refl) Nx)) in H. cbv zeta in H.
        destruct (add_checked s0 _) as [s1|ex|]; cbn [bind] in *; try discriminate. destruct (c0 =? 18446744073709551615)%Z; [discriminate|]. cbn [bind] in H.
        destruct (IH (fun y Hy => N y (or_intror Hy)) _ _ _ _ _ _ H) as (A & B & C). split; [exact A|]. cbn [length]. split; [lia|]. intros _. right. discriminate.
  Qed.

  Lemma l2_shift {A} (f h : A -> R) l w : 0 <= w <= 1 -> (forall x, In x l -> Rabs (f x - h x) <= w * Rabs (h x)) -> near (1 + w) 0 (l2 (map f l)) (l2 (map h l)).
  Proof using Type.
    intros W H. unfold l2. rewrite !map_map.
    assert (P1 : 0 <= rsum (map (fun x => h x ^ 2) l)) by (apply rsum_nonneg; intros y Hy; apply in_map_iff in Hy; destruct Hy as (x & <- & Hx); apply pow2_ge_0).
    assert (Hs : forall x, In x l -> (1 - w) ^ 2 * h x ^ 2 <= f x ^ 2 <= (1 + w) ^ 2 * h x ^ 2).
    { intros x Hx. specialize (H x Hx). pose proof (Rabs_triang (f x) (h x - f x)) as T1. replace (f x + (h x - f x)) with (h x) in T1 by ring. rewrite (Rabs_minus_sym (h x) (f x)) in T1.
      pose proof (Rabs_triang (f x - h x) (h x)) as T2. replace (f x - h x + h x) with (f x) in T2 by ring. pose proof (Rabs_pos (h x)) as Hp. pose proof (Rabs_pos (f x)) as Fp.
      replace (f x ^ 2) with (Rabs (f x) ^ 2) by apply pow2_abs. replace (h x ^ 2) with (Rabs (h x) ^ 2) by apply pow2_abs.
      assert (Wp : 0 <= (1 - w) * Rabs (h x)) by (apply Rmult_le_pos; lra).
      rewrite <- !Rpow_mult_distr. split; apply pow_incr; split; lra. }
    assert (U : rsum (map (fun x => f x ^ 2) l) <= (1 + w) ^ 2 * rsum (map (fun x => h x ^ 2) l)).
    { rewrite <- rsum_scale. clear P1 H. induction l as [|x l IH]; cbn [map rsum fold_right]; [lra|]. fold (rsum (map (fun x => f x ^ 2) l)) (rsum (map (fun x => (1 + w) ^ 2 * h x ^ 2) l)).
      pose proof (IH (fun y Hy => Hs y (or_intror Hy))). pose proof (Hs x (or_introl eq_refl)). lra. }
    assert (D : (1 - w) ^ 2 * rsum (map (fun x => h x ^ 2) l) <= rsum (map (fun x => f x ^ 2) l)).
    { rewrite <- rsum_scale. clear P1 H U. induction l as [|x l IH]; cbn [map rsum fold_right]; [lra|]. fold (rsum (map (fun x => f x ^ 2) l)) (rsum (map (fun x => (1 - w) ^ 2 * h x ^ 2) l)).
      pose proof (IH (fun y Hy => Hs y (or_intror Hy))). pose proof (Hs x (or_introl eq_refl)). lra. }
    apply sqrt_le_1_alt in U. apply sqrt_le_1_alt in D. rewrite sqrt_mult_alt in U, D by (apply pow2_ge_0). rewrite sqrt_pow2 in U, D by lra.
    unfold near. apply Rabs_le. lra.
  Qed.

  Theorem dev_near mx (bs : list (list I)) (d : L) : (53 <= lp)%Z -> (1024 <= le)%Z -> proper_training mx bs ->
    (forall x, n_null t x = false -> is_nan (n_cv t x) = false) -> trained (dev_policy t avg) mx bs = Ok (Some d) ->
    let l := live (items mx bs) in let xs := map (fun x => B2R (n_cv t x)) l in let k := length xs in (Z.of_nat k <= 2 ^ 53)%Z ->
    l <> [] /\ Forall (fun x => is_finite (n_cv t x) = true) l /\ is_finite d = true /\ 0 <= B2R d /\
    near ((1 + u) ^ (k + 3) * (1 + v)) ((1 + v) ^ 2 * core_loss le + bpow radix2 (-1075)) (B2R d) (spread (B2R avg) xs).
  Proof using Favg HLp HLm.
    intros P1 P2 PT NN T l xs k K. unfold dev_policy in T. rewrite trained_simple in T by exact PT.
    destruct (foldM (dev_fit t avg) _ (items mx bs)) as [[[s b] c]|ex|] eqn:E; try discriminate. cbn [bind] in T.
    destruct (dev_run _ (fun x _ => NN x) _ _ _ _ _ _ E) as (A & B & C). fold l in A, B, C. unfold dev_commit, l2_commit in T. cbn [fst snd] in T.
    destruct b; [|discriminate]. cbn [bind] in T. destruct (c =? 0)%Z; [discriminate|]. destruct (Bltb (fdiv (fsqrt s) (fsqrt (of_int c))) fzero) eqn:Neg; [discriminate|]. cbn [bind] in T. injection T as <-.
    destruct (C eq_refl) as [Q|NE]; [discriminate|]. split; [exact NE|].
    assert (NEd : map diff l <> []) by (intros Q; apply map_eq_nil in Q; contradiction).
    assert (Hk : length (map diff l) = k) by (unfold k, xs; now rewrite !map_length).
    assert (Live : forall x, In x l -> is_nan (n_cv t x) = false) by (intros x Hx; apply filter_In in Hx; destruct Hx as [_ Hx]; apply NN; now destruct (n_null t x)).
    assert (Nd : Forall (fun x => is_nan x = false) (map diff l)).
    { rewrite Forall_map. apply Forall_forall. intros x Hx. rewrite convert_not_nan. now apply sub_not_nan, Live. }
    assert (Big : forall x, In x (map diff l) -> is_finite x = true -> B2R x <> 0 -> bpow radix2 (-1074) <= Rabs (B2R x)).
    { intros y Hy Fy. apply in_map_iff in Hy. destruct Hy as (x & <- & Hx). apply convert_finite_back in Fy. rewrite (proj1 (@convert_widen 53 1024 lp le _ _ _ _ (fsub (n_cv t x) avg) ltac:(lia) ltac:(lia) Fy)). apply float_big; lia. }
    destruct (root_near (map diff l) s P1 P2 NEd ltac:(rewrite Hk; exact K) Nd Big A) as (D & F & F0 & G). rewrite Hk in G. rewrite Forall_map in D.
    assert (Dx : forall x, In x l -> is_finite (n_cv t x) = true /\ is_finite (fsub (n_cv t x) avg) = true).
    { rewrite Forall_forall in D. intros x Hx. pose proof (convert_finite_back _ (D x Hx)) as Q. split; [apply sub_finite; auto|exact Q]. }
    split; [apply Forall_forall; intros x Hx; apply Dx; exact Hx|].
    set (n := fsqrt s) in *. assert (Kl : length l = k) by (unfold k, xs; now rewrite map_length).
    assert (K1 : (1 <= k)%nat) by (rewrite <- Kl; destruct l; [congruence|cbn; lia]).
    assert (K1r : 1 <= INR k) by (change 1 with (INR 1); now apply le_INR).
    rewrite Z.add_0_l, Kl in B. subst c. 
    assert (P53 : (2 ^ 53 <= 2 ^ lp)%Z) by (apply Z.pow_le_mono_r; lia).
    destruct (of_int_exact (prec := lp) (emax := le) (Z.of_nat k)) as [O1 O2]; [lia|]. rewrite <- INR_IZR_INZ in O1.
    assert (Os : is_zero (of_int (Z.of_nat k) : L) = true \/ Bsign (of_int (Z.of_nat k) : L) = false).
    { right. destruct (of_int (Z.of_nat k) : L) as [b|b| |b m ex Bd]; try discriminate; [cbn [B2R] in O1; lra|]. destruct b; [|reflexivity]. exfalso.
      assert (Q : B2R (B754_finite true m ex Bd : L) <= 0) by (apply F2R_le_0; cbn; lia). lra. }
    destruct (fsqrt_ok (of_int (Z.of_nat k)) O2 ltac:(rewrite O1; lra) Os) as [R1 R2]. rewrite O1 in R1. set (r := fsqrt (of_int (Z.of_nat k)) : L) in *.
    assert (Sk : 1 <= sqrt (INR k)) by (rewrite <- sqrt_1; apply sqrt_le_1_alt; lra).
    assert (Rr : 1 <= B2R r) by (rewrite R1; rewrite <- (rnd_1 (prec := lp) (emax := le)); now apply rnd_mono).
    destruct (rnd_inv (prec := lp) (emax := le) (sqrt (INR k))) as (w & W1 & W2).
    { rewrite Rabs_right by lra. apply Rle_trans with 1; [|exact Sk]. change 1 with (bpow radix2 0). apply bpow_le. unfold SpecFloat.emin. lia. }
    rewrite <- R1 in W2.
    assert (Q0 : 0 <= B2R n / B2R r) by (apply Rmult_le_pos; [exact F0|apply Rlt_le, Rinv_0_lt_compat; lra]).
    destruct (fdiv_ok n r F) as [V1 V2]; [lra| |].
    { apply bounded_rnd with (B2R n); [|rewrite rnd_B2R; apply abs_B2R_lt_emax]. rewrite !Rabs_right by lra. unfold Rdiv. rewrite <- (Rmult_1_r (B2R n)) at 2.
      apply Rmult_le_compat_l; [exact F0|]. rewrite <- Rinv_1. apply Rinv_le; lra. }
    split; [exact V2|]. split; [rewrite V1; rewrite <- (rnd_0 (prec := lp) (emax := le)); now apply rnd_mono|]. rewrite V1.
    pose proof (unit_pos lp) as U. pose proof (unit_pos 53) as Vp. pose proof (unit_mono 53 lp P1) as Uv. pose proof (unit_le1 53 ltac:(lia)) as V1'.
    assert (U1 : 1 <= 1 + u) by lra.
    pose proof (near_rnd (prec := lp) (emax := le) _ Q0) as N1.
    assert (Isk : 0 < / sqrt (INR k)) by (apply Rinv_0_lt_compat; lra).
    assert (N2 : near (1 + u) 0 (B2R n / B2R r) (/ sqrt (INR k) * B2R n)).
    { apply (near_factor w); [apply Rmult_le_pos; lra|exact W1|]. rewrite W2. 
      assert (1 + w <> 0) by (intros Q; rewrite Q, Rmult_0_r in W2; lra). field. split; lra. }
    assert (N3 : near ((1 + u) ^ (k + 1)) (core_loss le) (/ sqrt (INR k) * B2R n) (/ sqrt (INR k) * l2 (map B2R (map diff l)))).
    { pose proof (near_scale (/ sqrt (INR k)) _ _ _ _ ltac:(lra) G) as N3. rewrite <- Rmult_assoc, Rinv_l, Rmult_1_l in N3 by lra. exact N3. }
    assert (N4 : near (1 + v) 0 (/ sqrt (INR k) * l2 (map B2R (map diff l))) (/ sqrt (INR k) * l2 (map (fun x => B2R (n_cv t x) - B2R avg) l))).
    { rewrite <- (Rmult_0_r (/ sqrt (INR k))) at 1. apply near_scale; [lra|]. rewrite map_map. apply l2_shift; [lra|]. intros x Hx. destruct (Dx x Hx) as [X1 X2].
      rewrite (proj1 (@convert_widen 53 1024 lp le _ _ _ _ (fsub (n_cv t x) avg) ltac:(lia) ltac:(lia) X2)). rewrite (fsub_fin _ _ X1 Favg X2).
      assert (Fo : generic_format radix2 (SpecFloat.fexp 53 1024) (- B2R avg)) by (apply generic_format_opp, generic_format_B2R).
      destruct (FLT_plus_error_N_ex radix2 (SpecFloat.emin 53 1024) 53 (fun z => negb (Z.even z)) (B2R (n_cv t x)) (- B2R avg) (generic_format_B2R 53 1024 _) Fo) as (ee & E1 & E2).
      apply u_ro_le in E1. change (round radix2 (FLT_exp (SpecFloat.emin 53 1024) 53) (Znearest (fun z : Z => negb (Z.even z))) (B2R (n_cv t x) + - B2R avg)) with (rnd (prec := 53) (emax := 1024) (B2R (n_cv t x) - B2R avg)) in E2.
      rewrite E2. replace ((B2R (n_cv t x) + - B2R avg) * (1 + ee) - (B2R (n_cv t x) - B2R avg)) with (ee * (B2R (n_cv t x) - B2R avg)) by ring. rewrite Rabs_mult. apply Rmult_le_compat_r; [apply Rabs_pos|exact E1]. }
    assert (Sp : / sqrt (INR k) * l2 (map (fun x => B2R (n_cv t x) - B2R avg) l) = spread (B2R avg) xs).
    { unfold spread, l2, xs. rewrite !map_map, map_length, Kl. unfold Rdiv. rewrite sqrt_mult_alt, sqrt_inv; [ring|].
      apply rsum_nonneg; intros y Hy; apply in_map_iff in Hy; destruct Hy as (x & <- & Hx); apply pow2_ge_0. }
    rewrite Sp in N4. pose proof (near_trans _ _ _ _ _ _ _ (pow_ge1 lp (k + 1)) N3 N4) as M1. pose proof (near_trans _ _ _ _ _ _ _ U1 N2 M1) as M2. pose proof (near_trans _ _ _ _ _ _ _ U1 N1 M2) as M3.
    eapply near_weaken; [apply sqrt_pos| | |exact M3].
    - replace (k + 3)%nat with (S (S (k + 1))) by lia. cbn [pow]. lra.
    - rewrite Rmult_0_r, Rplus_0_r, Rplus_0_l. pose proof (half_emin lp le P1 P2) as He. destruct (tiny_small le) as [Cp _].
      assert ((1 + u) * ((1 + u) * core_loss le) <= (1 + v) ^ 2 * core_loss le).
      { rewrite <- Rmult_assoc. apply Rmult_le_compat_r; [lra|]. cbn [pow]. rewrite Rmult_1_r. apply Rmult_le_compat; lra. }
      lra.
  Qed.
End Dev.
