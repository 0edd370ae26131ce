(** Columns whose sums need no rounding; means of windows. *)
From Coq Require Import Reals Lra Psatz.
From Coq.Floats Require Import SpecFloat.
From Flocq Require Import Core.Core IEEE754.BinarySingleNaN.
From Verif Require Import Base L_List M_Estimator M_Stats M_Pipeline M_Impute M_Scale M_FloatStats S_Stats S_FloatStats S_Scale L_Estimator L_Stats L_Impute L_Float L_Scale2 L_FloatStats L_FloatStats2 L_FloatStats3.
Open Scope R_scope.

Lemma fmt_fixed (lp le : Z) {H : Prec_gt_0 lp} z k : (53 <= lp)%Z -> (1024 <= le)%Z -> (-1074 <= k)%Z -> Rabs (IZR z * bpow radix2 k) < bpow radix2 (53 + k) ->
  generic_format radix2 (SpecFloat.fexp lp le) (IZR z * bpow radix2 k).
Proof.
  intros H1 H2 H3 H4. apply (generic_format_FLT radix2 (SpecFloat.emin lp le) lp). exists (Float radix2 z k); [reflexivity| |].
  - cbn [Fnum]. rewrite bpow_plus, Rabs_mult, (Rabs_right (bpow radix2 k)) in H4 by (apply Rle_ge, bpow_ge_0).
    apply Rmult_lt_reg_r in H4; [|apply bpow_gt_0]. apply lt_IZR. rewrite abs_IZR. eapply Rlt_le_trans; [exact H4|].
    rewrite IZR_Zpower by lia. apply bpow_le. lia.
  - cbn [Fexp]. unfold SpecFloat.emin. lia.
Qed.

Section Exact.
  Context {p e : Z} {Hp : Prec_gt_0 p} {Hm : Prec_lt_emax p e} {lp le : Z} {HLp : Prec_gt_0 lp} {HLm : Prec_lt_emax lp le}.
  Notation F := (binary_float p e).
  Notation L := (binary_float lp le).
  Lemma total_app (a b : list F) : total (a ++ b) = total a + total b.
  Proof using Type. induction a as [|x a IH]; [unfold total; cbn; ring|]. cbn [app]. rewrite !total_cons, IH. ring. Qed.
  Lemma magnitude_app (a b : list F) : magnitude (a ++ b) = magnitude a + magnitude b.
  Proof using Type. induction a as [|x a IH]; [unfold magnitude; cbn; ring|]. cbn [app]. rewrite !magnitude_cons, IH. ring. Qed.
  Lemma fixed_total k (l : list F) : (forall x, In x l -> exists z, B2R x = IZR z * bpow radix2 k) -> exists z, total l = IZR z * bpow radix2 k.
  Proof using Type.
    induction l as [|x l IH]; intros H; [exists 0%Z; unfold total; cbn; ring|]. destruct IH as [z Ez]; [intros y Hy; apply H; now right|].
    destruct (H x (or_introl eq_refl)) as [w Ew]. exists (w + z)%Z. rewrite total_cons, Ez, Ew, plus_IZR. ring.
  Qed.
  Lemma run_exact k (l : list F) : (p <= lp)%Z -> (e <= le)%Z -> (53 <= lp)%Z -> (1024 <= le)%Z -> (-1074 <= k <= 971)%Z ->
    (forall x, In x (numbers l) -> is_finite x = true /\ exists z, B2R x = IZR z * bpow radix2 k) ->
    magnitude (numbers l) < bpow radix2 (53 + k) -> (Z.of_nat (length (numbers l)) <= 2 ^ 53)%Z ->
    exists st, foldM step ((None, 0%Z), fzero : L) l = Ok st /\ B2R (snd st) = total (numbers l).
  Proof using Hp Hm HLp HLm.
    intros H1 H2 H3 H4 Hk. induction l as [|x l IH] using rev_ind; intros Hx HM Hlen; [eexists; split; [reflexivity|reflexivity]|].
    rewrite numbers_app in *. destruct IH as (st & E & S).
    { intros y Hy. apply Hx. apply in_or_app. now left. }
    { rewrite magnitude_app in HM. pose proof (magnitude_nonneg (numbers [x])). lra. }
    { rewrite app_length in Hlen. lia. }
    rewrite foldM_app, E. cbn [bind foldM]. pose proof (run_inv l st H1 H2 E) as (I1 & I2 & I3 & I4 & I5).
    cbn [numbers filter] in *. unfold step at 1. destruct (is_nan x) eqn:N; cbn [negb] in *.
    - cbn [bind]. eexists. split; [reflexivity|]. rewrite app_nil_r. exact S.
    - destruct (Hx x) as [Fx [z Ez]]; [apply in_or_app; right; now left|]. destruct st as [[mm count] sum]. cbn [fst snd] in *.
      assert (Fs : is_finite sum = true) by (rewrite I4; apply fold_fin; [reflexivity|exact I5]).
      destruct (fin_conv (lp := lp) (le := le) x H1 H2 Fx) as [C1 C2].
      assert (T : total (numbers l ++ [x]) = B2R sum + B2R x) by (rewrite total_app, S; unfold total at 2; cbn; ring).
      assert (Fm : generic_format radix2 (SpecFloat.fexp lp le) (B2R sum + B2R x)).
      { rewrite <- T. destruct (fixed_total k (numbers l ++ [x])) as [w Ew]; [intros y Hy; apply (Hx y Hy)|]. rewrite Ew. apply fmt_fixed; try assumption; [lia|]. rewrite <- Ew.
        eapply Rle_lt_trans; [apply total_le|exact HM]. }
      destruct (fadd_ok sum (convert x) Fs C2) as [A1 A2].
      { rewrite C1, rnd_fmt by exact Fm. rewrite <- T. eapply Rle_lt_trans; [apply total_le|]. eapply Rlt_le_trans; [exact HM|]. apply bpow_le. lia. }
      rewrite C1, rnd_fmt in A1 by exact Fm.
      unfold fstats_update. cbn [fst snd]. unfold basic_update. cbn [fst snd]. rewrite app_length in Hlen. cbn [length] in Hlen.
      assert (Cc : (count =? 18446744073709551615)%Z = false) by (rewrite I3; apply Z.eqb_neq; lia). rewrite Cc. cbn [bind fst snd].
      assert (Q : Beqb (fadd sum (convert x)) sum && negb (Beqb x fzero) = false).
      { rewrite !Beqb_correct by auto. rewrite A1. cbn [B2R fzero]. case Req_bool_spec; intros Q1; [|reflexivity]. rewrite Req_bool_true by lra. reflexivity. }
      rewrite Q. assert (Ni : is_inf (fadd sum (convert x)) = false) by (destruct (fadd sum (convert x)); try reflexivity; discriminate A2). rewrite Ni. cbn [bind].
      eexists. split; [reflexivity|]. cbn [snd]. rewrite A1, T. reflexivity.
  Qed.
  Lemma run_defined (l : list F) : forall s : fstats_state (p := p) (e := e) (lp := lp) (le := le), (exists st, foldM step s l = Ok st) \/ foldM step s l = Throw RuntimeError.
  Proof using Type.
    induction l as [|x l IH]; intros s; [left; eexists; reflexivity|]. cbn [foldM]. unfold step at 1 3. destruct (is_nan x); [apply IH|].
    unfold fstats_update, basic_update. destruct (snd (fst s) =? 18446744073709551615)%Z; [right; reflexivity|]. cbn [bind]. cbv zeta.
    destruct (Beqb _ _ && _); [right; reflexivity|]. destruct (is_inf _); [right; reflexivity|]. apply IH.
  Qed.
  Theorem fstats_defined mx (bs : list (list F)) : (p <= lp)%Z -> (e <= le)%Z -> proper_training mx bs ->
    let t := trained (fstats_policy (p := p) (e := e) (lp := lp) (le := le)) mx bs in
    ((exists r, t = Ok (Some r)) \/ t = Throw RuntimeError \/ t = Throw InvalidArgument) /\
    (numbers (items mx bs) = [] -> t = Throw RuntimeError).
  Proof using Hp Hm HLp HLm.
    intros H1 H2 Ht. cbv zeta. unfold fstats_policy. rewrite trained_simple by exact Ht.
    change (foldM _ _ (items mx bs)) with (foldM step (None, 0%Z, fzero : L) (items mx bs)).
    destruct (run_defined (items mx bs) (None, 0%Z, fzero)) as [[st E]|E]; rewrite E; cbn [bind]; [|split; [auto|reflexivity]].
    pose proof (run_inv (items mx bs) st H1 H2 E) as (_ & I2 & I3 & _). destruct st as [[mm count] sum]. cbn [fst snd] in *.
    unfold fstats_commit, basic_commit. cbn [fst snd]. destruct (Z.eqb_spec count 0) as [C|C]; cbn [bind]; [split; [auto|reflexivity]|].
    split; [|intros N; rewrite N in I3; cbn in I3; congruence].
    destruct mm as [[mn mxv]|]; [|cbn [mm_inv] in I2; rewrite I2 in I3; cbn in I3; congruence].
    destruct (Bltb mxv mn); cbn [bind]; [auto|]. destruct (Bltb _ _); cbn [bind]; [auto|]. destruct (_ || _); cbn [bind]; [auto|]. left. eexists. reflexivity.
  Qed.
  Lemma mean_between (l : list F) a b : l <> [] -> (forall x, In x l -> a <= B2R x <= b) -> a <= total l / INR (length l) <= b.
  Proof using Type.
    intros Hne H. assert (G : a * INR (length l) <= total l <= b * INR (length l)).
    { clear Hne. induction l as [|x l IH]; [unfold total; cbn; lra|]. rewrite total_cons. cbn [length]. rewrite S_INR.
      pose proof (H x (or_introl eq_refl)). specialize (IH (fun y Hy => H y (or_intror Hy))). lra. }
    assert (N : 0 < INR (length l)) by (apply lt_0_INR; destruct l; [contradiction|cbn; lia]).
    split; apply Rmult_le_reg_r with (INR (length l)); try exact N; unfold Rdiv; rewrite Rmult_assoc, Rinv_l, Rmult_1_r by lra; lra.
  Qed.
  Theorem fstats_exact k mx (bs : list (list F)) : (p <= 53)%Z -> (e <= 1024)%Z -> (53 <= lp)%Z -> (1024 <= le)%Z -> proper_training mx bs ->
    let l := numbers (items mx bs) in l <> [] -> (Z.of_nat (length l) <= 2 ^ 53)%Z -> (-1074 <= k <= 971)%Z ->
    (forall x, In x l -> is_finite x = true /\ exists z, B2R x = IZR z * bpow radix2 k) -> magnitude l < bpow radix2 (53 + k) ->
    exists r : fresult (p := p) (e := e) (lp := lp) (le := le), trained fstats_policy mx bs = Ok (Some r) /\
      B2R (fr_sum r) = total l /\ B2R (fr_average r) = r64 (rounded lp le (total l / INR (length l))).
  Proof using Hp Hm HLp HLm.
    intros P1 P2 P3 P4 Ht. cbv zeta. intros Hne Hlen Hk Hx HM.
    destruct (run_exact k (items mx bs) ltac:(lia) ltac:(lia) P3 P4 Hk Hx HM Hlen) as (st & E & S).
    pose proof (run_inv (items mx bs) st ltac:(lia) ltac:(lia) E) as (I1 & I2 & I3 & I4 & I5). destruct st as [[mm count] sum]. cbn [fst snd] in *.
    assert (D : exists r : fresult (p := p) (e := e) (lp := lp) (le := le), trained fstats_policy mx bs = Ok (Some r) /\ fr_sum r = sum).
    { unfold fstats_policy. rewrite trained_simple by exact Ht.
      change (foldM _ _ (items mx bs)) with (foldM step (None, 0%Z, fzero : L) (items mx bs)).
      rewrite E. cbn [bind]. unfold fstats_commit. cbn [fst snd]. unfold basic_commit. cbn [fst snd]. set (l := numbers (items mx bs)) in *.
      assert (Hn1 : (1 <= length l)%nat) by (destruct l; [contradiction|cbn; lia]).
      assert (C0 : (count =? 0)%Z = false) by (apply Z.eqb_neq; lia). rewrite C0. destruct mm as [[mn mxv]|]; cbn [mm_inv] in I2; [|contradiction]. destruct I2 as (M1 & M2 & M3).
      rewrite Forall_forall in I1. pose proof (I1 mn M1) as Fmn. pose proof (I1 mxv M2) as Fmx.
      rewrite (Bltb_correct p e mxv mn) by assumption. rewrite Rlt_bool_false by (apply (M3 mn M1)). cbn [bind].
      assert (Fs : is_finite sum = true) by (rewrite I4; apply fold_fin; [reflexivity|exact I5]).
      assert (Hl : (2 ^ 53 <= 2 ^ lp)%Z) by (apply Z.pow_le_mono_r; lia).
      rewrite I3. destruct (div_count sum (length l) Fs Hn1 ltac:(lia)) as [Q1 Q2]. set (q := fdiv sum (of_int (Z.of_nat (length l)))) in *. rewrite S in Q2.
      destruct (mean_between l (B2R mn) (B2R mxv) Hne M3) as [B1 B2].
      destruct (@convert_widen p e 53 1024 _ _ _ _ mn ltac:(lia) ltac:(lia) Fmn) as [A1 A2]. destruct (@convert_widen p e 53 1024 _ _ _ _ mxv ltac:(lia) ltac:(lia) Fmx) as [D1 D2].
      destruct (fin_conv (lp := lp) (le := le) mn ltac:(lia) ltac:(lia) Fmn) as [X1 _]. destruct (fin_conv (lp := lp) (le := le) mxv ltac:(lia) ltac:(lia) Fmx) as [X2 _].
      assert (Qb : B2R mn <= B2R q <= B2R mxv).
      { rewrite Q2, <- X1, <- X2. rewrite <- (rnd_B2R (convert mn : L)), <- (rnd_B2R (convert mxv : L)), X1, X2. split; apply rnd_mono; lra. }
      destruct (@convert_widen 53 1024 lp le _ _ _ _ double_max ltac:(lia) ltac:(lia) double_max_fin) as [Y1 Y2].
      assert (Hmx : B2R mxv <= B2R double_max).
      { rewrite double_max_R, <- D1. change 971%Z with (1024 - 53)%Z. eapply Rle_trans; [apply Rle_abs|]. apply abs_B2R_le_emax_minus_prec. exact _. }
      rewrite (Bltb_correct lp le (convert double_max) q) by assumption. rewrite Rlt_bool_false by (rewrite Y1; lra).
      assert (Rb : B2R mn <= rnd (prec := 53) (emax := 1024) (B2R q) <= B2R mxv).
      { rewrite <- A1, <- D1. rewrite <- (rnd_B2R (convert mn : double)), <- (rnd_B2R (convert mxv : double)), A1, D1. split; apply rnd_mono; lra. }
      destruct (@convert_round lp le 53 1024 _ _ q Q1) as [Z1 Z2].
      { pose proof (abs_B2R_lt_emax 53 1024 (convert mn)) as G1. pose proof (abs_B2R_lt_emax 53 1024 (convert mxv)) as G2. rewrite A1 in G1. rewrite D1 in G2.
        apply Rabs_def2 in G1. apply Rabs_def2 in G2. apply Rabs_def1; lra. }
      rewrite !Bltb_correct by assumption. rewrite Z1, A1, D1. rewrite !Rlt_bool_false by lra. cbn [orb bind]. eexists. split; [reflexivity|]. reflexivity. }
    destruct D as (r & D1 & D2). exists r. split; [exact D1|]. rewrite D2. split; [exact S|].
    destruct (fstats_spec mx bs r P1 P2 P3 P4 Ht D1 Hlen) as (_ & _ & _ & _ & _ & _ & _ & G & _). rewrite D2, S in G. exact G.
  Qed.
End Exact.

Section Mean.
  Context {p e : Z} {Hp : Prec_gt_0 p} {Hm : Prec_lt_emax p e}.
  Notation F := (binary_float p e).
  (** Once infinite or NaN, never finite again. *)
  Lemma fold_finite_back : forall (l : list F) s, is_finite (fold_left fadd l s) = true -> is_finite s = true /\ Forall (fun x => is_finite x = true) l /\ all_finite s l.
  Proof using Type.
    induction l as [|x l IH]; intros s H; [split; [exact H|split; [constructor|exact I]]|]. cbn [fold_left] in H. destruct (IH _ H) as (A & B & C).
    assert (D : is_finite s = true /\ is_finite x = true).
    { unfold fadd in A. destruct s as [s1|s1| |s1 m1 e1 B1], x as [s2|s2| |s2 m2 e2 B2]; try (split; reflexivity); try discriminate A; cbn in A; destruct s1, s2; discriminate. }
    destruct D as [D1 D2]. split; [exact D1|]. split; [constructor; assumption|]. split; assumption.
  Qed.
  Theorem fmean_spec (l : list F) : (p <= 53)%Z -> (e <= 1024)%Z -> l <> [] -> (Z.of_nat (length l) <= 2 ^ 53)%Z -> is_finite (fsum_calc l) = true ->
    let m := fmean_calc l in
    Forall (fun x => is_finite x = true) l /\ is_finite m = true /\
    Rabs (B2R m - total l / INR (length l)) <= ((1 + unit_error p) ^ (length l - 1) * (1 + unit_error 53) - 1) * (magnitude l / INR (length l)) + bpow radix2 (-1075).
  Proof using Hp Hm.
    intros P1 P2 Hne Hlen Fs. cbv zeta. unfold fsum_calc in Fs.
    assert (Ff : is_finite (fold_left fadd l fzero) = true).
    { destruct (fold_left fadd l fzero) as [s|s| |s m ex B]; try reflexivity; cbn in Fs; discriminate. }
    destruct (fold_finite_back l fzero Ff) as (_ & Fl & A). split; [exact Fl|]. destruct (sum_err0 l Fl A) as [_ Es].
    destruct (fadd_zero _ Ff) as [Z1 Z2]. fold (fsum_calc l) in Z1, Z2. rewrite <- Z1 in Es.
    destruct (@convert_widen p e 53 1024 _ _ _ _ (fsum_calc l) P1 P2 Z2) as [C1 C2].
    assert (Hn1 : (1 <= length l)%nat) by (destruct l; [contradiction|cbn; lia]).
    destruct (div_count (lp := 53) (le := 1024) (convert (fsum_calc l)) (length l) C2 Hn1 Hlen) as [Q1 Q2].
    assert (E : fmean_calc l = fdiv (convert (fsum_calc l) : double) (of_int (Z.of_nat (length l)))) by (destruct l; [contradiction|reflexivity]).
    rewrite E. split; [exact Q1|]. rewrite Q2, C1. clear E Q1 Q2 C1 C2 Z1 Z2 Ff Fs A.
    set (s := B2R (fsum_calc l)) in *. set (k := (length l - 1)%nat) in *.
    assert (N1 : 1 <= INR (length l)) by (change 1 with (INR 1); apply le_INR; lia). set (N := INR (length l)) in *. assert (IN : 0 < / N) by (apply Rinv_0_lt_compat; lra).
    pose proof (total_le l) as Tl. pose proof (magnitude_nonneg l) as Ml. set (t := total l) in *. set (m := magnitude l) in *.
    assert (Da : Rabs (s / N - t / N) <= errors p k * (m / N)).
    { replace (s / N - t / N) with ((s - t) * / N) by (unfold Rdiv; ring). rewrite Rabs_mult, (Rabs_right (/ N)) by lra. unfold Rdiv. rewrite <- Rmult_assoc. apply Rmult_le_compat_r; lra. }
    assert (Mt : Rabs (t / N) <= m / N) by (unfold Rdiv; rewrite Rabs_mult, (Rabs_right (/ N)) by lra; apply Rmult_le_compat_r; lra).
    pose proof (rnd_err (prec := 53) (emax := 1024) (s / N)) as Db. pose proof (half_emin 53 1024 ltac:(lia) ltac:(lia)) as Hb.
    set (c := rnd (s / N)) in *. set (a := s / N) in *. set (b := t / N) in *. set (M := m / N) in *. set (v := unit_error 53) in *. pose proof (unit_pos 53 : 0 < v) as V.
    assert (Aa : Rabs a <= (1 + errors p k) * M). { replace a with ((a - b) + b) by ring. eapply Rle_trans; [apply Rabs_triang|]. lra. }
    assert (W : v * Rabs a <= v * ((1 + errors p k) * M)) by (apply Rmult_le_compat_l; lra).
    replace (c - b) with ((c - a) + (a - b)) by ring. eapply Rle_trans; [apply Rabs_triang|].
    replace ((1 + unit_error p) ^ k) with (1 + errors p k) by (unfold errors; ring). 
    assert (((1 + errors p k) * (1 + v) - 1) * M = errors p k * M + v * ((1 + errors p k) * M)) by ring. lra.
  Qed.
End Mean.

Lemma fmean_imputer_spec : forall {p e : Z} {Hp : Prec_gt_0 p} {Hm : Prec_lt_emax p e} {lp le : Z}
  (r : fresult (p := p) (e := e) (lp := lp) (le := le)) (l : list (binary_float p e)), (p <= 53)%Z -> (e <= 1024)%Z ->
  exists out, delivered (fmean_imputer r) l = (out, Ok tt) /\ length out = length l /\
    forall i x, nth_error l i = Some x ->
      exists y, nth_error out i = Some y /\ (is_nan x = true -> y = fr_average r) /\ (is_finite x = true -> equals y (B2R x)).
Proof.
  intros p e Hp Hm lp le r l H1 H2. unfold fmean_imputer. eexists. split; [apply per_value_spec|]. split; [apply map_length|].
  intros i x Hx. rewrite nth_error_map, Hx. cbn [option_map]. eexists. split; [reflexivity|]. split; [intros ->; reflexivity|].
  intros Fx. rewrite (is_finite_nan x Fx). destruct (@convert_widen p e 53 1024 _ _ _ _ x H1 H2 Fx). split; assumption.
Qed.

Lemma order_refused : exists x y : double, B2R x = bpow radix2 64 /\ B2R y = 1 /\
  trained (fstats_policy (p := 53) (e := 1024) (lp := 64) (le := 16384)) 9 [[x; y]] = Throw RuntimeError /\
  exists r, trained (fstats_policy (p := 53) (e := 1024) (lp := 64) (le := 16384)) 9 [[y; x]] = Ok (Some r).
Proof.
  exists (@SF2B 53 1024 (S754_finite false 4503599627370496 12) eq_refl), (@SF2B 53 1024 (S754_finite false 4503599627370496 (-52)) eq_refl).
  split. { rewrite B2R_SF2B. cbn [SF2R cond_Zopp]. unfold F2R. cbn [Fnum Fexp]. change (bpow radix2 12) with 4096. change (bpow radix2 64) with 18446744073709551616. lra. }
  split. { rewrite B2R_SF2B. cbn [SF2R cond_Zopp]. unfold F2R. cbn [Fnum Fexp]. change (bpow radix2 (-52)) with (/ 4503599627370496). lra. }
  split; [vm_compute; reflexivity|].
  destruct (trained _ 9 _) as [[r|]|ex|] eqn:E; [eexists; reflexivity|exfalso..].
  - assert (G : match trained (fstats_policy (p := 53) (e := 1024) (lp := 64) (le := 16384)) 9 [[@SF2B 53 1024 (S754_finite false 4503599627370496 (-52)) eq_refl; @SF2B 53 1024 (S754_finite false 4503599627370496 12) eq_refl]] with Ok (Some _) => true | _ => false end = true) by (vm_compute; reflexivity). rewrite E in G. discriminate.
  - assert (G : match trained (fstats_policy (p := 53) (e := 1024) (lp := 64) (le := 16384)) 9 [[@SF2B 53 1024 (S754_finite false 4503599627370496 (-52)) eq_refl; @SF2B 53 1024 (S754_finite false 4503599627370496 12) eq_refl]] with Ok (Some _) => true | _ => false end = true) by (vm_compute; reflexivity). rewrite E in G. discriminate.
  - assert (G : match trained (fstats_policy (p := 53) (e := 1024) (lp := 64) (le := 16384)) 9 [[@SF2B 53 1024 (S754_finite false 4503599627370496 (-52)) eq_refl; @SF2B 53 1024 (S754_finite false 4503599627370496 12) eq_refl]] with Ok (Some _) => true | _ => false end = true) by (vm_compute; reflexivity). rewrite E in G. discriminate.
Qed.
Lemma mean_infinite : exists x : float32, is_finite x = true /\ fmean_calc [x; x] = B754_infinity false.
Proof. exists (@SF2B 24 128 (S754_finite false 8388608 104) eq_refl). split; [reflexivity|]. apply B2SF_inj. vm_compute. reflexivity. Qed.
