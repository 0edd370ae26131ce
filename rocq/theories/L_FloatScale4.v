(** The trained standard scaler. *)
From Coq Require Import Reals Lra Psatz.
From Flocq Require Import Core.Core IEEE754.BinarySingleNaN Plus_error.
From Verif Require Import Base L_List M_Estimator M_Stats M_Pipeline M_Impute M_Scale M_FloatStats M_FloatScale S_Stats S_FloatStats S_Scale S_FloatScale L_Stats L_Float L_Scale2 L_Scale4 L_FloatStats L_FloatStats2 L_FloatStats3 L_FloatScale L_FloatScale2 L_FloatScale3.
Open Scope R_scope.

Lemma rsum_const {A} (c : R) (l : list A) : rsum (map (fun _ => c) l) = INR (length l) * c.
Proof. induction l as [|x l IH]; [cbn; ring|]. cbn [map length]. rewrite S_INR. cbn [rsum fold_right]. fold (rsum (map (fun _ => c) l)). rewrite IH. ring. Qed.
(** Around another centre. *)
Lemma spread_split m l : l <> [] -> spread m l = sqrt (std_dev l ^ 2 + (m - mean l) ^ 2).
Proof.
  intros NE. assert (K : 0 < INR (length l)) by (apply lt_0_INR; destruct l; [congruence|cbn; lia]).
  assert (P : 0 <= rsum (map (fun x => (x - mean l) ^ 2) l) / INR (length l)).
  { apply Rmult_le_pos; [|apply Rlt_le, Rinv_0_lt_compat; exact K]. apply rsum_nonneg. intros y Hy. apply in_map_iff in Hy. destruct Hy as (x & <- & _). apply pow2_ge_0. }
  unfold spread, std_dev, spread. f_equal. rewrite pow2_sqrt by exact P. set (mu := mean l) in *.
  assert (E : rsum (map (fun x => (x - m) ^ 2) l) = rsum (map (fun x => (x - mu) ^ 2) l) + (2 * (mu - m) * rsum l + INR (length l) * (m ^ 2 - mu ^ 2))).
  { rewrite <- rsum_const. replace (rsum l) with (rsum (map (fun x : R => x) l)) by (now rewrite map_id). rewrite <- rsum_scale, <- !rsum_plus. apply rsum_map_ext. intros x _. ring. }
  rewrite E. assert (M : rsum l = INR (length l) * mu) by (unfold mu, mean; field; lra). rewrite M. field. lra.
Qed.
Lemma spread_bounds m l : l <> [] -> std_dev l <= spread m l <= std_dev l + Rabs (m - mean l).
Proof.
  intros NE. rewrite (spread_split m l NE). assert (P : 0 <= std_dev l) by apply sqrt_pos. pose proof (pow2_ge_0 (std_dev l)) as P2. pose proof (pow2_ge_0 (m - mean l)) as P3. split.
  - rewrite <- (sqrt_pow2 (std_dev l) P) at 1. apply sqrt_le_1_alt. lra.
  - eapply Rle_trans; [apply sqrt_add; assumption|]. rewrite (sqrt_pow2 _ P). rewrite <- (pow2_abs (m - mean l)). rewrite sqrt_pow2 by apply Rabs_pos. lra.
Qed.
Lemma pow_v_small : (1 + unit_error 53) ^ 3 <= 8 / 7.
Proof. rewrite unit_53. cbn [pow]. lra. Qed.
Lemma fdiv_fin {p e : Z} {Hp : Prec_gt_0 p} {Hm : Prec_lt_emax p e} (x y : binary_float p e) : B2R y <> 0 -> is_finite (fdiv x y) = true -> is_finite x = true -> B2R (fdiv x y) = rnd (prec := p) (emax := e) (B2R x / B2R y).
Proof.
  intros Hy F Fx. pose proof (Bdiv_correct p e Hp Hm mode_NE x y Hy) as C. unfold fdiv in *. destruct (Rlt_bool _ _) in C; [exact (proj1 C)|]. apply overflow_inf in C. rewrite F in C. discriminate.
Qed.

(** A score, from the numbers it is computed with. *)
Lemma score_near {I} (t : numty 53 1024 I) (s : double * double) (x : I) : n_null t x = false -> is_finite (n_cv t x) = true -> is_finite (fst s) = true -> is_finite (snd s) = true -> B2R (snd s) <> 0 ->
  is_finite (standard_exec t s x) = true ->
  let z := (B2R (n_cv t x) - B2R (fst s)) / B2R (snd s) in
  Rabs (B2R (standard_exec t s x) - z) <= ((1 + unit_error 53) ^ 2 - 1) * Rabs z + bpow radix2 (-1075).
Proof.
  intros Nx Fx Fc Fs Ns Fy z. unfold standard_exec in *. rewrite Nx in *.
  assert (Fd : is_finite (fsub (n_cv t x) (fst s)) = true).
  { destruct (is_finite (fsub (n_cv t x) (fst s))) eqn:Fd; [reflexivity|exfalso]. pose proof (sub_not_nan (fst s) Fc (n_cv t x) (is_finite_nan _ Fx)) as Nd.
    destruct (fsub (n_cv t x) (fst s)) as [b|b| |b m ex B]; try discriminate. destruct (snd s); try discriminate. }
  rewrite (fdiv_fin _ _ Ns Fy Fd), (fsub_fin _ _ Fx Fc Fd).
  assert (Fo : generic_format radix2 (SpecFloat.fexp 53 1024) (- B2R (fst s))) by (apply generic_format_opp, generic_format_B2R).
  destruct (FLT_plus_error_N_ex radix2 (SpecFloat.emin 53 1024) 53 (fun z => negb (Z.even z)) (B2R (n_cv t x)) (- B2R (fst s)) (generic_format_B2R 53 1024 _) Fo) as (ee & E1 & E2).
  apply u_ro_le in E1. change (round radix2 (FLT_exp (SpecFloat.emin 53 1024) 53) (Znearest (fun z : Z => negb (Z.even z))) (B2R (n_cv t x) + - B2R (fst s))) with (rnd (prec := 53) (emax := 1024) (B2R (n_cv t x) - B2R (fst s))) in E2.
  rewrite E2. replace ((B2R (n_cv t x) + - B2R (fst s)) * (1 + ee) / B2R (snd s)) with (z * (1 + ee)) by (unfold z; field; exact Ns).
  pose proof (rnd_err (prec := 53) (emax := 1024) (z * (1 + ee))) as R. pose proof (half_emin 53 1024 ltac:(lia) ltac:(lia)) as He. rewrite Rabs_mult in R. set (v := unit_error 53) in *.
  assert (Vp : 0 < v) by apply unit_pos. assert (E3 : Rabs (1 + ee) <= 1 + v) by (eapply Rle_trans; [apply Rabs_triang|]; rewrite Rabs_R1; lra).
  pose proof (Rabs_pos z) as Zp. assert (R2 : v * (Rabs z * Rabs (1 + ee)) <= v * (Rabs z * (1 + v))) by (apply Rmult_le_compat_l; [lra|]; apply Rmult_le_compat_l; lra).
  assert (R3 : Rabs (z * (1 + ee) - z) <= Rabs z * v) by (replace (z * (1 + ee) - z) with (z * ee) by ring; rewrite Rabs_mult; apply Rmult_le_compat_l; lra).
  set (q := rnd (prec := 53) (emax := 1024) (z * (1 + ee))) in *. replace (q - z) with ((q - z * (1 + ee)) + (z * (1 + ee) - z)) by ring. eapply Rle_trans; [apply Rabs_triang|].
  replace (((1 + v) ^ 2 - 1) * Rabs z) with (v * (Rabs z * (1 + v)) + Rabs z * v) by ring. lra.
Qed.

Section Standard.
  Context {lp le : Z} {HLp : Prec_gt_0 lp} {HLm : Prec_lt_emax lp le}.
  Notation L := (binary_float lp le).
  Notation u := (unit_error lp).
  Notation v := (unit_error 53).
  (** The deviation as double. *)
  Lemma dev_double (d : L) k a l : (53 <= lp)%Z -> (1024 <= le)%Z -> l <> [] -> is_finite d = true -> 0 <= B2R d -> is_finite (convert d : double) = true ->
    near ((1 + u) ^ k * (1 + v)) ((1 + v) ^ 2 * core_loss le + bpow radix2 (-1075)) (B2R d) (spread a l) ->
    near ((1 + u) ^ k * (1 + v) ^ 2) (tiny le) (B2R (convert d : double)) (spread a l).
  Proof using HLp HLm.
    intros P1 P2 NE Fd D0 Fc H. rewrite (convert_fin d Fd Fc). pose proof (near_rnd (prec := 53) (emax := 1024) _ D0) as N. pose proof (unit_pos 53) as Vp. assert (V1 : 1 <= 1 + v) by lra.
    pose proof (near_trans _ _ _ _ _ _ _ V1 N H) as T. eapply near_weaken; [apply sqrt_pos| | |exact T]; [cbn [pow]; lra|].
    pose proof (half_emin 53 1024 ltac:(lia) ltac:(lia)) as He. destruct (tiny_small le) as [C1 C2]. pose proof pow_v_small as P3. set (c := core_loss le) in *. set (h := bpow radix2 (-1075)) in *. assert (H0 : 0 < h) by apply bpow_gt_0.
    assert (Vc : 1 + v <= (1 + v) ^ 3) by (cbn [pow]; pose proof (pow2_ge_0 v); nra).
    assert (V3 : 1 <= (1 + v) ^ 3) by lra.
    assert (Q : h + (1 + v) * ((1 + v) ^ 2 * c + h) <= (1 + v) ^ 3 * (c + 2 * h)).
    { replace ((1 + v) * ((1 + v) ^ 2 * c + h)) with ((1 + v) ^ 3 * c + (1 + v) * h) by ring. assert ((1 + v) * h <= (1 + v) ^ 3 * h) by (apply Rmult_le_compat_r; lra). assert (1 * h <= (1 + v) ^ 3 * h) by (apply Rmult_le_compat_r; lra). lra. }
    assert ((1 + v) ^ 3 * (c + 2 * h) <= 8 / 7 * (7 / 8 * tiny le)) by (apply Rmult_le_compat; lra). lra.
  Qed.
  Lemma std_near g b ea x a l : l <> [] -> 1 <= g -> Rabs (a - mean l) <= ea -> near g b x (spread a l) -> near g (g * ea + b) x (std_dev l).
  Proof using Type.
    intros NE G E H. destruct (spread_bounds a l NE) as [B1 B2]. unfold near in *. replace (x - std_dev l) with ((x - spread a l) + (spread a l - std_dev l)) by ring.
    eapply Rle_trans; [apply Rabs_triang|]. rewrite (Rabs_right (spread a l - std_dev l)) by lra. assert ((g - 1) * spread a l <= (g - 1) * (std_dev l + ea)) by (apply Rmult_le_compat_l; lra). lra.
  Qed.

  (** What the scaler holds, for any first stage whose average is within [ea]. *)
  Lemma scaler_holds {I} (t : numty 53 1024 I) (stats : nat -> list (list I) -> res (option double)) wm ws mx (bs : list (list I)) (s : double * double) (ea : R) :
    (53 <= lp)%Z -> (1024 <= le)%Z -> proper_training mx bs -> (forall x, n_null t x = false -> is_nan (n_cv t x) = false) ->
    standard_trained (lp := lp) (le := le) t stats wm ws mx bs = Ok (Some s) ->
    let xs := map (fun x => B2R (n_cv t x)) (filter (fun x => negb (n_null t x)) (items mx bs)) in let n := length xs in (Z.of_nat n <= 2 ^ 53)%Z ->
    (forall a, stats mx bs = Ok (Some a) -> is_finite a = true /\ Rabs (B2R a - mean xs) <= ea) ->
    let g := (1 + u) ^ (n + 3) * (1 + v) ^ 2 in
    xs <> [] /\ Forall (fun x => n_null t x = false -> is_finite (n_cv t x) = true) (items mx bs) /\
    is_finite (fst s) = true /\ (wm = true -> Rabs (B2R (fst s) - mean xs) <= ea) /\ (wm = false -> B2R (fst s) = 0) /\
    (ws = false -> equals (snd s) 1) /\
    (ws = true -> exists d : double, (is_finite d = true -> near g (g * ea + tiny le) (B2R d) (std_dev xs)) /\ (is_zero d = true -> equals (snd s) 1) /\ (is_zero d = false -> snd s = d)) /\
    (is_finite (snd s) = true -> B2R (snd s) <> 0).
  Proof using HLp HLm.
    intros P1 P2 PT NN T xs n K St g. unfold standard_trained in T. destruct (stats mx bs) as [[avg|]|ex|]; cbn [bind] in T; try discriminate.
    destruct (trained (dev_policy t avg) mx bs) as [[dev|]|ex|] eqn:Td; cbn [bind] in T; try discriminate. destruct (St avg eq_refl) as [Fa Ea].
    destruct (dev_near t avg Fa mx bs dev P1 P2 PT NN Td K) as (NE & Fl & Fd & D0 & Dn). fold xs n in Dn.
    assert (NEx : xs <> []) by (intros Q; apply map_eq_nil in Q; contradiction).
    unfold standard_create, standard_new in T. cbn [fst snd] in T. set (dd := if ws then (convert dev : double) else of_int 1) in *. destruct (Bltb _ fzero); [discriminate|]. cbn [bind] in T. injection T as <-. cbn [fst snd].
    destruct (of_int_exact (prec := 53) (emax := 1024) 1) as [O1 O2]; [lia|].
    split; [exact NEx|]. split.
    { rewrite Forall_forall in Fl. apply Forall_forall. intros x Hx Nx. apply Fl. apply filter_In. split; [exact Hx|now rewrite Nx]. }
    split; [destruct wm; [exact Fa|reflexivity]|]. split; [intros ->; exact Ea|]. split; [intros ->; reflexivity|]. split.
    { intros ->. unfold dd. destruct (is_zero (of_int 1 : double)); split; assumption. }
    split.
    - intros Ew. exists dd. split; [|split; [intros ->; split; assumption|intros ->; reflexivity]].
      unfold dd. rewrite Ew. intros Fc. apply std_near with (B2R avg); [exact NEx| |exact Ea|].
      + unfold g. pose proof (pow_ge1 lp (n + 3)). pose proof (pow_ge1 53 2). apply Rle_trans with (1 * 1); [lra|]. apply Rmult_le_compat; lra.
      + apply dev_double; assumption.
    - intros Fs. destruct (is_zero dd) eqn:Ez; [|rewrite (is_zero_B2R dd Fs) in Ez; intros Q; rewrite Q, Req_bool_true in Ez by reflexivity; discriminate]. intros Q. pose proof (eq_trans (eq_sym Q) O1). lra.
  Qed.
End Standard.

Section Float.
  Context {p e : Z} {Hp : Prec_gt_0 p} {Hm : Prec_lt_emax p e}.
  Context {lp le : Z} {HLp : Prec_gt_0 lp} {HLm : Prec_lt_emax lp le}.
  Notation F := (binary_float p e).
  Notation u := (unit_error lp).
  Notation v := (unit_error 53).
  (** A column type that converts float or double to double. *)
  Definition float_like (t : numty 53 1024 F) : Prop := (forall x, n_null t x = is_nan x) /\ (forall x, is_nan (n_cv t x) = is_nan x) /\
    (forall x, is_finite x = true -> B2R (n_cv t x) = B2R x /\ is_finite (n_cv t x) = true).
  Lemma live_values t (l : list F) : float_like t -> Forall (fun x => is_finite x = true) (numbers l) ->
    map (fun x => B2R (n_cv t x)) (filter (fun x => negb (n_null t x)) l) = real_values l.
  Proof using Type.
    intros (A & B & C) H. unfold real_values. rewrite (filter_ext _ (fun x => negb (is_nan x))) by (intros x; now rewrite A). apply map_ext_in. intros x Hx. apply C. rewrite Forall_forall in H. now apply H.
  Qed.
  Theorem standard_near t wm ws mx (bs : list (list F)) (s : double * double) : float_like t ->
    (p <= 53)%Z -> (e <= 1024)%Z -> (53 <= lp)%Z -> (1024 <= le)%Z -> proper_training mx bs ->
    standard_trained (lp := lp) (le := le) t (float_average (lp := lp) (le := le)) wm ws mx bs = Ok (Some s) ->
    let xs := real_values (items mx bs) in let n := length xs in (Z.of_nat n <= 2 ^ 53)%Z ->
    let ea := ((1 + u) ^ n * (1 + v) - 1) * mean_magnitude xs + bpow radix2 (-1073) in
    let g := (1 + u) ^ (n + 3) * (1 + v) ^ 2 in
    xs <> [] /\ Forall (fun x => is_finite x = true) (numbers (items mx bs)) /\
    is_finite (fst s) = true /\ (wm = true -> Rabs (B2R (fst s) - mean xs) <= ea) /\ (wm = false -> B2R (fst s) = 0) /\
    (ws = false -> equals (snd s) 1) /\
    (ws = true -> exists d : double, (is_finite d = true -> near g (g * ea + tiny le) (B2R d) (std_dev xs)) /\ (is_zero d = true -> equals (snd s) 1) /\ (is_zero d = false -> snd s = d)) /\
    (forall x, is_nan x = true -> standard_exec t s x = B754_nan) /\
    (is_finite (snd s) = true -> B2R (snd s) <> 0 /\ forall x, is_finite x = true -> let y := standard_exec t s x in is_finite y = true ->
       let z := (B2R x - B2R (fst s)) / B2R (snd s) in Rabs (B2R y - z) <= ((1 + v) ^ 2 - 1) * Rabs z + bpow radix2 (-1075)).
  Proof using Hp Hm HLp HLm.
    intros FL H1 H2 H3 H4 PT T xs n K ea g.
    assert (Ex : exists r, trained (fstats_policy (p := p) (e := e) (lp := lp) (le := le)) mx bs = Ok (Some r) /\ float_average (lp := lp) (le := le) mx bs = Ok (Some (fr_average r))).
    { unfold standard_trained in T. destruct (float_average mx bs) as [[avg|]|ex|] eqn:E; cbn [bind] in T; try discriminate. unfold float_average in E. destruct (trained fstats_policy mx bs) as [[r|]|ex|]; cbn in E; try discriminate. injection E as <-. eauto. }
    destruct Ex as (r & Er & Ea). assert (Kn : length (numbers (items mx bs)) = n) by (unfold n, xs, real_values; now rewrite map_length).
    pose proof (fstats_spec mx bs r H1 H2 H3 H4 PT Er) as Sp. cbv zeta in Sp. rewrite Kn in Sp. destruct (Sp K) as (NE & Fl & _ & _ & _ & Fa & _ & _ & Bd). clear Sp.
    pose proof (live_values t (items mx bs) FL Fl) as Lv. fold xs in Lv.
    assert (Mg : magnitude (numbers (items mx bs)) / INR n = mean_magnitude xs) by (unfold mean_magnitude, l1, magnitude, rsum, xs, real_values; rewrite map_map; reflexivity).
    assert (Tt : total (numbers (items mx bs)) / INR n = mean xs) by reflexivity. rewrite Mg, Tt in Bd. fold ea in Bd.
    pose proof (scaler_holds (lp := lp) (le := le) t (float_average (lp := lp) (le := le)) wm ws mx bs s ea H3 H4 PT) as Sc. cbv zeta in Sc. rewrite Lv in Sc. fold n in Sc. destruct FL as (A & B & C).
    destruct Sc as (S1 & S2 & S3 & S4 & S5 & S6 & S7 & S8); [intros x Nx; rewrite A in Nx; now rewrite B|exact T|exact K|intros a Hav; rewrite Ea in Hav; injection Hav as <-; split; [exact Fa|exact Bd]|].
    split; [exact S1|]. split; [exact Fl|]. split; [exact S3|]. split; [exact S4|]. split; [exact S5|]. split; [exact S6|]. split; [exact S7|]. split.
    - intros x Nx. unfold standard_exec. now rewrite A, Nx.
    - intros Fs. split; [now apply S8|]. intros x Fx y Fy. rewrite <- (proj1 (C x Fx)). apply score_near; auto; [rewrite A; now apply is_finite_nan|now apply C].
  Qed.
End Float.
Lemma double_like : float_like double_column.
Proof. split; [reflexivity|]. split; [reflexivity|]. intros x Fx. split; [reflexivity|exact Fx]. Qed.
Lemma single_like : float_like float_column.
Proof. split; [reflexivity|]. split; [intros x; exact (convert_not_nan x)|]. intros x Fx. apply convert_widen; [lia|lia|exact Fx]. Qed.
