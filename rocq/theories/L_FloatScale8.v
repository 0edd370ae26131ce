(** C77 in the words of the specification. *)
From Coq Require Import Reals Lra.
From Flocq Require Import Core.Core IEEE754.BinarySingleNaN.
From Verif Require Import Base M_Estimator M_Stats M_Pipeline M_Impute M_Scale M_FloatStats M_FloatScale S_Stats S_FloatStats S_Scale S_FloatScale L_Float L_Scale2 L_FloatStats L_FloatStats2 L_FloatStats3 L_FloatScale L_FloatScale2 L_FloatScale3 L_FloatScale4 L_FloatScale7.
Open Scope R_scope.
Section Words.
  Context {p e : Z} {Hp : Prec_gt_0 p} {Hm : Prec_lt_emax p e} {lp le : Z} {HLp : Prec_gt_0 lp} {HLm : Prec_lt_emax lp le}.
  Theorem l1_row (row : list (binary_float p e)) (n : binary_float lp le) :
    (p <= 53)%Z -> (e <= 1024)%Z -> (53 <= lp)%Z -> (1024 <= le)%Z -> l1_norm (float_cells row) = Ok n ->
    let l := real_values row in
    l <> [] /\ (forall x, In x row -> is_nan x = false -> is_finite x = true) /\ is_finite n = true /\ 0 <= B2R n /\ near ((1 + unit_error lp) ^ (length l - 1)) 0 (B2R n) (l1 l).
  Proof using Hp Hm HLp HLm.
    intros H1 H2 H3 H4 H l. destruct (l1_near row n H1 H2 H3 H4 H) as (A & B & C). split; [exact A|]. split; [|exact C].
    intros x Hx Nx. rewrite Forall_forall in B. apply B. apply filter_In. split; [exact Hx|now rewrite Nx].
  Qed.
  Theorem l2_row (row : list (binary_float p e)) (n : binary_float lp le) :
    (p <= 53)%Z -> (e <= 1024)%Z -> (53 <= lp)%Z -> (1024 <= le)%Z -> (Z.of_nat (length row) <= 2 ^ 53)%Z -> l2_norm (float_cells row) = Ok n ->
    let l := real_values row in
    l <> [] /\ (forall x, In x row -> is_nan x = false -> is_finite x = true) /\ is_finite n = true /\ 0 <= B2R n /\
    near ((1 + unit_error lp) ^ (length l + 1)) (sqrt (INR (length l)) * tiny le) (B2R n) (l2 l).
  Proof using Hp Hm HLp HLm.
    intros H1 H2 H3 H4 K H l. destruct (l2_near row n H1 H2 H3 H4 K H) as (A & B & C & D & E). split; [exact A|]. split.
    { intros x Hx Nx. rewrite Forall_forall in B. apply B. apply filter_In. split; [exact Hx|now rewrite Nx]. }
    split; [exact C|]. split; [exact D|]. destruct (tiny_small le) as [T1 T2]. pose proof (bpow_gt_0 radix2 (-1075)).
    eapply near_weaken; [apply sqrt_pos|apply Rle_refl| |exact E]. apply Rmult_le_compat_l; [apply sqrt_pos|]. lra.
  Qed.
End Words.
Section Dev.
  Context {lp le : Z} {HLp : Prec_gt_0 lp} {HLm : Prec_lt_emax lp le}.
  Theorem deviation_row {I} (t : numty 53 1024 I) (avg : double) mx (bs : list (list I)) (d : binary_float lp le) : (53 <= lp)%Z -> (1024 <= le)%Z -> proper_training mx bs ->
    is_finite avg = true -> (forall x, n_null t x = false -> is_nan (n_cv t x) = false) -> trained (dev_policy t avg) mx bs = Ok (Some d) ->
    let xs := map (fun x => B2R (n_cv t x)) (filter (fun x => negb (n_null t x)) (items mx bs)) in let k := length xs in (Z.of_nat k <= 2 ^ 53)%Z ->
    xs <> [] /\ is_finite d = true /\ 0 <= B2R d /\
    near ((1 + unit_error lp) ^ (k + 3) * (1 + unit_error 53)) (tiny le) (B2R d) (spread (B2R avg) xs).
  Proof using HLp HLm.
    intros P1 P2 PT Fa NN T xs k K. destruct (dev_near t avg Fa mx bs d P1 P2 PT NN T K) as (A & _ & B & C & D).
    split; [intros Q; apply map_eq_nil in Q; contradiction|]. split; [exact B|]. split; [exact C|].
    eapply near_weaken; [apply sqrt_pos|apply Rle_refl| |exact D]. destruct (tiny_small le) as [C1 C2]. pose proof pow_v_small as P3. pose proof (bpow_gt_0 radix2 (-1075)). pose proof (unit_pos 53) as Vp.
    set (c := core_loss le) in *. set (v := unit_error 53) in *. assert (V2 : (1 + v) ^ 2 <= (1 + v) ^ 3) by (cbn [pow]; pose proof (pow2_ge_0 v); nra).
    assert ((1 + v) ^ 2 * c <= 8 / 7 * c) by (apply Rmult_le_compat_r; lra). lra.
  Qed.
  Theorem standard_defined_float {p e : Z} {Hp : Prec_gt_0 p} {Hm : Prec_lt_emax p e} (t : numty 53 1024 (binary_float p e)) wm ws mx (bs : list (list (binary_float p e))) :
    (p <= lp)%Z -> (e <= le)%Z -> proper_training mx bs ->
    let r := standard_trained (lp := lp) (le := le) t (float_average (lp := lp) (le := le)) wm ws mx bs in
    (exists s, r = Ok (Some s)) \/ r = Throw RuntimeError \/ r = Throw InvalidArgument.
  Proof using Type. intros H1 H2 PT. apply standard_defined; [exact PT|]. now apply float_average_defined. Qed.
End Dev.
