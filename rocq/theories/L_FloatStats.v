(** Sums of rounded additions. *)
From Coq Require Import Reals Lra Psatz.
From Flocq Require Import Core.Core IEEE754.BinarySingleNaN Plus_error Relative.
From Verif Require Import Base M_Estimator M_Stats M_Pipeline M_Impute M_Scale M_FloatStats S_FloatStats S_Scale L_Float L_Scale2.
Open Scope R_scope.

Lemma unit_pos prec : 0 < unit_error prec.
Proof. apply bpow_gt_0. Qed.
Lemma errors_S prec n : errors prec (S n) = (1 + unit_error prec) * errors prec n + unit_error prec.
Proof. unfold errors. cbn [pow]. ring. Qed.
Lemma errors_nonneg prec n : 0 <= errors prec n.
Proof. pose proof (unit_pos prec). induction n as [|n IH]; [unfold errors; cbn; lra|]. rewrite errors_S. nra. Qed.
Lemma u_ro_unit prec : u_ro radix2 prec = unit_error prec.
Proof. unfold u_ro, unit_error. rewrite bpow_plus. change (bpow radix2 1) with 2. lra. Qed.
Lemma u_ro_le prec eps : Rabs eps <= u_ro radix2 prec / (1 + u_ro radix2 prec) -> Rabs eps <= unit_error prec.
Proof.
  rewrite u_ro_unit. intros H. apply Rle_trans with (1 := H). pose proof (unit_pos prec). apply Rle_trans with (unit_error prec / 1); [|lra].
  unfold Rdiv. apply Rmult_le_compat_l; [lra|]. apply Rinv_le; lra.
Qed.

Section Sum.
  Context {prec emax : Z} {Hp : Prec_gt_0 prec} {Hm : Prec_lt_emax prec emax}.
  Notation F := (binary_float prec emax).
  Notation u := (unit_error prec).
  Lemma magnitude_nonneg (l : list F) : 0 <= magnitude l.
  Proof using Type. induction l as [|x l IH]; cbn; [lra|]. fold (magnitude l). pose proof (Rabs_pos (B2R x)). lra. Qed.
  Lemma total_cons (x : F) l : total (x :: l) = B2R x + total l. Proof. reflexivity. Qed.
  Lemma magnitude_cons (x : F) l : magnitude (x :: l) = Rabs (B2R x) + magnitude l. Proof. reflexivity. Qed.
  Lemma total_le (l : list F) : Rabs (total l) <= magnitude l.
  Proof using Type. induction l as [|x l IH]; [cbn; rewrite Rabs_R0; lra|]. rewrite total_cons, magnitude_cons. eapply Rle_trans; [apply Rabs_triang|]. lra. Qed.
  Lemma add_err (x y : F) : is_finite x = true -> is_finite y = true -> is_finite (fadd x y) = true ->
    exists eps, Rabs eps <= u /\ B2R (fadd x y) = (B2R x + B2R y) * (1 + eps).
  Proof using Hp Hm.
    intros Fx Fy Fs. rewrite (fadd_fin x y Fx Fy Fs).
    destruct (FLT_plus_error_N_ex radix2 (SpecFloat.emin prec emax) prec (fun z => negb (Z.even z)) (B2R x) (B2R y) (generic_format_B2R prec emax x) (generic_format_B2R prec emax y)) as (eps & A & B).
    exists eps. split; [now apply u_ro_le|exact B].
  Qed.
  (** Not infinite and from finite numbers: finite. *)
  Lemma fadd_not_inf (x y : F) : is_finite x = true -> is_finite y = true -> is_inf (fadd x y) = false -> is_finite (fadd x y) = true.
  Proof using Hp Hm.
    intros Fx Fy H. pose proof (Bplus_correct prec emax Hp Hm mode_NE x y Fx Fy) as B. unfold fadd in *.
    destruct (Rlt_bool _ _) in B; [exact (proj1 (proj2 B))|]. destruct B as [B _]. destruct (Bplus mode_NE x y) as [| | |]; try reflexivity; try discriminate. 
  Qed.
  Fixpoint all_finite (s : F) (l : list F) : Prop := match l with [] => True | x :: r => is_finite (fadd s x) = true /\ all_finite (fadd s x) r end.
  Lemma sum_err (l : list F) : forall s : F, is_finite s = true -> Forall (fun x => is_finite x = true) l -> all_finite s l ->
    is_finite (fold_left fadd l s) = true /\ Rabs (B2R (fold_left fadd l s) - (B2R s + total l)) <= errors prec (length l) * (Rabs (B2R s) + magnitude l).
  Proof using Hp Hm.
    induction l as [|x l IH]; intros s Fs Fl A.
    - cbn [fold_left length]. split; [exact Fs|]. unfold total, errors. cbn. replace (B2R s - (B2R s + 0)) with 0 by ring. rewrite Rabs_R0. lra.
    - inversion Fl as [|? ? Fx Fl']; subst. destruct A as [A1 A2]. destruct (IH _ A1 Fl' A2) as [B1 B2]. split; [exact B1|].
      cbn [fold_left length]. destruct (add_err s x Fs Fx A1) as (eps & E1 & E2). set (s' := fadd s x) in *. set (r := fold_left fadd l s') in *.
      rewrite total_cons, magnitude_cons, errors_S. pose proof (errors_nonneg prec (length l)) as En. pose proof (unit_pos prec) as Up.
      pose proof (magnitude_nonneg l) as Ml. set (en := errors prec (length l)) in *.
      assert (T : Rabs (B2R s + B2R x) <= Rabs (B2R s) + Rabs (B2R x)) by apply Rabs_triang. set (a := Rabs (B2R s) + Rabs (B2R x)) in *.
      assert (D1 : Rabs (B2R s' - (B2R s + B2R x)) <= u * a).
      { rewrite E2. replace ((B2R s + B2R x) * (1 + eps) - (B2R s + B2R x)) with ((B2R s + B2R x) * eps) by ring. rewrite Rabs_mult, Rmult_comm.
        apply Rmult_le_compat; auto using Rabs_pos. }
      assert (D2 : Rabs (B2R s') <= (1 + u) * a).
      { replace (B2R s') with ((B2R s' - (B2R s + B2R x)) + (B2R s + B2R x)) by ring. eapply Rle_trans; [apply Rabs_triang|]. lra. }
      replace (B2R r - (B2R s + (B2R x + total l))) with ((B2R r - (B2R s' + total l)) + (B2R s' - (B2R s + B2R x))) by ring.
      eapply Rle_trans; [apply Rabs_triang|]. assert (A0 : 0 <= a) by (unfold a; pose proof (Rabs_pos (B2R s)); pose proof (Rabs_pos (B2R x)); lra).
      assert (D3 : en * (Rabs (B2R s') + magnitude l) <= en * ((1 + u) * a + magnitude l)) by (apply Rmult_le_compat_l; lra).
      assert (D4 : 0 <= u * en * magnitude l) by (apply Rmult_le_pos; [apply Rmult_le_pos; lra|lra]).
      assert (D5 : 0 <= u * magnitude l) by (apply Rmult_le_pos; lra).
      replace (Rabs (B2R s) + (Rabs (B2R x) + magnitude l)) with (a + magnitude l) by (unfold a; ring). nra.
  Qed.
  (** From zero, the first addition is exact. *)
  Lemma fadd_zero (x : F) : is_finite x = true -> B2R (fadd fzero x) = B2R x /\ is_finite (fadd fzero x) = true.
  Proof using Hp Hm.
    intros Fx. destruct (fadd_ok fzero x eq_refl Fx) as [A B].
    - cbn [B2R fzero]. rewrite Rplus_0_l, rnd_B2R. apply abs_B2R_lt_emax.
    - cbn [B2R fzero] in A. rewrite Rplus_0_l, rnd_B2R in A. auto.
  Qed.
  Lemma sum_err0 (l : list F) : Forall (fun x => is_finite x = true) l -> all_finite fzero l ->
    is_finite (fold_left fadd l fzero) = true /\ Rabs (B2R (fold_left fadd l fzero) - total l) <= errors prec (length l - 1) * magnitude l.
  Proof using Hp Hm.
    destruct l as [|x l]; intros Fl A.
    - cbn. split; [reflexivity|]. rewrite Rminus_0_r, Rabs_R0. unfold errors. cbn. lra.
    - inversion Fl as [|? ? Fx Fl']; subst. destruct A as [A1 A2]. destruct (sum_err l _ A1 Fl' A2) as [B1 B2]. cbn [fold_left length]. split; [exact B1|].
      destruct (fadd_zero x Fx) as [E _]. rewrite E in B2. rewrite total_cons, magnitude_cons. replace (S (length l) - 1)%nat with (length l) by lia. exact B2.
  Qed.
  (** One rounding. *)
  Lemma rnd_err (x : R) : Rabs (rnd (prec := prec) (emax := emax) x - x) <= u * Rabs x + / 2 * bpow radix2 (SpecFloat.emin prec emax).
  Proof using Hp Hm.
    destruct (relative_error_N_FLT'_ex radix2 (SpecFloat.emin prec emax) prec Hp (fun z => negb (Z.even z)) x) as (eps & eta & A & B & _ & C).
    apply u_ro_le in A. assert (E : rnd (prec := prec) (emax := emax) x = x * (1 + eps) + eta) by exact C. rewrite E.
    replace (x * (1 + eps) + eta - x) with (x * eps + eta) by ring. eapply Rle_trans; [apply Rabs_triang|]. rewrite Rabs_mult, (Rmult_comm (Rabs x)).
    apply Rplus_le_compat; [|exact B]. apply Rmult_le_compat_r; [apply Rabs_pos|exact A].
  Qed.
End Sum.
