(** C83: trained scalers and normalizers. *)
From Coq Require Import Reals Lra Psatz.
From Flocq Require Import Core.Core IEEE754.BinarySingleNaN.
From Verif Require Import Base M_Estimator M_Stats M_Scale S_Stats S_Window S_Scale S_FloatStats S_Keeps L_Estimator L_Stats L_Stats3 L_Float L_Scale L_Scale2 L_Scale3 L_Scale4 L_Scale5 L_FloatStats6 L_Keeps L_Keeps2.
Open Scope R_scope.

Section Trained.
  Context {p e : Z} {Hp : Prec_gt_0 p} {Hm : Prec_lt_emax p e}.
  Notation F := (binary_float p e).
  Lemma scale_pos (m : F) : is_nan m = false -> Bltb m fzero = false -> Bltb Bmax_float m = false -> is_finite m = true /\ 0 <= B2R m.
  Proof using Hp Hm.
    intros N L1 L2. assert (Fm : is_finite m = true).
    { destruct m as [|[]| |]; try reflexivity; try discriminate; cbn in L1, L2; discriminate. }
    split; [exact Fm|]. rewrite Bltb_correct in L1 by (assumption || reflexivity). cbn [fzero B2R] in L1. destruct (Rlt_bool_spec (B2R m) 0); [discriminate L1|lra].
  Qed.
  Lemma ma_trained_keeps mx bs (scale : F) : proper_training mx bs -> trained ma_policy mx bs = Ok (Some scale) -> keeps_order not_above (ma_exec same_ty scale).
  Proof using Hp Hm.
    intros Hb E. unfold ma_policy in E. rewrite trained_simple in E by exact Hb. destruct (foldM ma_fit fzero (items mx bs)) as [m|x|] eqn:Ef; cbn [bind] in E; [|discriminate E|discriminate E].
    pose proof (ma_fold_nan (items mx bs) fzero m eq_refl Ef) as N. destruct (Bltb m fzero) eqn:L1; [discriminate E|]. destruct (Bltb Bmax_float m) eqn:L2; [discriminate E|]. injection E as <-.
    destruct (scale_pos m N L1 L2) as [A B]. apply ma_keeps; [exact columns_same|exact A|exact B].
  Qed.
  Lemma mai_trained_keeps signed w' w mx bs (scale : F) : (64 < e)%Z -> (w <= 8)%nat -> proper_training mx bs -> Forall (fun x => fits_s w (Z.abs x) = true) (items mx bs) ->
    trained (maxabs_policy w (of_int (prec := p) (emax := e)) Bltb fzero) mx bs = Ok (Some scale) -> keeps_order Z.le (ma_exec (int_ty signed w' : numty p e Z) scale).
  Proof using Hp Hm.
    intros He Hw Hb Hf E. unfold maxabs_policy in E. rewrite trained_simple in E by exact Hb.
    destruct (mai_fold w (items mx bs) (fzero : F) [] He Hw) as (m & Ef & D); [|exact Hf|].
    { split; [reflexivity|]. cbn [B2R fzero]. split; [lra|]. split; [intros r []|now left]. }
    rewrite Ef in E. cbn [bind] in E. destruct (Bltb m fzero); [discriminate E|]. injection E as <-. destruct D as [D1 [D2 _]].
    apply ma_keeps; [apply columns_int|exact D1|exact D2].
  Qed.
  Lemma robust_trained_keeps signed (w : nat) wc (qmin qmax : float32) q (median : F) (mn mx : Z) s : (24 <= p)%Z -> (128 <= e)%Z -> (1 <= w <= 8)%nat ->
    robust_params qmin qmax = Ok q -> (mn <= mx)%Z -> fits signed w mn = true -> fits signed w mx = true -> (w < 4)%nat \/ fits signed w (mx - mn) = true ->
    is_finite median = true -> robust_create signed w wc q median mn mx = Ok s -> keeps_order Z.le (robust_exec (int_ty signed w : numty p e Z) s).
  Proof using Hp Hm.
    intros H1 H2 H3 H4 H5 H6 H7 H8 Fm E. destruct (robust_create_ok signed w wc qmin qmax q median mn mx H1 H2 H3 H4 H5 H6 H7 H8) as (s' & E' & A & B & C & D).
    rewrite E in E'. injection E' as <-. destruct s as [c d]. cbn [fst snd] in *. apply robust_keeps; [apply columns_int| |exact B|].
    - rewrite A. destruct wc; [exact Fm|reflexivity].
    - destruct (is_nan qmin) eqn:Nq; [rewrite (C eq_refl); lra|apply (D eq_refl)].
  Qed.
End Trained.
Section Rows.
  Context {lp le : Z} {HLp : Prec_gt_0 lp} {HLm : Prec_lt_emax lp le}.
  Notation L := (binary_float lp le).
  Lemma normalize_keeps {I} (cv : I -> L) (n : double) (row : list (option I)) j k x y : (53 <= lp)%Z -> (1024 <= le)%Z -> is_finite n = true -> 0 < B2R n ->
    nth_error row j = Some (Some x) -> nth_error row k = Some (Some y) -> not_above (cv x) (cv y) ->
    exists a b, nth_error (normalize_row cv n row) j = Some a /\ nth_error (normalize_row cv n row) k = Some b /\ not_above a b.
  Proof using.
    intros H1 H2 Fn Pn Hj Hk H. unfold normalize_row. rewrite (map_nth_error _ _ _ Hj), (map_nth_error _ _ _ Hk). eexists. eexists. split; [reflexivity|]. split; [reflexivity|].
    destruct (@convert_widen 53 1024 lp le _ _ _ _ n H1 H2 Fn) as [A B].
    apply convert_keeps, fdiv_keeps; [exact B|rewrite A; exact Pn|exact H].
  Qed.
End Rows.
