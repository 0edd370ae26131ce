(** Floating point statistics, norms and deviations, value by value. *)
From Coq Require Import ZArith Lia Reals Lra.
From Flocq Require Import Core.Core IEEE754.BinarySingleNaN.
From Verif Require Import Base M_Estimator M_Stats M_Pipeline M_Keyed M_Scale M_FloatStats M_FloatScale M_Docs M_Errors M_Refused S_Stats S_Refused.
From Verif Require Import L_Estimator L_Scale L_FloatStats2 L_FloatScale2 L_Refused L_Refused2.
Open Scope Z_scope.

Section Nonneg.
  Context {lp le : Z} {HLp : Prec_gt_0 lp} {HLm : Prec_lt_emax lp le}.
  Notation L := (binary_float lp le).
  Definition nonneg (x : L) : Prop := is_nan x = false /\ Bsign x = false.
  Lemma nonneg_B2R x : nonneg x -> (0 <= B2R x)%R.
  Proof using. intros [_ H]. destruct x as [b|b| |b m ex B]; cbn in *; try lra; subst; apply F2R_ge_0; cbn; lia. Qed.
  Lemma overflow_shape (z : L) s : B2SF z = SpecFloat.S754_infinity s -> z = B754_infinity s.
  Proof using. destruct z; cbn; try discriminate. intros H. injection H as ->. reflexivity. Qed.
  Lemma fadd_nonneg x y : nonneg x -> nonneg y -> nonneg (fadd x y).
  Proof using.
    intros Hx Hy. destruct (is_finite x) eqn:Fx; destruct (is_finite y) eqn:Fy.
    - pose proof (nonneg_B2R x Hx) as Qx. pose proof (nonneg_B2R y Hy) as Qy. destruct Hx as [Nx Sx]. destruct Hy as [Ny Sy].
      pose proof (Bplus_correct lp le HLp HLm mode_NE x y Fx Fy) as C. unfold fadd.
      destruct (Rlt_bool _ _) in C.
      + destruct C as (_ & C1 & C2). split; [destruct (Bplus mode_NE x y); try discriminate; reflexivity|]. rewrite C2.
        destruct (Rcompare_spec (B2R x + B2R y) 0) as [|_|_]; [lra| |reflexivity]. rewrite Sx, Sy. reflexivity.
      + destruct C as [C1 C2]. rewrite Sx in C1. apply overflow_shape in C1. rewrite C1. split; reflexivity.
    - destruct y as [b|b| |b m ex B]; try discriminate; [|destruct Hy; discriminate]. destruct Hy as [_ Sb]. cbn in Sb. subst b.
      destruct x as [b|b| |b m ex B]; try discriminate; split; reflexivity.
    - destruct x as [b|b| |b m ex B]; try discriminate; [|destruct Hx; discriminate]. destruct Hx as [_ Sb]. cbn in Sb. subst b.
      destruct y as [b|b| |b m ex B]; try discriminate; split; reflexivity.
    - destruct y as [b|b| |b m ex B]; try discriminate; [|destruct Hy; discriminate]. destruct Hy as [_ Sb]. cbn in Sb. subst b.
      destruct x as [b|b| |b m ex B]; try discriminate; [|destruct Hx; discriminate]. destruct Hx as [_ Sb]. cbn in Sb. subst b. split; reflexivity.
  Qed.
  Lemma abs_nonneg (x : L) : is_nan x = false -> nonneg (Babs x).
  Proof using. destruct x; cbn; try discriminate; intros _; split; reflexivity. Qed.
  Lemma square_nonneg (x : L) : is_nan x = false -> nonneg (fmul (Babs x) (Babs x)).
  Proof using.
    intros N. split; [now apply fmul_not_nan|]. destruct x as [s|s| |s m ex B]; try discriminate; try reflexivity.
    pose (y := Babs (B754_finite s m ex B) : L). change (Bsign (fmul y y) = false).
    pose proof (Bmult_correct lp le HLp HLm mode_NE y y) as C. unfold fmul. destruct (Rlt_bool _ _) in C.
    - destruct C as (_ & Cf & Cs). rewrite Cs; [reflexivity|]. destruct (Bmult mode_NE y y); try reflexivity. discriminate Cf.
    - apply overflow_shape in C. rewrite C. reflexivity.
  Qed.
  Lemma square_inf (x : L) : is_inf x = true -> fmul (Babs x) (Babs x) = B754_infinity false.
  Proof using. destruct x as [s|s| |s m ex B]; try discriminate. reflexivity. Qed.
  Lemma abs_inf (x : L) : is_inf x = true -> Babs x = B754_infinity false.
  Proof using. destruct x as [s|s| |s m ex B]; try discriminate. reflexivity. Qed.
  Lemma inf_plus (d : L) : nonneg d -> fadd (B754_infinity false) d = B754_infinity false.
  Proof using. intros [N S]. destruct d as [b|b| |b m ex B]; try discriminate; try reflexivity. cbn in S. subst b. reflexivity. Qed.
  Lemma plus_inf (x : L) : nonneg x -> fadd x (B754_infinity false) = B754_infinity false.
  Proof using. intros [N S]. destruct x as [b|b| |b m ex B]; try discriminate; try reflexivity. cbn in S. subst b. reflexivity. Qed.
  Lemma zero_plus_same (d : L) : nonneg d -> Beqb (fadd fzero d) fzero = true -> is_zero d = true.
  Proof using.
    intros [N S] H. destruct d as [b|b| |b m ex B]; try discriminate; try reflexivity; cbn in S; subst; exact H.
  Qed.
  Lemma nonneg_inf (x : L) : nonneg x -> is_inf x = true -> x = B754_infinity false.
  Proof using. intros [_ S] H. destruct x as [b|b| |b m ex B]; try discriminate. cbn in S. subst. reflexivity. Qed.
  Lemma zero_nonneg : nonneg fzero. Proof using. split; reflexivity. Qed.
End Nonneg.

Lemma accepted_one {U A} (u : U) (us : list U) (r : res A) rs : accepted (u :: us) (r :: rs) = if accepts r then u :: accepted us rs else accepted us rs.
Proof. reflexivity. Qed.

(** ** Statistics of float and double columns. *)
Section FloatStats.
  Context {p e : Z} {Hp : Prec_gt_0 p} {Hm : Prec_lt_emax p e} {lp le : Z} {HLp : Prec_gt_0 lp} {HLm : Prec_lt_emax lp le}.
  Notation F := (binary_float p e).
  Notation L := (binary_float lp le).
  Notation t := (float_stats_t (p := p) (e := e) (lp := lp) (le := le)).
  Lemma float_stats_like : learns_like t fstats_policy.
  Proof using.
    split; [reflexivity|]. split; [reflexivity|]. split; [reflexivity|].
    intros s x. cbn [float_stats_t f_fit fstats_policy simple_policy p_fit]. unfold fstats_state in *.
    destruct (is_nan x); [split; [reflexivity|intros p' E; injection E as <-; reflexivity]|].
    unfold fstats_update. match goal with |- context [basic_call Bltb s x ?k] => pose proof (basic_after Bltb s x k) as H end.
    destruct (basic_update Bltb (fst s) x) as [b|y|]; [|destruct H as [s' H]; rewrite H; split; [reflexivity|discriminate]|contradiction].
    rewrite H. cbn [bind snd fst]. cbv zeta.
    destruct (Beqb (fadd (snd s) (convert x)) (snd s) && negb (Beqb x fzero)); [split; [reflexivity|discriminate]|].
    cbn [after]. destruct (is_inf (fadd (snd s) (convert x))); cbn [after ending fst snd]; (split; [reflexivity|]); [discriminate|].
    intros p' E. injection E as <-. reflexivity.
  Qed.
  Lemma float_stats_step (s : fstats_state) (x : F) : is_nan x = false -> snd (fst s) < 18446744073709551615 ->
    let (s', r) := after s (f_fit t s x) in
    snd (fst s') = snd (fst s) + 1 /\
    let sum := fadd (snd s) (convert x : L) in
    (Beqb sum (snd s) && negb (Beqb x fzero) = true /\ snd s' = snd s /\ r = Throw RuntimeError \/
     Beqb sum (snd s) && negb (Beqb x fzero) = false /\ snd s' = sum /\ r = if is_inf sum then Throw RuntimeError else Ok tt).
  Proof using.
    intros Nx Hc. cbn [float_stats_t f_fit]. rewrite Nx. destruct s as [[mm c] sum]. cbn [fst snd] in *.
    unfold basic_call. cbn [fst snd after]. destruct (Z.eqb_spec c 18446744073709551615) as [X|_]; [lia|]. cbv zeta. cbn [after fst snd].
    destruct (Beqb (fadd sum (convert x)) sum && negb (Beqb x fzero)); cbn [after fst snd].
    - split; [reflexivity|]. left. repeat split.
    - destruct (is_inf (fadd sum (convert x))) eqn:Ei; cbn [after fst snd]; (split; [reflexivity|]; right; repeat split).
  Qed.
  (** Every value that is not NaN is counted. *)
  Lemma float_stats_count : forall (xs : list F) (s : fstats_state (lp := lp) (le := le)), 0 <= snd (fst s) -> snd (fst s) + Z.of_nat (length xs) < 2 ^ 64 ->
    snd (fst (fst (tries t s xs))) = snd (fst s) + Z.of_nat (length (filter (fun x => negb (is_nan x)) xs)).
  Proof using.
    induction xs as [|x r IH]; intros s H0 HL; cbn [tries filter length fst]; [lia|]. cbn [length] in HL. destruct (is_nan x) eqn:Nx.
    - assert (Ea : after s (f_fit t s x) = (s, Ok tt)) by (cbn [float_stats_t f_fit]; rewrite Nx; reflexivity).
      rewrite Ea. specialize (IH s H0 ltac:(lia)). destruct (tries t s r) as [s' rs]. cbn [fst negb] in *. exact IH.
    - pose proof (float_stats_step s x Nx ltac:(lia)) as Hs. destruct (after s (f_fit t s x)) as [s1 q]. destruct Hs as [Hc _].
      specialize (IH s1 ltac:(lia) ltac:(lia)). destruct (tries t s1 r) as [s' rs]. cbn [fst negb length] in *. lia.
  Qed.
  (** A sum that has become infinite stays so; every finite value is refused. *)
  Lemma float_stats_stuck (s : fstats_state (lp := lp) (le := le)) : is_inf (snd s) = true ->
    stuck t s (fun x : F => is_finite x = true /\ is_finite (convert x : L) = true).
  Proof using.
    intros Hi ys. revert s Hi. induction ys as [|x r IH]; intros s Hi HF; cbn [tries map snd]; [reflexivity|].
    inversion HF as [|? ? [Fx Fc] Hr]; subst.
    assert (Nx : is_nan x = false) by (destruct x; try discriminate; reflexivity).
    assert (Ea : exists s', after s (f_fit t s x) = (s', Throw RuntimeError) /\ is_inf (snd s') = true).
    { cbn [float_stats_t f_fit]. rewrite Nx. destruct s as [[mm c] sum]. cbn [fst snd] in *. unfold basic_call. cbn [fst snd after].
      destruct (c =? 18446744073709551615); [eexists; split; [reflexivity|exact Hi]|]. cbv zeta. cbn [after fst snd].
      assert (Es : fadd sum (convert x : L) = sum).
      { destruct sum as [b|b| |b m ex B]; try discriminate. destruct (convert x : L) as [b'|b'| |b' m' ex' B']; try discriminate; reflexivity. }
      rewrite Es. assert (Eb : Beqb sum sum = true) by (destruct sum as [[]|[]| |b m ex B]; try discriminate; reflexivity). rewrite Eb.
      destruct (negb (Beqb x fzero)); cbn [andb after].
      - eexists; split; [reflexivity|exact Hi].
      - rewrite Hi. cbn [after]. eexists; split; [reflexivity|exact Hi]. }
    destruct Ea as (s' & Ea & Hi'). rewrite Ea. specialize (IH s' Hi' Hr). destruct (tries t s' r) as [s2 qs]. cbn [snd] in *. rewrite IH. reflexivity.
  Qed.
  Lemma float_stats_infinite (s : fstats_state (lp := lp) (le := le)) (x : F) : is_inf x = true -> snd (fst s) < 18446744073709551615 ->
    snd (after s (f_fit t s x)) <> Ok tt -> is_inf (snd (fst (after s (f_fit t s x)))) = true.
  Proof using.
    intros Hx Hc Hr. assert (Nx : is_nan x = false) by (destruct x; try discriminate; reflexivity).
    pose proof (float_stats_step s x Nx Hc) as Hs. destruct (after s (f_fit t s x)) as [s' r]. cbn [fst snd] in *. destruct Hs as [_ Hs].
    assert (Ec : exists b, (convert x : L) = B754_infinity b) by (destruct x as [b|b| |b m ex B]; try discriminate; exists b; reflexivity).
    destruct Ec as [b Ec]. cbv zeta in Hs. rewrite Ec in Hs. destruct Hs as [(H1 & H2 & H3)|(H1 & H2 & H3)].
    - rewrite H2. apply andb_true_iff in H1. destruct H1 as [H1 _]. destruct (snd s) as [b'|b'| |b' m ex B]; destruct b; cbn in H1; try discriminate; reflexivity.
    - rewrite H2. subst r. destruct (is_inf (fadd (snd s) (B754_infinity b))); [reflexivity|]. exfalso. apply Hr. reflexivity.
  Qed.
End FloatStats.

(** ** Norms. *)
Section NormRows.
  Context {lp le : Z} {HLp : Prec_gt_0 lp} {HLm : Prec_lt_emax lp le}.
  Notation L := (binary_float lp le).
  Notation norms_state := ((L * bool) * list double)%type.
  Variables size finish : L -> L.
  Notation t := (norms_t size finish).
  Notation step := (fun s x => add_checked s (size x)).
  Lemma row_after : forall row (u : L * bool) norms (s : norms_state), s = (u, norms) ->
    match foldM step (fst u) (cells row) with
    | Ok a => after s (row_call size finish u norms row) =
        (if snd u || negb (Nat.eqb (length (cells row)) 0) then (((fzero, false), norms ++ [convert (finish a)]), Ok tt) else ((u, norms), Throw RuntimeError))
    | Throw y => exists a, after s (row_call size finish u norms row) = (((a, true), norms), Throw y)
    | UB => False
    end.
  Proof using.
    induction row as [|[x|] r IH]; intros u norms s ->.
    - cbn [cells flat_map foldM row_call]. destruct (snd u); reflexivity.
    - cbn [cells flat_map app]. fold (cells r). cbn [foldM row_call]. unfold norm_call. cbn [after]. unfold add_checked at 1. cbv zeta.
      destruct (Beqb (fadd (fst u) (size x)) (fst u) && negb (is_zero (size x))) eqn:E1; cbn [bind after].
      + exists (fst u). reflexivity.
      + destruct (is_inf (fadd (fst u) (size x))) eqn:E2; cbn [bind after].
        * exists (fadd (fst u) (size x)). reflexivity.
        * specialize (IH (fadd (fst u) (size x), true) norms (fadd (fst u) (size x), true, norms) eq_refl). cbn [fst snd] in IH.
          destruct (foldM step (fadd (fst u) (size x)) (cells r)) as [a|y|]; [|exact IH|exact IH].
          rewrite IH. cbn [orb length]. destruct (snd u); reflexivity.
    - cbn [cells flat_map app]. fold (cells r). cbn [row_call]. apply IH. reflexivity.
  Qed.
  Lemma row_ok_fresh : forall s row s', after s (f_fit t s row) = (s', Ok tt) -> fst s' = (fzero, false).
  Proof using.
    intros [u norms] row s' H. cbn [norms_t f_fit fst snd] in H. pose proof (row_after row u norms (u, norms) eq_refl) as R.
    destruct (foldM step (fst u) (cells row)) as [a|y|]; [|destruct R as [a R]; rewrite R in H; discriminate|contradiction].
    rewrite R in H. destruct (snd u || negb (Nat.eqb (length (cells row)) 0)); [|discriminate]. injection H as <-. reflexivity.
  Qed.
  Lemma tries_last : forall us (s : norms_state), fst s = (fzero, false) ->
    let (s', rs) := tries t s us in last rs (Ok tt) = Ok tt -> fst s' = (fzero, false).
  Proof using.
    intros us. induction us as [|row us IH] using rev_ind; intros s Hs; cbn [tries]; [intros _; exact Hs|].
    rewrite (tries_app t us [row] s). destruct (tries t s us) as [s1 q1]. cbn [tries].
    destruct (after s1 (f_fit t s1 row)) as [s2 q] eqn:Ea. rewrite last_last. intros ->. eapply row_ok_fresh. exact Ea.
  Qed.
  Notation norm := (fun row => do n <- norm_of step finish row; Ok (convert n : double)).
  Lemma row_fresh : forall (s : norms_state) row, fst s = (fzero, false) ->
    match norm row with
    | Ok n => after s (f_fit t s row) = (((fzero, false), snd s ++ [n]), Ok tt)
    | Throw y => exists u, after s (f_fit t s row) = ((u, snd s), Throw y)
    | UB => False
    end.
  Proof using.
    intros [u norms] row Hs. cbn [fst snd norms_t f_fit] in *. subst u. pose proof (row_after row (fzero, false) norms ((fzero, false), norms) eq_refl) as R.
    unfold norm_of. cbn [fst snd orb] in R. destruct (cells row) as [|x r] eqn:Ec.
    - cbn [foldM] in R. cbn [bind]. exists (fzero, false). exact R.
    - destruct (foldM step fzero (x :: r)) as [a|y|] eqn:Ef.
      + cbn [length Nat.eqb negb] in R. cbn [bind]. exact R.
      + cbn [bind]. destruct R as [a R]. exists (a, true). exact R.
      + contradiction.
  Qed.
  Theorem norms_after_accepted : forall us row,
    let (s, rs) := tries t (f_init t) us in
    last rs (Ok tt) = Ok tt ->
    match norm row with
    | Ok n => exists u, after s (f_fit t s row) = ((u, snd s ++ [n]), Ok tt)
    | Throw y => exists u, after s (f_fit t s row) = ((u, snd s), Throw y)
    | UB => False
    end.
  Proof using.
    intros us row. pose proof (tries_last us (f_init t) eq_refl) as H. destruct (tries t (f_init t) us) as [s rs]. intros Hl. specialize (H Hl).
    pose proof (row_fresh s row H) as R. cbv beta in R |- *. destruct (do n <- norm_of step finish row; Ok (convert n : double)) as [n|y|]; [|exact R|exact R]. exists (fzero, false). exact R.
  Qed.
  Lemma row_norms : forall (s : norms_state) row, let (s', r) := after s (f_fit t s row) in
    length (snd s') = (length (snd s) + if accepts r then 1 else 0)%nat.
  Proof using.
    intros [u norms] row. cbn [norms_t f_fit fst snd]. pose proof (row_after row u norms (u, norms) eq_refl) as R.
    destruct (foldM step (fst u) (cells row)) as [a|y|]; [|destruct R as [a R]; rewrite R; cbn [accepts fst snd]; lia|contradiction].
    rewrite R. destruct (snd u || negb (Nat.eqb (length (cells row)) 0)); cbn [accepts fst snd]; [rewrite app_length; cbn [length]; lia|lia].
  Qed.
  Theorem norms_per_row : forall us (s : norms_state), let (s', rs) := tries t s us in length (snd s') = (length (snd s) + length (accepted us rs))%nat.
  Proof using.
    induction us as [|row r IH]; intros s; cbn [tries]; [cbn; lia|]. pose proof (row_norms s row) as Hr.
    destruct (after s (f_fit t s row)) as [s1 q]. specialize (IH s1). destruct (tries t s1 r) as [s2 qs]. rewrite accepted_one.
    destruct (accepts q); cbn [length]; lia.
  Qed.

  (** Infinity. *)
  Hypothesis Hsize : forall x, is_nan x = false -> nonneg (size x).
  Hypothesis Hinf : forall x, is_inf x = true -> size x = B754_infinity false.
  Definition clean (row : list (option L)) : Prop := Forall (fun x => is_nan x = false) (cells row).
  Lemma row_nonneg : forall row (u : L * bool) norms, nonneg (fst u) -> clean row ->
    nonneg (fst (fst (fst (after (u, norms) (row_call size finish u norms row))))).
  Proof using Hsize.
    induction row as [|[x|] r IH]; intros u norms Hu Hc; cbn [row_call].
    - destruct (snd u); cbn [after fst]; [apply zero_nonneg|exact Hu].
    - unfold clean in Hc. cbn [cells flat_map app] in Hc. inversion Hc as [|? ? Hx Hr]; subst. unfold norm_call. cbn [after].
      destruct (Beqb (fadd (fst u) (size x)) (fst u) && negb (is_zero (size x))); cbn [after fst]; [exact Hu|].
      assert (Hn : nonneg (fadd (fst u) (size x))) by (apply fadd_nonneg; [exact Hu|apply Hsize, Hx]).
      destruct (is_inf (fadd (fst u) (size x))); cbn [after fst]; [exact Hn|]. apply (IH (fadd (fst u) (size x), true) norms Hn Hr).
    - apply IH; assumption.
  Qed.
  Lemma tries_nonneg : forall us (s : norms_state), nonneg (fst (fst s)) -> Forall clean us -> nonneg (fst (fst (fst (tries t s us)))).
  Proof using Hsize.
    induction us as [|row r IH]; intros s Hs HF; cbn [tries]; [exact Hs|]. inversion HF as [|? ? Hrow Hr]; subst.
    destruct s as [u norms]. pose proof (row_nonneg row u norms Hs Hrow) as Hn. cbn [norms_t f_fit fst snd].
    destruct (after (u, norms) (row_call size finish u norms row)) as [s1 q]. cbn [fst] in Hn. specialize (IH s1 Hn Hr).
    destruct (tries t s1 r). exact IH.
  Qed.
  Lemma norms_stuck (s : norms_state) : fst (fst s) = B754_infinity false -> stuck t s (fun row => cells row <> [] /\ clean row).
  Proof using Hsize.
    intros Hi ys. revert s Hi. induction ys as [|row r IH]; intros s Hi HF; cbn [tries map snd]; [reflexivity|].
    inversion HF as [|? ? [Hne Hc] Hr]; subst.
    assert (Ea : exists s', after s (f_fit t s row) = (s', Throw RuntimeError) /\ fst (fst s') = B754_infinity false).
    { destruct s as [u norms]. cbn [fst snd norms_t f_fit] in *. clear HF Hr IH r. revert Hne Hc.
      induction row as [|[x|] q IHr]; intros Hne Hc; [exfalso; apply Hne; reflexivity| |].
      - unfold clean in Hc. cbn [cells flat_map app] in Hc. inversion Hc as [|? ? Hx Hq]; subst.
        cbn [row_call]. unfold norm_call. cbn [after]. rewrite Hi. rewrite (inf_plus _ (Hsize x Hx)).
        change (Beqb (B754_infinity false : L) (B754_infinity false)) with true. cbn [andb].
        destruct (negb (is_zero (size x))); cbn [after]; eexists; (split; [reflexivity|]); reflexivity.
      - cbn [row_call]. apply IHr; assumption. }
    destruct Ea as (s' & Ea & Hi'). rewrite Ea. specialize (IH s' Hi' Hr). destruct (tries t s' r) as [s2 qs]. cbn [snd] in *. rewrite IH. reflexivity.
  Qed.
  Theorem norms_infinity : forall us x, Forall clean us -> is_inf x = true ->
    last (snd (tries t (f_init t) (us ++ [[Some x]]))) (Ok tt) = Throw RuntimeError /\
    stuck t (fst (tries t (f_init t) (us ++ [[Some x]]))) (fun row => cells row <> [] /\ clean row).
  Proof using Hsize Hinf.
    intros us x HF Hx. rewrite tries_app. pose proof (tries_nonneg us (f_init t) zero_nonneg HF) as Hn.
    destruct (tries t (f_init t) us) as [[u norms] qs]. cbn [fst] in Hn. cbn [tries norms_t f_fit fst snd row_call]. unfold norm_call. cbn [after].
    rewrite (Hinf x Hx), (plus_inf _ Hn). destruct (Beqb (B754_infinity false) (fst u) && negb (is_zero (B754_infinity false : L))) eqn:E; cbn [after].
    - cbn [fst snd]. rewrite last_last. split; [reflexivity|]. apply norms_stuck. cbn [fst]. apply andb_true_iff in E. destruct E as [E _].
      destruct (fst u) as [b|b| |b m ex B] eqn:Eu; try discriminate. destruct b; [destruct Hn; discriminate|reflexivity].
    - cbn [is_inf after fst snd]. rewrite last_last. split; [reflexivity|]. apply norms_stuck. reflexivity.
  Qed.
End NormRows.

(** ** Deviations. *)
Section Deviation.
  Context {lp le : Z} {HLp : Prec_gt_0 lp} {HLm : Prec_lt_emax lp le} {I : Type}.
  Notation L := (binary_float lp le).
  Variable ty : numty 53 1024 I.
  Variable avg : double.
  Notation t := (deviation_t (lp := lp) (le := le) ty avg).
  Notation dev_state := (dev_state (lp := lp) (le := le)).
  Notation counts := (fun x => n_null ty x = false /\ is_nan (fsub (n_cv ty x) avg) = false).
  Lemma deviation_like : learns_like t (dev_policy ty avg).
  Proof using.
    split; [reflexivity|]. split; [reflexivity|]. split; [reflexivity|].
    intros [u c] x. cbn [deviation_t f_fit dev_policy simple_policy p_fit]. unfold dev_fit.
    destruct (n_null ty x); [split; [reflexivity|intros p' E; injection E as <-; reflexivity]|].
    unfold l2_update. cbn [fst snd]. cbv zeta. destruct (is_nan (fsub (n_cv ty x) avg)).
    - cbn [bind]. destruct (c =? 18446744073709551615); cbn; split; try reflexivity; try discriminate.
      intros p' E. injection E as <-. reflexivity.
    - unfold norm_call, add_checked. cbn [after]. set (d := fmul _ _). cbv zeta.
      destruct (Beqb (fadd (fst u) d) (fst u) && negb (is_zero d)); cbn [bind after]; [split; [reflexivity|discriminate]|].
      destruct (is_inf (fadd (fst u) d)); cbn [bind after]; [split; [reflexivity|discriminate]|].
      destruct (c =? 18446744073709551615); cbn; split; try reflexivity; try discriminate.
      intros p' E. injection E as <-. reflexivity.
  Qed.
  (** Nothing was added yet if nothing was put in; the sum is never negative. *)
  Definition dev_inv (s : dev_state) : Prop := nonneg (fst (fst s)) /\ (snd (fst s) = false -> fst (fst s) = fzero) /\ 0 <= snd s.
  Lemma dev_one (s : dev_state) x : dev_inv s -> snd s < 18446744073709551615 -> fst (fst s) <> B754_infinity false ->
    let (s', r) := after s (f_fit t s x) in
    dev_inv s' /\ snd s' <= snd s + 1 /\ (accepts r = false -> s' = s \/ fst (fst s') = B754_infinity false) /\ (accepts r = true -> fst (fst s') <> B754_infinity false).
  Proof using.
    intros (Hn & Hz & H0) Hc Hi. destruct s as [[a v] c]. cbn [fst snd] in *. cbn [deviation_t f_fit].
    destruct (n_null ty x).
    { cbn [after]. split; [split; [exact Hn|split; [exact Hz|exact H0]]|]. cbn [snd fst accepts]. split; [lia|]. split; [discriminate|intros _; exact Hi]. }
    cbn [fst snd]. destruct (Z.eqb_spec c 18446744073709551615) as [X|_]; [lia|]. destruct (is_nan (fsub (n_cv ty x) avg)) eqn:Nd.
    { cbn [after]. split; [split; [exact Hn|split; [exact Hz|cbn [snd]; lia]]|]. cbn [snd fst accepts]. split; [lia|]. split; [discriminate|intros _; exact Hi]. }
    set (d := fmul _ _). assert (Hd : nonneg d) by (apply square_nonneg; rewrite L_FloatStats2.convert_not_nan; exact Nd).
    unfold norm_call. cbn [fst snd after].
    destruct (Beqb (fadd a d) a && negb (is_zero d)) eqn:E1; cbn [after fst snd accepts].
    - assert (Ev : v = true).
      { destruct v; [reflexivity|]. rewrite (Hz eq_refl) in E1. apply andb_true_iff in E1. destruct E1 as [E1 E2].
        rewrite (zero_plus_same d Hd E1) in E2. discriminate. }
      subst v. split; [split; [exact Hn|split; [discriminate|exact H0]]|]. split; [lia|]. split; [intros _; left; reflexivity|discriminate].
    - pose proof (fadd_nonneg a d Hn Hd) as Hs. destruct (is_inf (fadd a d)) eqn:Ei; cbn [after fst snd accepts].
      + split; [split; [exact Hs|split; [discriminate|exact H0]]|]. split; [lia|]. split; [|discriminate].
        intros _. right. apply nonneg_inf; assumption.
      + split; [split; [exact Hs|split; [discriminate|cbn [snd]; lia]]|]. split; [lia|]. split; [discriminate|].
        intros _ E. rewrite E in Ei. discriminate.
  Qed.
  Lemma dev_inf_step (s : dev_state) x : fst (fst s) = B754_infinity false -> 
    let (s', r) := after s (f_fit t s x) in fst (fst s') = B754_infinity false /\ (counts x -> r = Throw RuntimeError).
  Proof using.
    intros Hi. destruct s as [[a v] c]. cbn [fst snd] in Hi. subst a. cbn [deviation_t f_fit].
    destruct (n_null ty x) eqn:Nx; [cbn [after]; split; [reflexivity|intros [H _]; discriminate]|]. cbn [fst snd].
    destruct (is_nan (fsub (n_cv ty x) avg)) eqn:Nd.
    - destruct (c =? 18446744073709551615); cbn [after]; (split; [reflexivity|intros [_ H]; discriminate]).
    - set (d := fmul _ _). assert (Hd : nonneg d) by (apply square_nonneg; rewrite L_FloatStats2.convert_not_nan; exact Nd).
      unfold norm_call. cbn [fst snd after]. rewrite (inf_plus d Hd).
      change (Beqb (B754_infinity false : L) (B754_infinity false)) with true. cbn [andb].
      destruct (negb (is_zero d)); cbn [after]; (split; [reflexivity|intros _; reflexivity]).
  Qed.
  Lemma dev_stuck (s : dev_state) : fst (fst s) = B754_infinity false -> stuck t s counts.
  Proof using.
    intros Hi ys. revert s Hi. induction ys as [|x r IH]; intros s Hi HF; cbn [tries map snd]; [reflexivity|].
    inversion HF as [|? ? Hx Hr]; subst. pose proof (dev_inf_step s x Hi) as Hs. destruct (after s (f_fit t s x)) as [s1 q]. destruct Hs as [Hi1 Hq].
    rewrite (Hq Hx). specialize (IH s1 Hi1 Hr). destruct (tries t s1 r). cbn [snd] in *. rewrite IH. reflexivity.
  Qed.
  Lemma dev_inf_tries : forall xs (s : dev_state), fst (fst s) = B754_infinity false -> fst (fst (fst (tries t s xs))) = B754_infinity false.
  Proof using.
    induction xs as [|x r IH]; intros s Hi; cbn [tries]; [exact Hi|]. pose proof (dev_inf_step s x Hi) as Hs.
    destruct (after s (f_fit t s x)) as [s1 q]. destruct Hs as [Hi1 _]. specialize (IH s1 Hi1). destruct (tries t s1 r). exact IH.
  Qed.
  Theorem deviation_tries : forall xs (s : dev_state), dev_inv s -> snd s + Z.of_nat (length xs) < 2 ^ 64 ->
    let (s', rs) := tries t s xs in
    foldM (dev_fit ty avg) s (accepted xs rs) = Ok s' \/ stuck t s' counts.
  Proof using.
    intros xs s HI HL. destruct s as [[a v] c]. destruct (is_inf a) eqn:Ei.
    { assert (Ea : a = B754_infinity false) by (apply nonneg_inf; [apply HI|exact Ei]).
      pose proof (dev_inf_tries xs (a, v, c) Ea) as Ht. destruct (tries t (a, v, c) xs) as [s' rs]. right. apply dev_stuck. exact Ht. }
    assert (Hi : fst (fst (a, v, c)) <> B754_infinity false) by (cbn; intros ->; discriminate). clear Ei.
    revert HI HL Hi. generalize ((a, v, c) : dev_state). clear a v c. induction xs as [|x r IH]; intros s HI HL Hi; cbn [tries].
    - left. reflexivity.
    - cbn [length] in HL. assert (Hb : snd s < 18446744073709551615) by lia. pose proof (dev_one s x HI Hb Hi) as H1.
      pose proof (like_inv t (dev_policy ty avg) deviation_like s x) as Hk. cbn [dev_policy simple_policy p_fit] in Hk.
      destruct (after s (f_fit t s x)) as [s1 q]. destruct H1 as (I1 & I2 & I3 & I4).
      destruct q as [u|y|].
      + specialize (IH s1 I1 ltac:(lia) (I4 eq_refl)). destruct (tries t s1 r) as [s2 qs]. cbn [accepted accepts foldM]. rewrite Hk. exact IH.
      + destruct (I3 eq_refl) as [-> |E].
        * specialize (IH s I1 ltac:(lia) Hi). destruct (tries t s r) as [s2 qs]. exact IH.
        * pose proof (dev_inf_tries r s1 E) as Ht. destruct (tries t s1 r) as [s2 qs]. right. apply dev_stuck. exact Ht.
      + destruct (I3 eq_refl) as [-> |E].
        * specialize (IH s I1 ltac:(lia) Hi). destruct (tries t s r) as [s2 qs]. exact IH.
        * pose proof (dev_inf_tries r s1 E) as Ht. destruct (tries t s1 r) as [s2 qs]. right. apply dev_stuck. exact Ht.
  Qed.
  Lemma dev_inv0 : dev_inv (f_init t).
  Proof using. split; [apply zero_nonneg|]. split; [reflexivity|cbn; lia]. Qed.
End Deviation.
