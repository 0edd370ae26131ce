(** Training the statistics of floating point columns. *)
From Coq Require Import Reals Lra Psatz.
From Flocq Require Import Core.Core IEEE754.BinarySingleNaN.
From Verif Require Import Base L_List M_Estimator M_Stats M_Pipeline M_Impute M_Scale M_FloatStats S_Stats S_FloatStats S_Scale L_Estimator L_Stats L_Impute L_Float L_Scale2 L_FloatStats L_FloatStats2.
Open Scope R_scope.

Lemma double_max_R : B2R double_max = bpow radix2 1024 - bpow radix2 971.
Proof.
  unfold double_max, Bmax_float. rewrite B2R_SF2B. cbn [SF2R]. unfold F2R. cbn [Fnum Fexp cond_Zopp].
  change (shift_pos (Z.to_pos 53) 1 - 1)%positive with 9007199254740991%positive. change (1024 - 53)%Z with 971%Z. change 1024%Z with (53 + 971)%Z. rewrite bpow_plus.
  replace (bpow radix2 53) with 9007199254740992 by reflexivity. ring.
Qed.
Lemma double_max_fin : is_finite double_max = true.
Proof. unfold double_max, Bmax_float. now rewrite is_finite_SF2B. Qed.

Section Run.
  Context {p e : Z} {Hp : Prec_gt_0 p} {Hm : Prec_lt_emax p e} {lp le : Z} {HLp : Prec_gt_0 lp} {HLm : Prec_lt_emax lp le}.
  Notation F := (binary_float p e).
  Notation L := (binary_float lp le).
  Notation cv := (fun x : F => convert x : L).
  Definition step (s : fstats_state) (x : F) : res (fstats_state (p := p) (e := e) (lp := lp) (le := le)) := if is_nan x then Ok s else fstats_update s x.
  Definition mm_inv (mm : option (F * F)) (ns : list F) : Prop :=
    match mm with
    | None => ns = []
    | Some (mn, mx) => In mn ns /\ In mx ns /\ forall x, In x ns -> B2R mn <= B2R x <= B2R mx
    end.
  Definition finv (l : list F) (s : fstats_state (p := p) (e := e) (lp := lp) (le := le)) : Prop :=
    let ns := numbers l in
    Forall (fun x => is_finite x = true) ns /\ mm_inv (fst (fst s)) ns /\ snd (fst s) = Z.of_nat (length ns) /\
    snd s = fold_left fadd (map cv ns) fzero /\ all_finite fzero (map cv ns).
  Lemma all_finite_app : forall (l : list L) s x, all_finite s l -> is_finite (fadd (fold_left fadd l s) x) = true -> all_finite s (l ++ [x]).
  Proof using Type. induction l as [|y l IH]; intros s x A B; [split; [exact B|exact I]|]. destruct A as [A1 A2]. split; [exact A1|]. apply IH; assumption. Qed.
  Lemma numbers_app (a b : list F) : numbers (a ++ b) = numbers a ++ numbers b.
  Proof using Type. apply filter_app. Qed.
  Lemma fin_conv (x : F) : (p <= lp)%Z -> (e <= le)%Z -> is_finite x = true -> B2R (cv x) = B2R x /\ is_finite (cv x) = true.
  Proof using Hp Hm HLp HLm. intros. now apply convert_widen. Qed.
  Lemma fold_fin : forall l s, is_finite s = true -> all_finite s l -> is_finite (fold_left fadd l s : L) = true.
  Proof using Type. induction l as [|x l IH]; intros s Hs A; [exact Hs|]. destruct A as [A1 A2]. now apply IH. Qed.
  Lemma mm_step mm ns (x : F) : is_finite x = true -> Forall (fun y => is_finite y = true) ns -> mm_inv mm ns ->
    mm_inv (Some (match mm with None => (x, x) | Some (mn, mx) => (if Bltb x mn then x else mn, if Bltb mx x then x else mx) end)) (ns ++ [x]).
  Proof using Type.
    intros Fx Fl I. destruct mm as [[mn mx]|]; cbn [mm_inv] in *.
    - destruct I as (I1 & I2 & I3). rewrite Forall_forall in Fl. rewrite !Bltb_correct by auto.
      assert (X : In x (ns ++ [x])) by (apply in_or_app; right; now left).
      split; [destruct (Rlt_bool (B2R x) (B2R mn)); [exact X|apply in_or_app; now left]|].
      split; [destruct (Rlt_bool (B2R mx) (B2R x)); [exact X|apply in_or_app; now left]|].
      intros y Hy. pose proof (I3 mn I1) as Q1. pose proof (I3 mx I2) as Q2.
      assert (Y : B2R mn <= B2R y <= B2R mx \/ y = x) by (apply in_app_or in Hy; destruct Hy as [Hy|[<-|[]]]; [left; auto|right; reflexivity]).
      case Rlt_bool_spec; intros H1; case Rlt_bool_spec; intros H2; destruct Y as [Y| ->]; lra.
    - subst ns. cbn. split; [now left|]. split; [now left|]. intros y [<-|[]]. lra.
  Qed.
  Lemma run_inv (l : list F) st : (p <= lp)%Z -> (e <= le)%Z -> foldM step ((None, 0%Z), fzero) l = Ok st -> finv l st.
  Proof using Hp Hm HLp HLm.
    intros H1 H2. revert st. induction l as [|x l IH] using rev_ind; intros st H.
    - cbn in H. injection H as <-. unfold finv. cbn. repeat split; constructor.
    - rewrite foldM_app in H. destruct (foldM step _ l) as [s|ex|] eqn:E; try discriminate. specialize (IH s eq_refl).
      cbn [bind foldM] in H. unfold finv. rewrite numbers_app. cbn [numbers filter] in *. unfold step in H. destruct (is_nan x) eqn:N.
      + cbn [bind] in H. injection H as <-. cbn [negb]. rewrite app_nil_r. exact IH.
      + cbn [negb]. destruct IH as (I1 & I2 & I3 & I4 & I5). destruct s as [[mm count] sum]. cbn [fst snd] in *. unfold fstats_update in H. cbn [fst snd] in H.
        unfold basic_update in H. cbn [fst snd] in H. destruct (count =? 18446744073709551615)%Z; [discriminate|]. cbn [bind fst snd] in H. destruct (Beqb _ _ && negb _); [discriminate|].
        destruct (is_inf (fadd sum (convert x))) eqn:Inf; [discriminate|]. cbn [bind] in H. injection H as <-. cbn [fst snd].
        assert (Fs : is_finite sum = true) by (rewrite I4; apply fold_fin; [reflexivity|exact I5]).
        assert (Fx : is_finite x = true).
        { destruct x as [s0|s0| |s0 m0 e0 B0]; try reflexivity; [|discriminate N]. exfalso. cbn [convert] in Inf. destruct sum as [s1|s1| |s1 m1 e1 B1]; try discriminate. }
        destruct (fin_conv x H1 H2 Fx) as [_ Fc]. assert (Ff : is_finite (fadd sum (cv x)) = true) by (apply fadd_not_inf; assumption).
        split; [apply Forall_app; split; [exact I1|constructor; [exact Fx|constructor]]|].
        split; [apply (mm_step mm); assumption|].
        split; [rewrite app_length; cbn [length]; lia|]. rewrite map_app, fold_left_app. cbn [map fold_left]. rewrite <- I4. split; [reflexivity|].
        apply all_finite_app; [exact I5|]. rewrite <- I4. exact Ff.
  Qed.
  Lemma total_conv (l : list F) : (p <= lp)%Z -> (e <= le)%Z -> Forall (fun x => is_finite x = true) l -> total (map cv l) = total l /\ magnitude (map cv l) = magnitude l.
  Proof using Hp Hm HLp HLm.
    intros H1 H2. induction l as [|x l IH]; intros H; [split; reflexivity|]. inversion H as [|? ? Fx Fl]; subst. destruct (IH Fl) as [A B]. cbn [map].
    rewrite !total_cons, !magnitude_cons, A, B. now rewrite (proj1 (fin_conv x H1 H2 Fx)).
  Qed.

  Theorem fstats_spec mx (bs : list (list F)) (r : fresult (p := p) (e := e) (lp := lp) (le := le)) : (p <= 53)%Z -> (e <= 1024)%Z -> (53 <= lp)%Z -> (1024 <= le)%Z -> proper_training mx bs ->
    trained fstats_policy mx bs = Ok (Some r) ->
    let l := numbers (items mx bs) in let n := length l in (Z.of_nat n <= 2 ^ 53)%Z ->
    l <> [] /\ Forall (fun x => is_finite x = true) l /\ fr_count r = Z.of_nat n /\
    (In (fr_min r) l /\ In (fr_max r) l /\ forall x, In x l -> B2R (fr_min r) <= B2R x <= B2R (fr_max r)) /\
    (is_finite (fr_sum r : L) = true /\ Rabs (B2R (fr_sum r) - total l) <= errors lp (n - 1) * magnitude l) /\
    is_finite (fr_average r) = true /\ B2R (fr_min r) <= B2R (fr_average r) <= B2R (fr_max r) /\
    B2R (fr_average r) = r64 (rounded lp le (B2R (fr_sum r) / INR n)) /\
    Rabs (B2R (fr_average r) - total l / INR n) <= ((1 + unit_error lp) ^ n * (1 + unit_error 53) - 1) * (magnitude l / INR n) + bpow radix2 (-1073).
  Proof using Hp Hm HLp HLm.
    intros P1 P2 P3 P4 Ht H. cbv zeta. intros Hn. unfold fstats_policy in H. rewrite trained_simple in H by exact Ht. 
    change (foldM _ _ (items mx bs)) with (foldM step (None, 0%Z, fzero) (items mx bs)) in H.
    destruct (foldM step (None, 0%Z, fzero) (items mx bs)) as [st|ex|] eqn:E; try discriminate. cbn [bind] in H.
    pose proof (run_inv (items mx bs) st ltac:(lia) ltac:(lia) E) as (I1 & I2 & I3 & I4 & I5). destruct st as [[mm count] sum]. cbn [fst snd] in *.
    unfold fstats_commit in H. cbn [fst snd] in H. unfold basic_commit in H. cbn [fst snd] in H.
    destruct (count =? 0)%Z eqn:C0; [discriminate|]. destruct mm as [[mn mxv]|]; [|discriminate]. cbn [mm_inv] in I2. destruct I2 as (M1 & M2 & M3).
    destruct (Bltb mxv mn); [discriminate|]. cbn [bind] in H. set (l := numbers (items mx bs)) in *.
    destruct (Bltb (convert double_max) _) eqn:B1; [discriminate|]. destruct (Bltb (convert mxv) _ || _) eqn:B2; [discriminate|]. cbn [bind] in H. injection H as <-. cbn [fr_min fr_max fr_count fr_sum fr_average].
    apply orb_false_iff in B2 as [B2 B3].
    assert (Hne : l <> []) by (intros G; rewrite G in M1; destruct M1). assert (Hn1 : (1 <= length l)%nat) by (destruct l; [contradiction|cbn; lia]).
    assert (Fmn : is_finite mn = true) by (rewrite Forall_forall in I1; auto). assert (Fmx : is_finite mxv = true) by (rewrite Forall_forall in I1; auto).
    split; [exact Hne|]. split; [exact I1|]. split; [exact I3|]. split; [auto|].
    destruct (total_conv l ltac:(lia) ltac:(lia) I1) as [T1 T2].
    assert (Fc : Forall (fun x => is_finite x = true) (map cv l)).
    { apply Forall_map. eapply Forall_impl; [|exact I1]. intros x Fx. apply fin_conv; [lia|lia|exact Fx]. }
    destruct (sum_err0 (map cv l) Fc I5) as [S1 S2]. rewrite <- I4, T1, T2, map_length in *. split; [auto|].
    assert (Hl : (2 ^ 53 <= 2 ^ lp)%Z) by (apply Z.pow_le_mono_r; lia).
    rewrite I3 in B1, B2, B3 |- *. destruct (div_count sum (length l) S1 Hn1 ltac:(lia)) as [Q1 Q2]. set (q := fdiv sum (of_int (Z.of_nat (length l)))) in *.
    destruct (@convert_widen p e 53 1024 _ _ _ _ mn ltac:(lia) ltac:(lia) Fmn) as [A1 A2]. destruct (@convert_widen p e 53 1024 _ _ _ _ mxv ltac:(lia) ltac:(lia) Fmx) as [D1 D2].
    assert (Fa : is_finite (convert q : double) = true).
    { destruct (is_finite (convert q : double)) eqn:Fa; [reflexivity|exfalso]. pose proof (convert_not_nan q : is_nan (convert q : double) = is_nan q) as Nq. rewrite (is_finite_nan q Q1) in Nq.
      destruct (convert q : double) as [s|s| |s m ex B]; try discriminate. destruct s.
      - destruct (convert mn : double); cbn in B3; discriminate.
      - destruct (convert mxv : double); cbn in B2; discriminate. }
    pose proof (convert_fin q Q1 Fa) as Ea. rewrite Bltb_correct in B2, B3 by assumption.
    split; [exact Fa|]. split.
    { revert B2 B3. case Rlt_bool_spec; intros G1; [discriminate|]. intros _. case Rlt_bool_spec; intros G2; [discriminate|]. intros _. rewrite A1 in *. rewrite D1 in *. lra. }
    rewrite Ea, Q2. split; [reflexivity|].
    pose proof (avg_err sum (total l) (magnitude l) (length l) (length l - 1) P3 P4 Hn1 (magnitude_nonneg l) (total_le l) S2) as G.
    replace (S (length l - 1)) with (length l) in G by lia. exact G.
  Qed.
End Run.
