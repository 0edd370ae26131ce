From Coq Require Import Reals Lra Psatz.
From Flocq Require Import Core.Core IEEE754.BinarySingleNaN.
From Verif Require Import Base M_Estimator M_Stats M_Pipeline M_Impute M_Scale S_Stats S_Window L_Stats L_Stats3 L_Float L_Scale L_Scale2 L_Scale3.
Open Scope R_scope.

Section Norms.
  Context {lp le : Z} {HLp : Prec_gt_0 lp} {HLm : Prec_lt_emax lp le}.
  Notation L := (binary_float lp le).
  Notation rnd := (rnd (prec := lp) (emax := le)).
  Lemma pow_lt_big : IZR (2 ^ lp) < bpow radix2 le.
  Proof using HLp HLm.
    change 2%Z with (radix_val radix2). rewrite IZR_Zpower by (red in HLp; lia). apply bpow_lt. exact HLm.
  Qed.
  Lemma int_small : forall z, (Z.abs z <= 2 ^ lp)%Z -> Rabs (rnd (IZR z)) < bpow radix2 le /\ rnd (IZR z) = IZR z.
  Proof using HLp HLm.
    intros z H. pose proof (rnd_fmt (IZR z) (int_fmt z H)) as E. split; [|exact E]. rewrite E, <- abs_IZR.
    eapply Rle_lt_trans; [apply IZR_le; exact H|apply pow_lt_big].
  Qed.
  Definition isint (x : L) (z : Z) : Prop := is_finite x = true /\ B2R x = IZR z.
  Lemma add_int : forall (x y : L) i j, isint x i -> isint y j -> (Z.abs (i + j) <= 2 ^ lp)%Z -> isint (fadd x y) (i + j).
  Proof using Type.
    intros x y i j [Fx Ex] [Fy Ey] H. destruct (int_small _ H) as [A B]. rewrite plus_IZR in A, B.
    destruct (fadd_ok x y Fx Fy) as [C D]; [rewrite Ex, Ey; exact A|]. split; [exact D|]. rewrite C, Ex, Ey, B, plus_IZR. reflexivity.
  Qed.
  Lemma mul_int : forall (x y : L) i j, isint x i -> isint y j -> (Z.abs (i * j) <= 2 ^ lp)%Z -> isint (fmul x y) (i * j).
  Proof using Type.
    intros x y i j [Fx Ex] [Fy Ey] H. destruct (int_small _ H) as [A B]. rewrite mult_IZR in A, B.
    destruct (fmul_ok x y Fx Fy) as [C D]; [rewrite Ex, Ey; exact A|]. split; [exact D|]. rewrite C, Ex, Ey, B, mult_IZR. reflexivity.
  Qed.
  Lemma abs_int : forall (x : L) i, isint x i -> isint (Babs x) (Z.abs i).
  Proof using Type. intros x i [Fx Ex]. split; [rewrite is_finite_Babs; exact Fx|]. rewrite B2R_Babs, Ex, abs_IZR. reflexivity. Qed.
  Lemma checked_int : forall (s d : L) i j, isint s i -> isint d j -> (Z.abs (i + j) <= 2 ^ lp)%Z -> add_checked s d = Ok (fadd s d).
  Proof using Type.
    intros s d i j Hs Hd H. unfold add_checked. cbv zeta. destruct (add_int s d i j Hs Hd H) as [A B]. destruct Hs as [Fs Es]. destruct Hd as [Fd Ed].
    rewrite Beqb_correct by auto. rewrite B, Es. rewrite is_zero_B2R by exact Fd. rewrite Ed.
    assert (I : is_inf (fadd s d) = false) by (destruct (fadd s d); auto; discriminate). rewrite I.
    case Req_bool_spec; intros E1; [|reflexivity]. rewrite Req_bool_true; [reflexivity|]. apply eq_IZR in E1. replace j with 0%Z by lia. reflexivity.
  Qed.
  Definition zsumf (f : Z -> Z) (l : list Z) : Z := zsum (map f l).
  Lemma fold_int : forall (g : L -> L) (f : Z -> Z), (forall x i, isint x i -> (f i <= 2 ^ lp)%Z -> isint (g x) (f i)) -> (forall i, 0 <= f i)%Z ->
    forall zs (s : L) k, isint s k -> (0 <= k)%Z -> (k + zsumf f zs <= 2 ^ lp)%Z -> Forall (fun z => Z.abs z <= 2 ^ lp)%Z zs ->
    exists s', foldM (fun s x => add_checked s (g x)) s (map (of_int (prec := lp) (emax := le)) zs) = Ok s' /\ isint s' (k + zsumf f zs).
  Proof using Type.
    intros g f Hg Hf zs. induction zs as [|z zs IH]; intros s k Hs Hk Hle Hz; cbn [map foldM].
    - exists s. split; [reflexivity|]. unfold zsumf. cbn [map zsum fold_right]. rewrite Z.add_0_r. exact Hs.
    - inversion Hz as [|? ? Z1 Z2]; subst. unfold zsumf in *. cbn [map zsum fold_right] in *. fold (zsum (map f zs)) in *.
      assert (P : (0 <= zsum (map f zs))%Z). { clear -Hf. induction zs; cbn [map zsum fold_right]; [lia|]. fold (zsum (map f zs)). specialize (Hf a). lia. }
      pose proof (Hf z) as Pz. assert (Iz : isint (of_int z) z). { destruct (of_int_exact (prec := lp) (emax := le) z Z1). split; assumption. }
      assert (Gz : isint (g (of_int z)) (f z)) by (apply Hg; [exact Iz|lia]).
      rewrite (checked_int s _ k (f z) Hs Gz) by lia. cbn [bind].
      destruct (IH (fadd s (g (of_int z))) (k + f z)%Z) as [s' [E I]]; [apply add_int; auto; lia|lia|lia|exact Z2|].
      exists s'. split; [exact E|]. rewrite Z.add_assoc. exact I.
  Qed.
  Lemma cells_map : forall (row : list (option Z)), cells (map (option_map (of_int (prec := lp) (emax := le))) row) = map of_int (cells row).
  Proof using Type. induction row as [|[z|] r IH]; cbn; [reflexivity| |exact IH]. unfold cells in IH. now rewrite IH. Qed.
  Lemma zero_int : isint (fzero : L) 0.
  Proof using Type. split; reflexivity. Qed.
  Lemma cells_empty : forall st fi (row : list (option L)), cells row = [] -> norm_of st fi row = Throw RuntimeError.
  Proof using Type. intros st fi row E. unfold norm_of. rewrite E. reflexivity. Qed.
  Lemma norm_of_ne : forall st fi (row : list (option L)), cells row <> [] -> norm_of st fi row = do s <- foldM st fzero (cells row); Ok (fi s).
  Proof using Type. intros st fi row E. unfold norm_of. destruct (cells row); [contradiction|reflexivity]. Qed.

  Lemma l1_int : forall row : list (option Z), cells row <> [] -> (zsumf Z.abs (cells row) <= 2 ^ lp)%Z ->
    exists n, l1_norm (map (option_map (of_int (prec := lp) (emax := le))) row) = Ok n /\ is_finite n = true /\ B2R n = IZR (zsumf Z.abs (cells row)).
  Proof using Type.
    intros row Hne Hs. unfold l1_norm. rewrite norm_of_ne by (rewrite cells_map; destruct (cells row); [contradiction|discriminate]). rewrite cells_map.
    destruct (fold_int (@Babs lp le) Z.abs) with (zs := cells row) (s := fzero : L) (k := 0%Z) as [s [E [F I]]].
    - intros x i H _. now apply abs_int.
    - intros i. lia.
    - apply zero_int.
    - lia.
    - lia.
    - clear Hne. unfold zsumf in Hs. induction (cells row) as [|z r IH]; [constructor|]. cbn [map zsum fold_right] in Hs. fold (zsum (map Z.abs r)) in Hs.
      assert (P : (0 <= zsum (map Z.abs r))%Z). { clear. induction r; cbn [map zsum fold_right]; [lia|]. fold (zsum (map Z.abs r)). lia. }
      constructor; [lia|apply IH; lia].
    - rewrite E. cbn [bind]. exists s. split; [reflexivity|]. auto.
  Qed.
  Lemma l2_int : forall row : list (option Z), cells row <> [] -> (zsumf (fun z => z * z)%Z (cells row) <= 2 ^ lp)%Z ->
    exists n, l2_norm (map (option_map (of_int (prec := lp) (emax := le))) row) = Ok n /\ is_finite n = true /\
      B2R n = rnd (sqrt (IZR (zsumf (fun z => z * z)%Z (cells row)))).
  Proof using Type.
    intros row Hne Hs. unfold l2_norm. rewrite norm_of_ne by (rewrite cells_map; destruct (cells row); [contradiction|discriminate]). rewrite cells_map.
    destruct (fold_int (fun x => fmul (Babs x) (Babs x)) (fun z => z * z)%Z) with (zs := cells row) (s := fzero : L) (k := 0%Z) as [s [E [F I]]].
    - intros x i H Hi. assert (Ei : (i * i = Z.abs i * Z.abs i)%Z) by (rewrite <- Z.abs_mul; symmetry; apply Z.abs_eq; apply Z.square_nonneg).
      rewrite Ei in *. apply mul_int; try apply abs_int; auto. rewrite Z.abs_eq; [exact Hi|]. apply Z.mul_nonneg_nonneg; apply Z.abs_nonneg.
    - intros i. apply Z.square_nonneg.
    - apply zero_int.
    - lia.
    - lia.
    - clear Hne. unfold zsumf in Hs. induction (cells row) as [|z r IH]; [constructor|]. cbn [map zsum fold_right] in Hs. fold (zsum (map (fun z => z * z)%Z r)) in Hs.
      assert (P : (0 <= zsum (map (fun z => z * z)%Z r))%Z). { clear. induction r; cbn [map zsum fold_right]; [lia|]. fold (zsum (map (fun z => z * z)%Z r)). pose proof (Z.square_nonneg a). lia. }
      pose proof (Z.square_nonneg z). constructor; [|apply IH; lia]. assert (Z.abs z <= z * z)%Z by nia. lia.
    - rewrite E. cbn [bind]. assert (P : (0 <= zsumf (fun z => z * z)%Z (cells row))%Z).
      { unfold zsumf. clear. induction (cells row); cbn [map zsum fold_right]; [lia|]. fold (zsum (map (fun z => z * z)%Z l)). pose proof (Z.square_nonneg a). lia. }
      rewrite Z.add_0_l in I. assert (P' : 0 <= B2R s) by (rewrite I; apply IZR_le; exact P).
      exists (fsqrt s). split; [reflexivity|]. destruct (fsqrt_ok s F P') as [A B]; [|rewrite A, I; auto].
      destruct (Req_dec (B2R s) 0) as [Z0|Z0]; [left; rewrite is_zero_B2R by exact F; apply Req_bool_true; exact Z0|right].
      destruct s as [b|b| |[] m ex Bd]; try discriminate F; try reflexivity; cbn [B2R] in *; try lra. exfalso. revert P'. apply Rlt_not_le. now apply F2R_lt_0.
  Qed.
  (** Max norm of finite values. *)
  Lemma max_ok : forall row : list (option L), cells row <> [] -> Forall (fun x : L => is_finite x = true) (cells row) ->
    exists n, max_norm row = Ok n /\ is_finite n = true /\ (forall x, In x (cells row) -> Rabs (B2R x) <= B2R n) /\ (exists x, In x (cells row) /\ Rabs (B2R x) = B2R n).
  Proof using Type.
    intros row Hne Hf. unfold max_norm. rewrite norm_of_ne by exact Hne.
    assert (G : forall xs (s : L) l, dominates s l -> Forall (fun x : L => is_finite x = true) xs ->
       exists s', foldM (fun s x => Ok (if Bltb (Babs x) s then s else Babs x)) s xs = Ok s' /\ dominates s' (l ++ map B2R xs)).
    { induction xs as [|x xs IH]; intros s l D Hx; cbn [foldM map bind].
      - exists s. rewrite app_nil_r. split; [reflexivity|exact D].
      - inversion Hx; subst. rewrite Bltb_correct; [|rewrite is_finite_Babs; assumption|exact (proj1 D)]. rewrite B2R_Babs.
        assert (D' : dominates (if Rlt_bool (Rabs (B2R x)) (B2R s) then s else Babs x) (B2R x :: l)).
        { case Rlt_bool_spec; intros Lt; [apply dominates_app; [exact D|lra]|]. destruct D as [D1 [D2 [D3 D4]]].
          unfold dominates. rewrite is_finite_Babs, B2R_Babs. split; [assumption|]. split; [apply Rabs_pos|]. split.
          - intros r [<-|Hr]; [lra|]. specialize (D3 r Hr). lra.
          - right. exists (B2R x). split; [now left|reflexivity]. }
        destruct (IH _ _ D' H2) as [s' [E D2]]. exists s'. split; [exact E|]. eapply dominates_perm; [exact D2|]. intros r. rewrite !in_app_iff. cbn [In]. tauto. }
    destruct (G (cells row) fzero []) as [s [E D]]; [|exact Hf|].
    { split; [reflexivity|]. cbn [B2R fzero]. split; [lra|]. split; [intros r []|now left]. }
    rewrite E. cbn [bind]. exists s. split; [reflexivity|]. cbn [app] in D. destruct D as [D1 [D2 [D3 D4]]]. split; [exact D1|]. split.
    - intros x Hx. apply D3. now apply in_map.
    - destruct D4 as [D4|[r [Hr Er]]].
      + destruct (cells row) as [|x r]; [contradiction|]. exists x. split; [now left|]. assert (Rabs (B2R x) <= B2R s) by (apply D3; now left). pose proof (Rabs_pos (B2R x)). lra.
      + apply in_map_iff in Hr. destruct Hr as [x [<- Hx]]. exists x. auto.
  Qed.
End Norms.

Lemma max_int_fold : forall signed w l (s : Z), (0 <= s < 2 ^ 64)%Z -> (1 <= w <= 8)%nat ->
  Forall (fun x => fits signed w x = true /\ (signed = true -> fits_s w (Z.abs x) = true)) l ->
  foldM (fun s x => do a <- abs_as signed w x; Ok (Z.max (u64 a) s)) s l = Ok (fold_left Z.max (map Z.abs l) s).
Proof.
  intros signed w l. induction l as [|x l IH]; intros s Hs Hw Hl; [reflexivity|]. inversion Hl as [|? ? [H1 H2] H3]; subst. cbn [foldM map fold_left].
  assert (P : (two_pow8 w <= 2 ^ 64)%Z). { unfold two_pow8. replace (2 ^ 64)%Z with (256 ^ 8)%Z by reflexivity. apply Z.pow_le_mono_r; lia. }
  destruct (L_Window3.two_pow8_even w) as [Ev Pos]; [lia|].
  assert (A : abs_as signed w x = Ok (Z.abs x) /\ (Z.abs x < 2 ^ 64)%Z).
  { unfold abs_as. destruct signed.
    - specialize (H2 eq_refl). rewrite H2. rewrite L_Window3.to_s_fits by (auto; lia). unfold fits_s in H2. split; [now destruct (Nat.ltb w 4)|]. lia.
    - cbn [fits] in H1. unfold fits_u in H1. split; [f_equal; lia|lia]. }
  destruct A as [A B]. rewrite A. cbn [bind]. assert (U : u64 (Z.abs x) = Z.abs x) by (unfold u64; apply Z.mod_small; lia).
  rewrite U, (Z.max_comm (Z.abs x) s). apply IH; auto. lia.
Qed.
Lemma fold_zmax : forall l m, (forall x, In x (m :: l) -> (x <= fold_left Z.max l m)%Z) /\ In (fold_left Z.max l m) (m :: l).
Proof.
  induction l as [|a l IH]; intros m; cbn [fold_left]; [split; [intros x [<-|[]]; lia|now left]|].
  destruct (IH (Z.max m a)) as [A B]. split.
  - intros x [<-|[<-|H]]; [| |apply A; now right]; (eapply Z.le_trans; [|apply A; now left]); lia.
  - destruct B as [B|B]; [|right; now right]. rewrite <- B. destruct (Z.max_spec m a) as [[_ ->]|[_ ->]]; [right; now left|now left].
Qed.
Lemma max_int : forall signed w (row : list (option Z)), (1 <= w <= 8)%nat -> cells row <> [] ->
  Forall (fun x => fits signed w x = true /\ (signed = true -> fits_s w (Z.abs x) = true)) (cells row) ->
  exists n, max_norm_int signed w row = Ok n /\ (forall x, In x (cells row) -> (Z.abs x <= n)%Z) /\ (exists x, In x (cells row) /\ Z.abs x = n).
Proof.
  intros signed w row Hw Hne Hl. unfold max_norm_int.
  assert (E : match cells row with [] => Throw RuntimeError | _ => foldM (fun s x => do a <- abs_as signed w x; Ok (Z.max (u64 a) s)) 0%Z (cells row) end
              = foldM (fun s x => do a <- abs_as signed w x; Ok (Z.max (u64 a) s)) 0%Z (cells row)) by (destruct (cells row); [contradiction|reflexivity]).
  destruct (cells row) as [|c cs] eqn:Ec; [contradiction|]. rewrite max_int_fold by (auto; lia).
  destruct (fold_zmax (map Z.abs (c :: cs)) 0) as [A B]. eexists. split; [reflexivity|]. split.
  - intros x Hx. apply A. right. now apply in_map.
  - destruct B as [B|B].
    + exists c. split; [now left|]. assert (Z.abs c <= fold_left Z.max (map Z.abs (c :: cs)) 0)%Z by (apply A; right; now left). lia.
    + apply in_map_iff in B. destruct B as [x [E' Hx]]. exists x. auto.
Qed.

(** ** The normalizer *)
Section Normalize.
  Context {lp le : Z} {HLp : Prec_gt_0 lp} {HLm : Prec_lt_emax lp le}.
  Notation L := (binary_float lp le).
  Lemma norms_fold : forall {R} (norm : R -> res double) rows acc l, foldM (fun l r => do n <- norm r; Ok (l ++ [n])) acc rows = Ok l ->
    exists ns, l = acc ++ ns /\ Forall2 (fun r n => norm r = Ok n) rows ns.
  Proof using Type.
    intros R norm rows. induction rows as [|r rows IH]; intros acc l H; cbn [foldM] in H.
    - injection H as <-. exists []. rewrite app_nil_r. split; [reflexivity|constructor].
    - destruct (norm r) as [n| |] eqn:E; cbn [bind] in H; try discriminate. destruct (IH _ _ H) as [ns [-> F]]. exists (n :: ns).
      rewrite <- app_assoc. split; [reflexivity|]. constructor; auto.
  Qed.
  Lemma norms_fold_ok : forall {R} (norm : R -> res double) rows ns, Forall2 (fun r n => norm r = Ok n) rows ns -> forall acc,
    foldM (fun l r => do n <- norm r; Ok (l ++ [n])) acc rows = Ok (acc ++ ns).
  Proof using Type.
    intros R norm rows ns H. induction H as [|r n rows ns E F IH]; intros acc; cbn [foldM]; [now rewrite app_nil_r|].
    rewrite E. cbn [bind]. rewrite IH, <- app_assoc. reflexivity.
  Qed.
  Lemma trained_norms : forall {R} (norm : R -> res double) mx bs ns, proper_training mx bs -> Forall2 (fun r n => norm r = Ok n) (items mx bs) ns ->
    Forall (fun n : double => Bltb n fzero = false) ns -> ns <> [] -> trained (norms_policy norm) mx bs = Ok (Some ns).
  Proof using Type.
    intros R norm mx bs ns H F N Hne. unfold norms_policy. rewrite trained_simple by exact H. rewrite (norms_fold_ok norm _ _ F). cbn [app bind].
    assert (E : existsb (fun n : double => Bltb n fzero) ns = false).
    { clear -N. induction N; cbn [existsb]; [reflexivity|]. rewrite H, IHN. reflexivity. }
    destruct ns; [contradiction|]. rewrite E. reflexivity.
  Qed.
  Fixpoint zip_rows {I} (cv : I -> L) (ns : list double) (rows : list (list (option I))) : list (list double) :=
    match ns, rows with
    | n :: ns, r :: rows => normalize_row cv n r :: zip_rows cv ns rows
    | _, _ => []
    end.
  Lemma normalize_feed : forall {I} (cv : I -> L) (ns : list double) rows done rest, ns = done ++ rest ->
    feed (normalize_exec cv ns) (length done) rows =
    (zip_rows cv rest rows, if Nat.leb (length rows) (length rest) then Ok (length done + length rows)%nat else Throw RuntimeError).
  Proof using Type.
    intros I cv ns rows. induction rows as [|r rows IH]; intros done rest E; cbn [feed].
    - destruct rest; cbn; rewrite Nat.add_0_r; reflexivity.
    - unfold normalize_exec at 1. destruct rest as [|n rest].
      + assert (X : nth_error ns (length done) = None) by (apply nth_error_None; subst ns; rewrite app_nil_r; auto). rewrite X. reflexivity.
      + assert (X : nth_error ns (length done) = Some n). { subst ns. rewrite nth_error_app2, Nat.sub_diag by lia. reflexivity. }
        rewrite X. specialize (IH (done ++ [n]) rest). rewrite <- app_assoc in IH. specialize (IH E). rewrite app_length in IH. cbn [length] in IH.
        replace (length done + 1)%nat with (S (length done)) in IH by lia. rewrite IH. cbn [zip_rows app length Nat.leb]. f_equal.
        destruct (Nat.leb (length rows) (length rest)); [f_equal; lia|reflexivity].
  Qed.
  Lemma normalizer_spec : forall {R} (norm : R -> res double) mx bs ns {I} (cv : I -> L), proper_training mx bs ->
    Forall2 (fun r n => norm r = Ok n) (items mx bs) ns -> Forall (fun n : double => Bltb n fzero = false) ns -> ns <> [] ->
    trained (norms_policy norm) mx bs = Ok (Some ns) /\
    exists t, normalizer cv ns = Ok t /\
    forall rows, let (out, r) := run_exec t (t_cur t) rows in
      out = map (fun p => normalize_row cv (fst p) (snd p)) (combine ns rows) /\
      ((length rows <= length (items mx bs))%nat -> exists s, r = Ok s) /\ ((length rows > length (items mx bs))%nat -> r = Throw RuntimeError).
  Proof using Type.
    intros R norm mx bs ns I cv H F N Hne. split; [now apply trained_norms|]. unfold normalizer.
    assert (E : existsb (fun n : double => Bltb n fzero) ns = false).
    { clear -N. induction N; cbn [existsb]; [reflexivity|]. rewrite H, IHN. reflexivity. }
    assert (El : length (items mx bs) = length ns) by (clear -F; induction F; cbn; congruence). rewrite El.
    assert (G : (match ns with [] => Throw InvalidArgument | _ => if existsb (fun n : double => Bltb n fzero) ns then Throw InvalidArgument
           else Ok (mkTr nat 0%nat (normalize_exec cv ns) (fun s => ([], Ok s))) end) = Ok (mkTr nat 0%nat (normalize_exec cv ns) (fun s => ([], Ok s))))
      by (rewrite E; destruct ns; [contradiction|reflexivity]).
    eexists. split; [exact G|]. intros rows. unfold run_exec. cbn [t_exec t_state t_cur].
    pose proof (normalize_feed cv ns rows [] ns eq_refl) as X. cbn [length] in X. rewrite X.
    split; [|split].
    - clear. revert rows. induction ns as [|n ns IH]; intros [|r rows]; cbn [zip_rows combine map]; try reflexivity. now rewrite IH.
    - intros Hle. apply Nat.leb_le in Hle. rewrite Hle. eexists. reflexivity.
    - intros Hgt. destruct (Nat.leb_spec (length rows) (length ns)); [lia|reflexivity].
  Qed.

  (** Cell by cell. *)
  Lemma normalize_cell : forall {I} (cv : I -> L) (n : double) (row : list (option I)) j, (53 <= lp)%Z -> (1024 <= le)%Z ->
    length (normalize_row cv n row) = length row /\
    (nth_error row j = Some None -> nth_error (normalize_row cv n row) j = Some B754_nan) /\
    (forall x, nth_error row j = Some (Some x) -> is_finite (cv x) = true -> is_finite n = true -> B2R n <> 0 ->
       let q := rnd (prec := lp) (emax := le) (B2R (cv x) / B2R n) in
       Rabs q < bpow radix2 le -> Rabs (rnd (prec := 53) (emax := 1024) q) < bpow radix2 1024 ->
       exists y, nth_error (normalize_row cv n row) j = Some y /\ is_finite y = true /\ B2R y = rnd (prec := 53) (emax := 1024) q).
  Proof using Type.
    intros I cv n row j Hl1 Hl2. unfold normalize_row. split; [apply map_length|]. split.
    - intros E. rewrite nth_error_map, E. reflexivity.
    - intros x E Fx Fn Hn. cbv zeta. intros H1 H2. rewrite nth_error_map, E. cbn [option_map]. eexists. split; [reflexivity|].
      destruct (@convert_widen 53 1024 lp le _ _ _ _ n Hl1 Hl2 Fn) as [C1 C2]. rewrite <- C1 in Hn, H1, H2.
      destruct (fdiv_ok (cv x) (convert n) Fx Hn H1) as [D1 D2]. rewrite <- D1 in H2.
      destruct (@convert_round lp le 53 1024 _ _ (fdiv (cv x) (convert n)) D2 H2) as [G1 G2]. split; [exact G2|]. rewrite G1, D1, C1. reflexivity.
  Qed.

  (** ** The average of integers lies between their minimum and maximum *)
  Lemma average_ok : forall l mn mx, (64 <= lp)%Z -> (1024 <= le)%Z -> l <> [] -> in_i64 (zsum l) = true -> (Z.of_nat (length l) < 2 ^ 64)%Z ->
    is_min Z.ltb mn l -> is_max Z.ltb mx l -> in_i64 mn = true -> in_i64 mx = true ->
    let avg := average (lp := lp) (le := le) (zsum l) (Z.of_nat (length l)) in
    average_accepted avg mn mx = true /\ is_finite avg = true /\
    B2R avg = rnd (prec := 53) (emax := 1024) (rnd (prec := lp) (emax := le) (IZR (zsum l) / IZR (Z.of_nat (length l)))).
  Proof using Type.
    intros l mn mx Hl1 Hl2 Hne Hsum Hcnt [_ Hmn] [_ Hmx] Imn Imx. cbv zeta.
    assert (Hn : (0 < Z.of_nat (length l))%Z) by (destruct l; [contradiction|cbn; lia]).
    assert (Hb : (mn * Z.of_nat (length l) <= zsum l <= mx * Z.of_nat (length l))%Z).
    { clear -Hmn Hmx. induction l as [|x l IH]; [cbn; lia|]. cbn [zsum fold_right length]. fold (zsum l). rewrite Nat2Z.inj_succ, !Z.mul_succ_r.
      assert (A : (mn <= x <= mx)%Z). { pose proof (Hmn x (or_introl eq_refl)). pose proof (Hmx x (or_introl eq_refl)). lia. }
      specialize (IH (fun y Hy => Hmn y (or_intror Hy)) (fun y Hy => Hmx y (or_intror Hy))). lia. }
    assert (P64 : (2 ^ 64 <= 2 ^ lp)%Z) by (apply Z.pow_le_mono_r; lia).
    assert (Hi : forall z, in_i64 z = true -> (Z.abs z <= 2 ^ 63)%Z). { intros z Hz. unfold in_i64, i64_min, i64_max in Hz. lia. }
    assert (S1 : (Z.abs (zsum l) <= 2 ^ lp)%Z) by (specialize (Hi _ Hsum); lia).
    set (n := Z.of_nat (length l)) in *. set (s := zsum l) in *.
    destruct (of_int_exact (prec := lp) (emax := le) s S1) as [A1 A2]. destruct (of_int_exact (prec := lp) (emax := le) n) as [B1 B2]; [lia|].
    assert (Nn : 0 < IZR n) by (apply IZR_lt; lia).
    assert (Q : IZR mn <= IZR s / IZR n <= IZR mx).
    { split.
      - apply Rmult_le_reg_r with (IZR n); [exact Nn|]. unfold Rdiv. rewrite Rmult_assoc, Rinv_l, Rmult_1_r, <- mult_IZR by lra. apply IZR_le. lia.
      - apply Rmult_le_reg_r with (IZR n); [exact Nn|]. unfold Rdiv. rewrite Rmult_assoc, Rinv_l, Rmult_1_r, <- mult_IZR by lra. apply IZR_le. lia. }
    set (q := IZR s / IZR n) in *.
    assert (Lmn : rnd (prec := lp) (emax := le) (IZR mn) = IZR mn) by (apply rnd_fmt, int_fmt; specialize (Hi _ Imn); lia).
    assert (Lmx : rnd (prec := lp) (emax := le) (IZR mx) = IZR mx) by (apply rnd_fmt, int_fmt; specialize (Hi _ Imx); lia).
    assert (QL : IZR mn <= rnd (prec := lp) (emax := le) q <= IZR mx). { rewrite <- Lmn, <- Lmx. split; apply rnd_mono; lra. }
    set (y := rnd (prec := lp) (emax := le) q) in *.
    destruct (@of_int_round 53 1024 _ _ mn 63) as [M1 M2]; [lia|exact (Hi _ Imn)|]. destruct (@of_int_round 53 1024 _ _ mx 63) as [X1 X2]; [lia|exact (Hi _ Imx)|].
    assert (QD : rnd (prec := 53) (emax := 1024) (IZR mn) <= rnd (prec := 53) (emax := 1024) y <= rnd (prec := 53) (emax := 1024) (IZR mx)) by (split; apply rnd_mono; lra).
    assert (Ob : forall v a b B, Rabs a < B -> Rabs b < B -> a <= v <= b -> Rabs v < B).
    { intros v a b B Ha Hb' Hv. apply Rabs_def2 in Ha. apply Rabs_def2 in Hb'. apply Rabs_def1; lra. }
    destruct (fdiv_ok (of_int s : L) (of_int n) A2) as [D1 D2].
    { rewrite B1. lra. }
    { rewrite A1, B1. fold q. fold y. apply (Ob y (IZR mn) (IZR mx)); [| |exact QL].
      - rewrite <- Lmn. apply int_small. specialize (Hi _ Imn). lia.
      - rewrite <- Lmx. apply int_small. specialize (Hi _ Imx). lia. }
    rewrite A1, B1 in D1. fold q in D1. fold y in D1.
    destruct (@convert_round lp le 53 1024 _ _ (fdiv (of_int s : L) (of_int n)) D2) as [G1 G2].
    { rewrite D1. apply (Ob _ _ _ _ (eq_ind _ (fun r => Rabs r < _) (abs_B2R_lt_emax 53 1024 (of_int mn)) _ M1) (eq_ind _ (fun r => Rabs r < _) (abs_B2R_lt_emax 53 1024 (of_int mx)) _ X1) QD). }
    rewrite D1 in G1. unfold average. split; [|split; [exact G2|exact G1]].
    unfold average_accepted. rewrite !Bltb_correct by auto. rewrite G1, M1, X1. rewrite !Rlt_bool_false by lra. reflexivity.
  Qed.

  (** ** Constant columns *)
  Lemma zero_norm : forall (l : list (option L)), Forall (fun c => exists x, c = Some x /\ is_finite x = true /\ B2R x = 0) l -> l <> [] ->
    exists n, l2_norm l = Ok n /\ is_finite n = true /\ B2R n = 0.
  Proof using Type.
    intros l H Hne. assert (Hc : exists xs, cells l = xs /\ xs <> [] /\ Forall (fun x : L => isint x 0) xs).
    { eexists. split; [reflexivity|]. clear HLm. induction H as [|c l [x [-> [A B]]] H IH]; [contradiction|]. cbn [cells flat_map app]. fold (cells l).
      split; [discriminate|]. constructor; [split; [exact A|exact B]|]. destruct l as [|c' l']; [constructor|]. apply IH. discriminate. }
    destruct Hc as [xs [E [Nx Hx]]]. unfold l2_norm. rewrite norm_of_ne by (rewrite E; exact Nx). rewrite E.
    assert (P0 : (Z.abs (0 + 0) <= 2 ^ lp)%Z) by (cbn; apply Z.pow_nonneg; lia).
    assert (G : forall s : L, isint s 0 -> exists s', foldM (fun s x => add_checked s (fmul (Babs x) (Babs x))) s xs = Ok s' /\ isint s' 0).
    { clear E Nx. induction Hx as [|x xs Ix Hx IH]; intros s Is; cbn [foldM]; [now exists s|].
      assert (Im : isint (fmul (Babs x) (Babs x)) 0). { change 0%Z with (Z.abs 0 * Z.abs 0)%Z. apply mul_int; try apply abs_int; auto. }
      rewrite (checked_int s _ 0 0 Is Im P0). cbn [bind]. apply IH. apply (add_int s _ 0 0 Is Im P0). }
    destruct (G fzero zero_int) as [s [Ef [F I]]]. rewrite Ef. cbn [bind]. exists (fsqrt s). split; [reflexivity|].
    destruct (fsqrt_ok s F) as [A B]; [rewrite I; lra|left; rewrite is_zero_B2R by exact F; apply Req_bool_true; exact I|].
    rewrite A, I, sqrt_0, rnd_0. auto.
  Qed.
  Lemma constant_column : forall (z : Z) (n : nat) (signed : bool) (w : nat), (53 <= lp)%Z -> (1024 <= le)%Z -> (1 <= n)%nat ->
    (Z.abs z <= 2 ^ 53)%Z -> (Z.of_nat n <= 2 ^ 53)%Z -> (Z.abs (Z.of_nat n * z) <= 2 ^ lp)%Z ->
    let avg := average (lp := lp) (le := le) (Z.of_nat n * z) (Z.of_nat n) in
    exists dev s, deviation (lp := lp) (le := le) (of_int : Z -> double) avg (repeat z n) = Ok dev /\ B2R dev = 0 /\
      standard_create true true avg dev = Ok s /\
      is_finite (standard_exec (int_ty signed w : numty 53 1024 Z) s z) = true /\ B2R (standard_exec (int_ty signed w : numty 53 1024 Z) s z) = 0.
  Proof using Type.
    intros z n signed w Hl1 Hl2 Hn Hz Hc Hnz. cbv zeta.
    assert (P53 : (2 ^ 53 <= 2 ^ lp)%Z) by (apply Z.pow_le_mono_r; lia).
    destruct (of_int_exact (prec := lp) (emax := le) (Z.of_nat n * z) Hnz) as [A1 A2]. destruct (of_int_exact (prec := lp) (emax := le) (Z.of_nat n)) as [B1 B2]; [lia|].
    destruct (of_int_exact (prec := 53) (emax := 1024) z Hz) as [Z1 Z2].
    assert (Nn : 1 <= IZR (Z.of_nat n)) by (apply IZR_le; lia).
    assert (Q : IZR (Z.of_nat n * z) / IZR (Z.of_nat n) = IZR z) by (rewrite mult_IZR; field; lra).
    assert (Hz' : (Z.abs z <= 2 ^ lp)%Z) by lia. destruct (int_small (lp := lp) (le := le) z Hz') as [S1 S2].
    destruct (fdiv_ok (of_int (Z.of_nat n * z) : L) (of_int (Z.of_nat n)) A2) as [D1 D2]; [rewrite B1; lra|rewrite A1, B1, Q; exact S1|].
    rewrite A1, B1, Q, S2 in D1. destruct (int_small (lp := 53) (le := 1024) z Hz) as [T1 T2].
    destruct (@convert_round lp le 53 1024 _ _ (fdiv (of_int (Z.of_nat n * z) : L) (of_int (Z.of_nat n))) D2) as [G1 G2]; [rewrite D1; exact T1|].
    rewrite D1, T2 in G1. fold (average (lp := lp) (le := le) (Z.of_nat n * z) (Z.of_nat n)) in G1, G2. set (avg := average (Z.of_nat n * z) (Z.of_nat n)) in *.
    assert (R0 : rnd (prec := 53) (emax := 1024) (IZR z - IZR z) = 0) by (rewrite Rminus_diag_eq by reflexivity; apply rnd_0).
    assert (big0 : Rabs 0 < bpow radix2 1024) by (rewrite Rabs_R0; apply bpow_gt_0).
    destruct (fsub_ok (of_int z : double) avg Z2 G2) as [U1 U2]; [rewrite Z1, G1, R0; exact big0|]. rewrite Z1, G1, R0 in U1.
    unfold deviation. set (f := fun x : Z => _). destruct (zero_norm (map f (repeat z n))) as [m [Em [Fm Bm]]].
    { apply Forall_forall. intros c Hc'. apply in_map_iff in Hc'. destruct Hc' as [x [<- Hx]]. apply repeat_spec in Hx. subst x. unfold f. cbv zeta.
      assert (Nn' : is_nan (fsub (of_int z : double) avg) = false) by (destruct (fsub (of_int z : double) avg); auto; discriminate). rewrite Nn'.
      eexists. split; [reflexivity|]. destruct (@convert_widen 53 1024 lp le _ _ _ _ _ Hl1 Hl2 U2) as [W1 W2]. rewrite W1, U1. auto. }
    { destruct n; [lia|discriminate]. }
    rewrite Em. cbn [bind]. rewrite repeat_length.
    destruct (fsqrt_ok (of_int (Z.of_nat n) : L) B2) as [Q1 Q2]; [rewrite B1; lra| |].
    { right. destruct (of_int (Z.of_nat n) : L) as [b|b| |[] mm ex Bd]; try discriminate B2; try reflexivity; cbn [B2R] in B1; try lra.
      exfalso. assert (X : F2R (Float radix2 (cond_Zopp true (Z.pos mm)) ex) < 0) by now apply F2R_lt_0. lra. }
    rewrite B1 in Q1. assert (Q3 : 1 <= B2R (fsqrt (of_int (Z.of_nat n) : L))).
    { rewrite Q1. rewrite <- (rnd_1 (prec := lp) (emax := le)). apply rnd_mono. rewrite <- sqrt_1. apply sqrt_le_1_alt. exact Nn. }
    destruct (fdiv_ok m (fsqrt (of_int (Z.of_nat n))) Fm) as [E1 E2]; [lra|rewrite Bm; unfold Rdiv; rewrite Rmult_0_l, rnd_0, Rabs_R0; apply bpow_gt_0|].
    rewrite Bm in E1. unfold Rdiv in E1. rewrite Rmult_0_l, rnd_0 in E1.
    destruct (@convert_round lp le 53 1024 _ _ (fdiv m (fsqrt (of_int (Z.of_nat n)))) E2) as [V1 V2]; [rewrite E1, rnd_0; exact big0|]. rewrite E1, rnd_0 in V1.
    set (dev := convert (fdiv m (fsqrt (of_int (Z.of_nat n)))) : double) in *.
    destruct (standard_ok (int_ty signed w : numty 53 1024 Z) true true avg dev G2 V2) as [s [Es [_ [_ Hx]]]]; [lra|].
    exists dev, s. split; [reflexivity|]. split; [exact V1|]. split; [exact Es|].
    specialize (Hx z eq_refl Z2). cbv zeta in Hx. cbn [int_ty n_cv] in Hx. rewrite Z1, G1, V1, Req_bool_true, R0 in Hx by reflexivity.
    unfold Rdiv in Hx. rewrite Rmult_0_l, rnd_0 in Hx. destruct (Hx big0 big0) as [X1 X2]. split; [exact X1|exact X2].
  Qed.
End Normalize.
