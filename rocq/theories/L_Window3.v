From Verif Require L_Archive.
From Verif Require Import Base M_Estimator M_Stats M_Pipeline M_Impute M_Window S_Stats S_Window L_List L_Stats L_Stats2 L_Impute L_Window.

(** ** Pivot *)
Section Pivot.
  Context {T : Type}.
  Implicit Types (ms : list (matrix T)).
  Lemma somes_cons : forall (x : T) l, somes (Some x :: l) = x :: somes l.
  Proof using Type. reflexivity. Qed.
  Lemma somes_app : forall (a b : list (option T)), somes (a ++ b) = somes a ++ somes b.
  Proof using Type. intros a b. unfold somes. apply flat_map_app. Qed.
  Lemma has_null_app : forall (a b : list (option T)), has_null (a ++ b) = has_null a || has_null b.
  Proof using Type. intros a b. unfold has_null. apply existsb_app. Qed.

  Lemma pivot_rows_ok : forall c (rows : list (list (option T))) acc, Forall (fun row => (c < length row)%nat) rows ->
    let l := map (fun row => nth c row None) rows in
    if has_null l then exists acc', pivot_rows rows c acc = Ok (false, acc')
    else pivot_rows rows c acc = Ok (true, acc ++ somes l).
  Proof using Type.
    intros c rows. induction rows as [|row r IH]; intros acc H l; cbn [map] in l.
    - cbn. now rewrite app_nil_r.
    - inversion H as [|? ? H1 H2]; subst. cbn [pivot_rows]. rewrite (nth_error_nth' row None H1). subst l.
      destruct (nth c row None) as [v|] eqn:E; cbn [has_null existsb orb].
      + specialize (IH (acc ++ [v]) H2). cbv zeta in IH. unfold has_null in IH |- *.
        destruct (existsb _ _) in IH |- *; [exact IH|]. rewrite IH, <- app_assoc. reflexivity.
      + eauto.
  Qed.

  Lemma pivot_matrices_ok : forall cols c ms rest acc, (c < cols)%nat -> Forall (fun m => fst m = cols) ms -> Forall matrix_ok ms ->
    if has_null (whole_column ms c) then exists acc', pivot_matrices (ms ++ rest) cols c acc = Ok (false, acc')
    else pivot_matrices (ms ++ rest) cols c acc = pivot_matrices rest cols c (acc ++ somes (whole_column ms c)).
  Proof using Type.
    intros cols c ms rest. induction ms as [|m r IH]; intros acc Hc H1 H2; cbn [app].
    - cbn. now rewrite app_nil_r.
    - inversion H1 as [|? ? A1 A2]; subst. inversion H2 as [|? ? B1 B2]; subst. cbn [pivot_matrices]. rewrite Nat.eqb_refl. cbn [negb].
      assert (R : Forall (fun row => (c < length row)%nat) (snd m)). { eapply Forall_impl; [|exact B1]. cbn. intros row ->. exact Hc. }
      pose proof (pivot_rows_ok c (snd m) acc R) as P. cbv zeta in P.
      change (whole_column (m :: r) c) with (map (fun row => nth c row None) (snd m) ++ whole_column r c).
      rewrite has_null_app, somes_app. destruct (has_null (map _ (snd m))); cbn [orb].
      + destruct P as [acc' ->]. exists acc'. reflexivity.
      + rewrite P. cbn [bind fst snd]. specialize (IH (acc ++ somes (map (fun row => nth c row None) (snd m))) Hc A2 B2).
        destruct (has_null (whole_column r c)); [exact IH|]. rewrite IH, app_assoc. reflexivity.
  Qed.

  Lemma pivot_cols_ok : forall ms cols todo, Forall (fun m => fst m = cols) ms -> Forall matrix_ok ms -> Forall (fun c => (c < cols)%nat) todo ->
    pivot_cols ms cols todo = (map (fun c => somes (whole_column ms c)) (filter (fun c => negb (has_null (whole_column ms c))) todo), Ok tt).
  Proof using Type.
    intros ms cols todo H1 H2. induction todo as [|c r IH]; intros H; [reflexivity|]. inversion H as [|? ? A B]; subst.
    cbn [pivot_cols filter]. pose proof (pivot_matrices_ok cols c ms [] [] A H1 H2) as P. rewrite app_nil_r in P.
    destruct (has_null (whole_column ms c)); cbn [negb map].
    - destruct P as [acc' ->]. now apply IH.
    - rewrite P. cbn [pivot_matrices app]. rewrite IH by exact B. reflexivity.
  Qed.
  Lemma pivot_spec : forall ms cols, ms <> [] -> Forall (fun m => fst m = cols) ms -> Forall matrix_ok ms ->
    pivot ms = (map (fun c => somes (whole_column ms c)) (filter (fun c => negb (has_null (whole_column ms c))) (seq 0 cols)), Ok tt).
  Proof using Type.
    intros [|m r] cols Hn H1 H2; [congruence|]. unfold pivot. assert (E : fst m = cols) by now inversion H1. rewrite E.
    apply pivot_cols_ok; auto. apply Forall_forall. intros c Hc. apply in_seq in Hc. lia.
  Qed.

  Lemma pivot_cols_bad : forall cols ms m rest todo, Forall (fun m => fst m = cols) ms -> Forall matrix_ok ms -> fst m <> cols ->
    Forall (fun c => (c < cols)%nat) todo ->
    pivot_cols (ms ++ m :: rest) cols todo =
      ([], if forallb (fun c => has_null (whole_column ms c)) todo then Ok tt else Throw InvalidArgument).
  Proof using Type.
    intros cols ms m rest todo H1 H2 Hm. induction todo as [|c r IH]; intros H; [reflexivity|]. inversion H as [|? ? A B]; subst.
    cbn [pivot_cols forallb]. pose proof (pivot_matrices_ok cols c ms (m :: rest) [] A H1 H2) as P.
    destruct (has_null (whole_column ms c)); cbn [andb].
    - destruct P as [acc' ->]. now apply IH.
    - rewrite P. cbn [pivot_matrices]. destruct (Nat.eqb_spec (fst m) cols); [contradiction|]. reflexivity.
  Qed.
  Lemma pivot_bad : forall cols ms m rest, ms <> [] -> Forall (fun m => fst m = cols) ms -> Forall matrix_ok ms -> fst m <> cols ->
    pivot (ms ++ m :: rest) = ([], if forallb (fun c => has_null (whole_column ms c)) (seq 0 cols) then Ok tt else Throw InvalidArgument).
  Proof using Type.
    intros cols [|m0 r] m rest Hn H1 H2 Hm; [congruence|]. cbn [app pivot]. assert (E : fst m0 = cols) by now inversion H1. rewrite E.
    change (m0 :: r ++ m :: rest) with ((m0 :: r) ++ m :: rest). apply pivot_cols_bad; auto.
    apply Forall_forall. intros c Hc. apply in_seq in Hc. lia.
  Qed.
End Pivot.

(** ** Short grains *)
Section Grains.
  Context {K : Type}.
  Variable eqb : K -> K -> bool.
  Hypothesis Heq : forall x y, eqb x y = true <-> x = y.

  Lemma sg_fit1_hist : forall m k, hist_fit eqb m k = Ok (sg_fit1 eqb m k).
  Proof using Type. intros m k. unfold hist_fit, sg_fit1, m_emplace. destruct (m_find eqb m k); reflexivity. Qed.
  Lemma sg_fit_foldM : forall l m, foldM (hist_fit eqb) m l = Ok (sg_fit eqb m l).
  Proof using Type.
    induction l as [|k l IH]; intros m; [reflexivity|]. cbn [foldM]. rewrite sg_fit1_hist. cbn [bind]. rewrite IH. reflexivity.
  Qed.
  Lemma sg_train_inv : forall bs l0 m, hist_inv eqb l0 m -> hist_inv eqb (l0 ++ concat bs) (fold_left (sg_fit eqb) bs m).
  Proof using Heq.
    induction bs as [|b bs IH]; intros l0 m H; cbn [concat fold_left]; [now rewrite app_nil_r|].
    rewrite app_assoc. apply IH. destruct (foldM_hist eqb Heq b l0 m H) as [h' [E I]]. rewrite sg_fit_foldM in E. injection E as <-. exact I.
  Qed.
  Lemma sg_spec : forall (batches : list (list K)) (m' : list (K * Z)) (min_points : Z) (rows : list K),
    Z.of_nat (length (concat batches)) < 2 ^ 32 -> 1 <= min_points -> Permutation (sg_train eqb batches) m' ->
    delivered (sg_drop eqb (sg_create min_points m')) rows = (map (fun g => occ eqb g (concat batches) <? min_points) rows, Ok tt).
  Proof using Heq.
    intros bs m' mp rows Hl Hm HP. unfold sg_drop. rewrite per_value_spec. f_equal. apply map_ext. intros g.
    assert (I0 : hist_inv eqb (concat bs) (sg_train eqb bs)).
    { apply (sg_train_inv bs [] []). split; [constructor|]. split; [cbn; tauto|discriminate]. }
    pose proof (hist_inv_perm eqb Heq _ _ _ HP I0) as (ND & HK & HC). pose proof (occ_le eqb Heq g (concat bs)) as Hocc.
    destruct (existsb (eqb g) (sg_create mp m')) eqn:E; cbn [negb].
    - apply existsb_exists in E. destruct E as [k [Hin He]]. apply Heq in He. subst k. unfold sg_create in Hin.
      apply in_map_iff in Hin. destruct Hin as [[k c] [<- Hf]]. apply filter_In in Hf. destruct Hf as [Hin Hc]. cbn [fst snd] in *.
      rewrite (HC k c) in Hc by now apply m_find_nodup. unfold u32 in Hc. rewrite Z.mod_small in Hc by lia. symmetry. apply Z.ltb_ge. lia.
    - symmetry. apply Z.ltb_lt. destruct (m_find eqb m' g) as [c|] eqn:F.
      + pose proof (HC g c F) as Hc. unfold u32 in Hc. rewrite Z.mod_small in Hc by lia. apply Z.lt_nge. intros Hge.
        assert (Ht : existsb (eqb g) (sg_create mp m') = true); [|congruence]. apply existsb_exists. exists g. split; [|now apply Heq].
        unfold sg_create. apply in_map_iff. exists (g, c). split; [reflexivity|]. apply filter_In. split; [now apply (m_find_in eqb Heq)|].
        cbn [snd]. lia.
      + apply (m_find_none eqb Heq) in F. rewrite HK in F. rewrite occ_zero by auto. lia.
  Qed.
End Grains.

(** ** Calculators *)
Section Calc.
  Context {T : Type}.
  Variable ltb : T -> T -> bool.
  Hypothesis Hasym : forall x y, ltb x y = true -> ltb y x = false.
  Hypothesis Hneg : forall x y z, ltb x y = false -> ltb y z = false -> ltb x z = false.

  Lemma min_fold : forall l m, let r := min_calc ltb m l in In r (m :: l) /\ forall x, In x (m :: l) -> ltb x r = false.
  Proof using Hasym Hneg.
    assert (Hirr : forall x, ltb x x = false). { intros x. destruct (ltb x x) eqn:E; [|reflexivity]. rewrite <- E. now apply Hasym. }
    unfold min_calc. induction l as [|y l IH]; intros m; cbn [fold_left].
    - split; [now left|]. intros x [<- |[]]. apply Hirr.
    - destruct (IH (if ltb y m then y else m)) as [A B]. split.
      + destruct A as [A|A]; [|now right; right]. destruct (ltb y m); rewrite <- A; cbn; auto.
      + intros x Hx. assert (HB := B _ (or_introl eq_refl)). destruct (ltb y m) eqn:E.
        * destruct Hx as [<- |[<- |Hx]]; [|exact HB|apply B; now right]. apply Hneg with y; [now apply Hasym|exact HB].
        * destruct Hx as [<- |[<- |Hx]]; [exact HB| |apply B; now right]. apply Hneg with m; [exact E|exact HB].
  Qed.
  Lemma max_fold : forall l m, let r := max_calc ltb m l in In r (m :: l) /\ forall x, In x (m :: l) -> ltb r x = false.
  Proof using Hasym Hneg.
    assert (Hirr : forall x, ltb x x = false). { intros x. destruct (ltb x x) eqn:E; [|reflexivity]. rewrite <- E. now apply Hasym. }
    unfold max_calc. induction l as [|y l IH]; intros m; cbn [fold_left].
    - split; [now left|]. intros x [<- |[]]. apply Hirr.
    - destruct (IH (if ltb m y then y else m)) as [A B]. split.
      + destruct A as [A|A]; [|now right; right]. destruct (ltb m y); rewrite <- A; cbn; auto.
      + intros x Hx. assert (HB := B _ (or_introl eq_refl)). destruct (ltb m y) eqn:E.
        * destruct Hx as [<- |[<- |Hx]]; [|exact HB|apply B; now right]. apply Hneg with y; [exact HB|now apply Hasym].
        * destruct Hx as [<- |[<- |Hx]]; [exact HB| |apply B; now right]. apply Hneg with m; [exact HB|exact E].
  Qed.
  (** The limit itself is only returned if it ties with a value. *)
  Lemma min_calc_spec : forall limit l, l <> [] -> (forall x, In x l -> ltb limit x = false) ->
    (forall x, In x l -> ltb x (min_calc ltb limit l) = false) /\ (exists x, In x l /\ ltb x (min_calc ltb limit l) = false /\ ltb (min_calc ltb limit l) x = false).
  Proof using Hasym Hneg.
    intros limit l Hn Hlim. destruct (min_fold l limit) as [A B]. split; [intros x Hx; apply B; now right|].
    destruct A as [A|A].
    - rewrite <- A in *. destruct l as [|x l]; [congruence|]. exists x. split; [now left|]. split; [apply B; cbn; auto|apply Hlim; now left].
    - exists (min_calc ltb limit l). repeat split; auto; apply B; now right.
  Qed.
  Lemma max_calc_spec : forall limit l, l <> [] -> (forall x, In x l -> ltb x limit = false) ->
    (forall x, In x l -> ltb (max_calc ltb limit l) x = false) /\ (exists x, In x l /\ ltb x (max_calc ltb limit l) = false /\ ltb (max_calc ltb limit l) x = false).
  Proof using Hasym Hneg.
    intros limit l Hn Hlim. destruct (max_fold l limit) as [A B]. split; [intros x Hx; apply B; now right|].
    destruct A as [A|A].
    - rewrite <- A in *. destruct l as [|x l]; [congruence|]. exists x. split; [now left|]. split; [apply Hlim; now left|apply B; cbn; auto].
    - exists (max_calc ltb limit l). repeat split; auto; apply B; now right.
  Qed.
  Lemma max_below : forall limit l, (forall x, In x l -> ltb x limit = true) -> max_calc ltb limit l = limit.
  Proof using Hasym.
    intros limit l H. unfold max_calc. induction l as [|x l IH]; [reflexivity|]. cbn [fold_left].
    rewrite (Hasym x limit) by (apply H; now left). apply IH. intros; apply H; now right.
  Qed.
End Calc.

Lemma two_pow8_even : forall w, (1 <= w)%nat -> two_pow8 w = 2 * (two_pow8 w / 2) /\ 0 < two_pow8 w / 2.
Proof.
  intros [|w] H; [lia|]. assert (E : two_pow8 (S w) = 2 * (128 * two_pow8 w)).
  { rewrite L_Archive.two_pow8_S. lia. }
  pose proof (L_Archive.two_pow8_pos w).
  rewrite E. rewrite (Z.mul_comm 2), Z.div_mul by lia. lia.
Qed.
Lemma to_s_fits : forall w v, (1 <= w)%nat -> fits_s w v = true -> to_s w v = v.
Proof.
  intros w v Hw H. destruct (two_pow8_even w Hw) as [E P]. unfold fits_s in H. unfold to_s. set (h := two_pow8 w / 2) in *. rewrite E.
  assert (- h <= v < h) by lia. destruct (Z.lt_ge_cases v 0).
  - replace v with (v + 2 * h + (-1) * (2 * h)) at 1 by lia. rewrite Z.mod_add by lia. rewrite Z.mod_small by lia.
    replace (v mod (2 * h)) with (v + 2 * h). 2:{ replace v with (v + 2 * h + (-1) * (2 * h)) at 2 by lia. rewrite Z.mod_add by lia. rewrite Z.mod_small; lia. }
    destruct (Z.ltb_spec (v + 2 * h) h); lia.
  - rewrite Z.mod_small by lia. destruct (Z.ltb_spec v h); lia.
Qed.
Lemma int_add_ok : forall signed w a b, (1 <= w)%nat -> fits signed w (a + b) = true -> int_add signed w a b = Ok (a + b).
Proof.
  intros [] w a b Hw H; unfold int_add; cbn [fits] in H.
  - rewrite H, to_s_fits by auto. now destruct (Nat.ltb w 4).
  - unfold to_u. unfold fits_u in H. rewrite Z.mod_small by lia. reflexivity.
Qed.
Lemma sum_fold_ok : forall signed w l a, (1 <= w)%nat -> (forall p, prefix p l -> fits signed w (a + zsum p) = true) ->
  foldM (int_add signed w) a l = Ok (a + zsum l).
Proof.
  intros signed w l. induction l as [|x l IH]; intros a Hw H; cbn [foldM zsum fold_right]; [f_equal; lia|].
  rewrite int_add_ok; auto.
  - cbn [bind]. rewrite IH; auto; [f_equal; unfold zsum; lia|]. intros p [r ->]. specialize (H (x :: p) (ex_intro _ r eq_refl)).
    cbn [zsum fold_right] in H. fold (zsum p) in H. rewrite <- Z.add_assoc. exact H.
  - specialize (H [x] (ex_intro _ l eq_refl)). cbn in H. rewrite Z.add_0_r in H. exact H.
Qed.
Lemma mean_ok : forall (D : Type) (zero : D) (div : Z -> Z -> D) signed w l, (1 <= w)%nat -> l <> [] ->
  (forall p, prefix p l -> fits signed w (zsum p) = true) ->
  mean_calc zero div signed w l = Ok (div (zsum l) (Z.of_nat (length l))).
Proof.
  intros D zero div signed w l Hw Hn H. unfold mean_calc. destruct l as [|x l]; [congruence|]. remember (x :: l) as k eqn:Ek. clear Ek Hn x l.
  unfold sum_calc. rewrite sum_fold_ok by (auto; exact H). cbn [bind].
  rewrite int_add_ok; auto. apply (H k). exists []. now rewrite app_nil_r.
Qed.
(** Windows that do not wrap. *)
Lemma rolling_rejects : forall (I O : Type) (calc : list I -> res O) (null : O) h mx mn,
  (h = 0 \/ mx = 0 \/ mn = 0 \/ mx < mn)%nat -> rolling_window calc null h mx mn = Throw InvalidArgument.
Proof.
  intros I O calc null h mx mn H. unfold rolling_window. destruct (Nat.ltb_spec h 1); [reflexivity|]. destruct (Nat.ltb_spec mx 1); [reflexivity|].
  destruct (Nat.ltb_spec mn 1); [reflexivity|]. destruct (Nat.ltb_spec mx mn); [reflexivity|]. lia.
Qed.
Lemma rolling_wrap : forall (I O : Type) (calc : list I -> res O) (null : O) h mx mn, Z.of_nat (h + mx) = 2 ^ 32 ->
  rolling_window calc null h mx mn = Throw InvalidArgument.
Proof.
  intros I O calc null h mx mn H. unfold rolling_window. destruct (Nat.ltb h 1); [reflexivity|]. destruct (Nat.ltb mx 1); [reflexivity|].
  destruct (Nat.ltb mn 1); [reflexivity|]. destruct (Nat.ltb mx mn); [reflexivity|].
  replace (u32 (Z.of_nat h + Z.of_nat mx)) with 0; [reflexivity|]. unfold u32. replace (Z.of_nat h + Z.of_nat mx) with 4294967296 by lia. reflexivity.
Qed.
