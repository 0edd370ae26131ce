From Verif Require Import Base L_List M_Estimator M_Stats S_Stats L_Estimator L_Stats L_Stats2.

(** ** Frequencies *)

Lemma gaps_cons a b r : gaps (a :: b :: r) = (b - a) :: gaps (b :: r).
Proof. reflexivity. Qed.

Lemma freq_fold l : forall f a, (forall g, In g (gaps (a :: l)) -> 0 < g <= i64_max) ->
  exists f' last, foldM freq_fit (f, Some a) l = Ok (f', Some last) /\ f' = fold_right Z.min f (gaps (a :: l)).
Proof.
  induction l as [|b r IH]; intros f a H.
  - exists f, a. split; reflexivity.
  - cbn [foldM]. unfold freq_fit at 1. cbn [fst snd].
    assert (Hg : 0 < b - a <= i64_max) by (apply H; rewrite gaps_cons; now left).
    assert (in_i64 (b - a) = true) by (unfold in_i64, i64_min, i64_max in *; lia).
    destruct (Z.leb_spec b a); [lia|]. rewrite H0. cbn [negb bind].
    set (f1 := if b - a <=? f then b - a else f).
    destruct (IH f1 b) as (f' & last & E & Ef).
    { intros g Hin. apply H. rewrite gaps_cons. now right. }
    exists f', last. split; [exact E|]. rewrite Ef, gaps_cons. cbn [fold_right].
    assert (G : forall z w s, fold_right Z.min (Z.min z w) s = Z.min z (fold_right Z.min w s)).
    { induction s as [|y s IHs]; cbn; [reflexivity|]. rewrite IHs. lia. }
    rewrite <- G. f_equal. unfold f1. destruct (Z.leb_spec (b - a) f); lia.
Qed.
Lemma fold_min_least l d : least (fold_right Z.min d l) (d :: l).
Proof.
  induction l as [|x r [IH1 IH2]]; cbn; [split; cbn; [auto|intros g [<-|[]]; lia]|].
  split.
  - cbn in *. destruct (Z.min_spec x (fold_right Z.min d r)) as [[_ ->]|[_ ->]]; tauto.
  - intros g Hg. cbn in *. destruct Hg as [<-|[<-|Hg]].
    + specialize (IH2 d (or_introl eq_refl)). lia.
    + lia.
    + specialize (IH2 g (or_intror Hg)). lia.
Qed.

Lemma freq_spec mx bs : proper_training mx bs ->
  (forall g, In g (gaps (items mx bs)) -> 0 < g < i64_max) ->
  (gaps (items mx bs) = [] -> trained freq_policy mx bs = Throw RuntimeError) /\
  (gaps (items mx bs) <> [] -> exists f, trained freq_policy mx bs = Ok (Some f) /\ least f (gaps (items mx bs))).
Proof.
  intros H B. unfold freq_policy. rewrite trained_simple by exact H.
  destruct (items mx bs) as [|a l] eqn:E; [split; [reflexivity|cbn; congruence]|].
  cbn [foldM]. unfold freq_fit at 1 3. cbn [snd bind fst].
  destruct (freq_fold l i64_max a) as (f & last & -> & Ef).
  { intros g Hg. specialize (B g Hg). lia. }
  cbn [bind fst]. pose proof (fold_min_least (gaps (a :: l)) i64_max) as [L1 L2]. rewrite <- Ef in L1, L2. clear Ef.
  destruct (gaps (a :: l)) as [|g0 gs] eqn:Eg.
  - split; [|congruence]. intros _. destruct L1 as [<-|[]]. reflexivity.
  - split; [congruence|]. intros _.
    assert (Hf : In f (g0 :: gs)).
    { destruct L1 as [<-|L1]; [|exact L1]. specialize (L2 g0 (or_intror (or_introl eq_refl))).
      specialize (B g0 (or_introl eq_refl)). lia. }
    specialize (B f Hf). destruct (Z.eqb_spec f i64_max); [lia|]. cbn [bind].
    exists f. split; [reflexivity|]. split; [exact Hf|]. intros g Hg. apply L2. now right.
Qed.
Lemma freq_bad_fold l : forall f a, (forall g, In g (gaps (a :: l)) -> g <= i64_max) ->
  (exists g, In g (gaps (a :: l)) /\ g <= 0) -> foldM freq_fit (f, Some a) l = Throw RuntimeError.
Proof.
  induction l as [|b r IH]; intros f a H [g [Hg Hle]]; [contradiction|].
  cbn [foldM]. unfold freq_fit at 1. cbn [fst snd]. destruct (Z.leb_spec b a); [reflexivity|].
  assert (Hg1 : b - a <= i64_max) by (apply H; rewrite gaps_cons; now left).
  assert (H1 : in_i64 (b - a) = true) by (unfold in_i64, i64_min, i64_max in *; lia). rewrite H1. cbn [negb bind].
  apply IH; [intros g' Hg'; apply H; rewrite gaps_cons; now right|].
  exists g. split; [|exact Hle]. rewrite gaps_cons in Hg. destruct Hg as [<-|Hg]; [lia|exact Hg].
Qed.
Lemma freq_bad mx bs : proper_training mx bs ->
  (forall g, In g (gaps (items mx bs)) -> g <= i64_max) ->
  (exists g, In g (gaps (items mx bs)) /\ g <= 0) -> trained freq_policy mx bs = Throw RuntimeError.
Proof.
  intros H B Hg. unfold freq_policy. rewrite trained_simple by exact H.
  destruct (items mx bs) as [|a l] eqn:E; [destruct Hg as (g & [] & _)|].
  cbn [foldM]. unfold freq_fit at 1. cbn [snd bind fst]. now rewrite freq_bad_fold.
Qed.

Section TS.
  Context {K : Type}.
  Variable keqb : K -> K -> bool.
  Hypothesis Hk : forall x y, keqb x y = true <-> x = y.

  Lemma grain_app k a b : grain keqb k (a ++ b) = grain keqb k a ++ grain keqb k b.
  Proof. unfold grain. now rewrite filter_app, map_app. Qed.
  Lemma gaps_snoc l t : gaps (l ++ [t]) = gaps l ++ match rev l with [] => [] | y :: _ => [t - y] end.
  Proof.
    induction l as [|x [|y r] IH]; [reflexivity|reflexivity|].
    cbn [app] in *. rewrite !gaps_cons, IH. cbn [rev app].
    destruct (rev (y :: r)) as [|z s] eqn:E; [apply (f_equal (@rev Z)) in E; rewrite rev_involutive in E; discriminate|].
    cbn [rev] in E. rewrite E. reflexivity.
  Qed.
  Definition all_gap (rows : list (K * Z)) (g : Z) : Prop := exists k, In g (gaps (grain keqb k rows)).
  Definition ts_inv (rows : list (K * Z)) (s : Z * list (K * Z)) :=
    (forall k, m_find keqb (snd s) k = hd_error (rev (grain keqb k rows))) /\
    (forall g, all_gap rows g -> fst s <= g) /\ (fst s = i64_max \/ all_gap rows (fst s)).
  Lemma all_gap_snoc rows k t g : all_gap (rows ++ [(k, t)]) g <->
    all_gap rows g \/ (exists y, hd_error (rev (grain keqb k rows)) = Some y /\ g = t - y).
  Proof.
    unfold all_gap. split.
    - intros [k' H]. rewrite grain_app in H. unfold grain in H at 2. cbn in H. destruct (keqb k' k) eqn:E.
      + apply Hk in E. subst k'. cbn in H. rewrite gaps_snoc in H. apply in_app_iff in H. destruct H as [H|H]; [left; now exists k|].
        right. destruct (rev (grain keqb k rows)) as [|y r]; [contradiction|]. exists y. split; [reflexivity|]. destruct H as [<-|[]]. reflexivity.
      + rewrite app_nil_r in H. left. now exists k'.
    - intros [[k' H]|[y [H ->]]].
      + exists k'. rewrite grain_app. unfold grain at 2. cbn. destruct (keqb k' k); [|now rewrite app_nil_r].
        cbn. rewrite gaps_snoc, in_app_iff. now left.
      + exists k. rewrite grain_app. unfold grain at 2. cbn. rewrite (proj2 (Hk k k) eq_refl). cbn. rewrite gaps_snoc, in_app_iff. right.
        destruct (rev (grain keqb k rows)); [discriminate|]. injection H as ->. now left.
  Qed.
  Lemma ts_step rows s k t : ts_inv rows s -> (forall g, all_gap (rows ++ [(k, t)]) g -> 0 < g <= i64_max) ->
    exists s', tsfreq_fit keqb s (k, t) = Ok s' /\ ts_inv (rows ++ [(k, t)]) s'.
  Proof.
    intros (A & B & C) G. unfold tsfreq_fit. rewrite A.
    assert (Hlast : forall k' m, (forall k0, m_find keqb m k0 = if keqb k k0 then Some t else m_find keqb (snd s) k0) ->
              m_find keqb m k' = hd_error (rev (grain keqb k' (rows ++ [(k, t)])))).
    { intros k' m Hm. rewrite Hm, grain_app. unfold grain at 2. cbn. rewrite rev_app_distr.
      destruct (keqb k k') eqn:E.
      - apply Hk in E. subst. rewrite (proj2 (Hk k' k') eq_refl). reflexivity.
      - rewrite (eqb_neq keqb Hk k' k); [apply A|]. intros ->. rewrite (proj2 (Hk k k) eq_refl) in E. discriminate. }
    destruct (hd_error (rev (grain keqb k rows))) as [y|] eqn:E.
    - assert (Gy : 0 < t - y <= i64_max) by (apply G, all_gap_snoc; right; now exists y).
      destruct (Z.leb_spec t y); [lia|].
      assert (X : in_i64 (t - y) = true) by (unfold in_i64, i64_min, i64_max in *; lia). rewrite X. cbn [negb].
      eexists. split; [reflexivity|]. split; [|split].
      + intros k'. apply Hlast. intros k0. cbn [snd]. rewrite (m_update_find keqb Hk).
        destruct (keqb k k0) eqn:E0; [|reflexivity]. apply Hk in E0. subst. rewrite A, E. reflexivity.
      + intros g Hg. apply all_gap_snoc in Hg. cbn [fst]. destruct Hg as [Hg|(y' & Hy & ->)].
        * specialize (B g Hg). destruct (Z.leb_spec (t - y) (fst s)); lia.
        * rewrite E in Hy. injection Hy as <-. destruct (Z.leb_spec (t - y) (fst s)); lia.
      + cbn [fst]. destruct (Z.leb_spec (t - y) (fst s)).
        * right. apply all_gap_snoc. right. now exists y.
        * destruct C as [C|C]; [now left|right]. apply all_gap_snoc. now left.
    - eexists. split; [reflexivity|]. split; [|split].
      + intros k'. apply Hlast. intros k0. cbn [snd]. rewrite (m_emplace_find keqb Hk).
        destruct (keqb k k0) eqn:E0.
        * apply Hk in E0. subst. now rewrite A, E.
        * now destruct (m_find keqb (snd s) k0).
      + intros g Hg. apply all_gap_snoc in Hg. destruct Hg as [Hg|(y' & Hy & ->)]; [now apply B|congruence].
      + cbn [fst]. destruct C as [C|C]; [now left|right]. apply all_gap_snoc. now left.
  Qed.
  Lemma all_gap_mono a b g : all_gap a g -> all_gap (a ++ b) g.
  Proof.
    intros H. induction b as [|[k t] b IH] using rev_ind; [now rewrite app_nil_r|].
    rewrite app_assoc. apply all_gap_snoc. now left.
  Qed.
  Lemma ts_fold rows : forall pre s, ts_inv pre s -> (forall g, all_gap (pre ++ rows) g -> 0 < g <= i64_max) ->
    exists s', foldM (tsfreq_fit keqb) s rows = Ok s' /\ ts_inv (pre ++ rows) s'.
  Proof.
    induction rows as [|[k t] r IH]; intros pre s I G.
    - exists s. split; [reflexivity|now rewrite app_nil_r].
    - destruct (ts_step pre s k t I) as (s1 & E1 & I1).
      { intros g Hg. apply G. replace (pre ++ (k, t) :: r) with ((pre ++ [(k, t)]) ++ r) by now rewrite <- app_assoc.
        now apply all_gap_mono. }
      cbn [foldM]. rewrite E1. cbn [bind].
      destruct (IH _ _ I1) as (s2 & E2 & I2); [rewrite <- app_assoc; exact G|].
      exists s2. split; [exact E2|]. now rewrite <- app_assoc in I2.
  Qed.
  Lemma tsfreq_spec mx bs : proper_training mx bs ->
    (forall k g, In g (gaps (grain keqb k (items mx bs))) -> 0 < g < i64_max) ->
    exists f, trained (tsfreq_policy keqb) mx bs = Ok (Some f) /\
      ((f = i64_max /\ forall k, gaps (grain keqb k (items mx bs)) = []) \/
       ((exists k, In f (gaps (grain keqb k (items mx bs)))) /\ forall k g, In g (gaps (grain keqb k (items mx bs))) -> f <= g)).
  Proof.
    intros H B. unfold tsfreq_policy. rewrite trained_simple by exact H.
    destruct (ts_fold (items mx bs) [] (i64_max, [])) as (s & -> & I1 & I2 & I3).
    { split; [reflexivity|]. split; [intros g [k []]|now left]. }
    { intros g [k Hg]. specialize (B k g Hg). lia. }
    cbn [bind app] in *. exists (fst s). split; [reflexivity|].
    destruct I3 as [I3|I3].
    - left. split; [exact I3|]. intros k. destruct (gaps (grain keqb k (items mx bs))) as [|g r] eqn:E; [reflexivity|].
      assert (Hg : In g (gaps (grain keqb k (items mx bs)))) by (rewrite E; now left).
      specialize (B k g Hg). specialize (I2 g (ex_intro _ k Hg)). lia.
    - right. split; [exact I3|]. intros k g Hg. apply I2. now exists k.
  Qed.
  Lemma ts_bad_fold rows : forall pre s, ts_inv pre s -> (forall g, all_gap (pre ++ rows) g -> g <= i64_max) ->
    (forall g, all_gap pre g -> 0 < g) ->
    (exists g, all_gap (pre ++ rows) g /\ g <= 0) -> foldM (tsfreq_fit keqb) s rows = Throw RuntimeError.
  Proof.
    induction rows as [|[k t] r IH]; intros pre s I G P (g & Hg & Hle).
    - rewrite app_nil_r in Hg. specialize (P g Hg). lia.
    - assert (App : pre ++ (k, t) :: r = (pre ++ [(k, t)]) ++ r) by now rewrite <- app_assoc.
      cbn [foldM]. destruct (hd_error (rev (grain keqb k pre))) as [y|] eqn:E.
      + destruct (Z.leb_spec t y) as [Hty|Hty].
        * unfold tsfreq_fit at 1. destruct I as (A & _). rewrite A, E. destruct (Z.leb_spec t y); [reflexivity|lia].
        * assert (Hpos : forall g, all_gap (pre ++ [(k, t)]) g -> 0 < g).
          { intros g' Hg'. apply all_gap_snoc in Hg'. destruct Hg' as [Hg'|(y' & Hy & ->)]; [now apply P|].
            rewrite E in Hy. injection Hy as <-. lia. }
          destruct (ts_step pre s k t I) as (s1 & E1 & I1).
          { intros g' Hg'. split; [now apply Hpos|]. apply G. rewrite App. now apply all_gap_mono. }
          rewrite E1. cbn [bind]. apply (IH _ _ I1); [rewrite <- App; exact G|exact Hpos|].
          exists g. split; [rewrite <- App; exact Hg|exact Hle].
      + assert (Hpos : forall g, all_gap (pre ++ [(k, t)]) g -> 0 < g).
        { intros g' Hg'. apply all_gap_snoc in Hg'. destruct Hg' as [Hg'|(y' & Hy & ->)]; [now apply P|congruence]. }
        destruct (ts_step pre s k t I) as (s1 & E1 & I1).
        { intros g' Hg'. split; [now apply Hpos|]. apply G. rewrite App. now apply all_gap_mono. }
        rewrite E1. cbn [bind]. apply (IH _ _ I1); [rewrite <- App; exact G|exact Hpos|].
        exists g. split; [rewrite <- App; exact Hg|exact Hle].
  Qed.
  Lemma tsfreq_bad mx bs : proper_training mx bs ->
    (forall k g, In g (gaps (grain keqb k (items mx bs))) -> g <= i64_max) ->
    (exists k g, In g (gaps (grain keqb k (items mx bs))) /\ g <= 0) ->
    trained (tsfreq_policy keqb) mx bs = Throw RuntimeError.
  Proof.
    intros H B (k & g & Hg & Hle). unfold tsfreq_policy. rewrite trained_simple by exact H.
    rewrite (ts_bad_fold (items mx bs) [] (i64_max, [])); [reflexivity| | | |].
    - split; [reflexivity|]. split; [intros g' [k' []]|now left].
    - intros g' [k' Hg']. now apply (B k').
    - intros g' [k' []].
    - exists g. split; [now exists k|exact Hle].
  Qed.
End TS.

Lemma global_min_fold fs : forall a, least (fold_left (fun a f => if f <? a then f else a) fs a) (a :: fs).
Proof.
  induction fs as [|f r IH]; intros a; cbn [fold_left].
  - split; [now left|]. intros g [<-|[]]; lia.
  - destruct (IH (if f <? a then f else a)) as [L1 L2]. split.
    + destruct L1 as [L1|L1]; [|cbn; auto]. rewrite <- L1. destruct (f <? a); cbn; auto.
    + intros g Hg. pose proof (L2 _ (or_introl eq_refl)) as X.
      destruct Hg as [<-|[<-|Hg]]; [| |apply L2; now right]; destruct (Z.ltb_spec f a); lia.
Qed.
Lemma global_min_spec fs : (forall f, In f fs -> f < i64_max) ->
  (fs = [] /\ global_min_freq fs = i64_max) \/ least (global_min_freq fs) fs.
Proof.
  intros H. destruct fs as [|f r]; [now left|]. right. unfold global_min_freq.
  destruct (global_min_fold (f :: r) i64_max) as [L1 L2]. split.
  - destruct L1 as [L1|L1]; [|exact L1]. exfalso.
    specialize (L2 f (or_intror (or_introl eq_refl))). specialize (H f (or_introl eq_refl)). lia.
  - intros g Hg. apply L2. now right.
Qed.

(** ** Sums *)
Lemma zsum_app a b : zsum (a ++ b) = zsum a + zsum b.
Proof. induction a as [|x r IH]; cbn in *; [reflexivity|]. unfold zsum in *. lia. Qed.

Lemma to_s_id x : in_i64 x = true -> to_s 8 x = x.
Proof.
  unfold in_i64, i64_min, i64_max, to_s. change (two_pow8 8) with 18446744073709551616. intros H.
  change (18446744073709551616 / 2) with 9223372036854775808.
  destruct (Z.ltb_spec (x mod 18446744073709551616) 9223372036854775808) as [L|L];
    destruct (Z.lt_ge_cases x 0) as [Hx|Hx].
  - exfalso. rewrite <- (Z_mod_plus_full x 1) in L. rewrite Z.mod_small in L; lia.
  - rewrite Z.mod_small; lia.
  - rewrite <- (Z_mod_plus_full x 1). rewrite Z.mod_small; lia.
  - rewrite Z.mod_small in L; lia.
Qed.

Definition z_irr := Z.ltb_irrefl.
Lemma z_tr x y z : (x <? y) = true -> (y <? z) = true -> (x <? z) = true. Proof. lia. Qed.
Lemma z_tot x y : (x <? y) = false -> (y <? x) = false -> x = y. Proof. lia. Qed.

Lemma std_step l s x : basic_inv Z.ltb l (fst s) -> snd s = zsum l -> in_i64 (zsum l) = true -> in_i64 x = true ->
  Z.of_nat (length l) < 2 ^ 64 - 1 ->
  if in_i64 (zsum (l ++ [x])) then exists s', std_update s x = Ok s' /\ basic_inv Z.ltb (l ++ [x]) (fst s') /\ snd s' = zsum (l ++ [x])
  else std_update s x = Throw RuntimeError.
Proof.
  intros I E S X L. unfold std_update.
  destruct (basic_step Z.ltb z_irr z_tr z_tot l (fst s) x I L) as (b & -> & Ib). cbn [bind].
  unfold i64_cast. rewrite to_s_id by exact X. rewrite E, zsum_app.
  replace (zsum [x]) with x by (cbn; lia).
  assert (X1 : (0 <? x) && negb (in_i64 (i64_max - x)) = false) by (unfold in_i64, i64_min, i64_max in *; lia).
  assert (X2 : (x <? 0) && negb (in_i64 (i64_min - x)) = false) by (unfold in_i64, i64_min, i64_max in *; lia).
  rewrite X1, X2.
  destruct (in_i64 (zsum l + x)) eqn:F.
  - assert (Y1 : (0 <? x) && (i64_max - x <? zsum l) = false) by (unfold in_i64, i64_min, i64_max in *; lia).
    assert (Y2 : (x <? 0) && (zsum l <? i64_min - x) = false) by (unfold in_i64, i64_min, i64_max in *; lia).
    rewrite Y1, Y2. cbn [negb]. eexists. split; [reflexivity|]. split; [exact Ib|reflexivity].
  - destruct ((0 <? x) && (i64_max - x <? zsum l)) eqn:Y1; [reflexivity|].
    destruct ((x <? 0) && (zsum l <? i64_min - x)) eqn:Y2; [reflexivity|].
    unfold in_i64, i64_min, i64_max in *. lia.
Qed.
Definition std_fit (s : stats_state (T := Z) * Z) (x : option Z) := match x with None => Ok s | Some v => std_update s v end.
Lemma std_fold d : forall l s, basic_inv Z.ltb l (fst s) -> snd s = zsum l -> in_i64 (zsum l) = true ->
  Forall (fun x => in_i64 x = true) (somes d) -> Z.of_nat (length l + length (somes d)) < 2 ^ 64 ->
  (exists s', foldM std_fit s d = Ok s' /\
     basic_inv Z.ltb (l ++ somes d) (fst s') /\ snd s' = zsum (l ++ somes d) /\
     forall p, prefix p (somes d) -> in_i64 (zsum (l ++ p)) = true)
  \/ (foldM std_fit s d = Throw RuntimeError /\
      exists p, prefix p (somes d) /\ in_i64 (zsum (l ++ p)) = false).
Proof.
  induction d as [|[v|] r IH]; intros l s I E S F L.
  - left. exists s. cbn. rewrite app_nil_r. repeat split; try apply I; try assumption.
    intros p [q Hq]. symmetry in Hq. apply app_eq_nil in Hq. destruct Hq as [-> _]. now rewrite app_nil_r.
  - cbn [somes flat_map app] in *. fold (somes r) in *. inversion F; subst. cbn [length] in L.
    cbn [foldM]. unfold std_fit at 1 3.
    pose proof (std_step l s v I E S H1 ltac:(lia)) as X.
    destruct (in_i64 (zsum (l ++ [v]))) eqn:Y.
    + destruct X as (s1 & -> & I1 & E1). cbn [bind].
      destruct (IH (l ++ [v]) s1 I1 E1 Y H2) as [(s2 & A & B & C & D)|(A & p & [q B] & C)].
      { rewrite app_length. cbn [length]. lia. }
      * left. exists s2. rewrite <- app_assoc in B, C. cbn [app] in B, C. repeat split; try assumption; try apply B.
        intros p [q Hq]. destruct p as [|v' p]; [rewrite app_nil_r; exact S|]. injection Hq as <- Hq.
        specialize (D p (ex_intro _ q Hq)). now rewrite <- app_assoc in D.
      * right. split; [exact A|]. exists (v :: p). split; [exists q; cbn; now rewrite B|]. now rewrite <- app_assoc in C.
    + right. rewrite X. split; [reflexivity|]. exists [v]. split; [now exists (somes r)|exact Y].
  - cbn [foldM]. unfold std_fit at 1 3. cbn [bind somes flat_map app]. apply IH; assumption.
Qed.
Lemma std_spec mx bs : proper_training mx bs -> Z.of_nat (length (somes (items mx bs))) < 2 ^ 64 ->
  Forall (fun x => in_i64 x = true) (somes (items mx bs)) ->
  let l := somes (items mx bs) in
  (l = [] -> trained std_stats_policy mx bs = Throw RuntimeError) /\
  (l <> [] -> (forall p, prefix p l -> in_i64 (zsum p) = true) ->
     exists mn mxv, trained std_stats_policy mx bs = Ok (Some (mn, mxv, Z.of_nat (length l), zsum l)) /\ is_min Z.ltb mn l /\ is_max Z.ltb mxv l) /\
  (forall p, prefix p l -> in_i64 (zsum p) = false -> trained std_stats_policy mx bs = Throw RuntimeError).
Proof.
  intros H L F l. unfold std_stats_policy. rewrite trained_simple by exact H.
  change (foldM _ ((None, 0), 0) (items mx bs)) with (foldM std_fit ((None, 0), 0) (items mx bs)).
  destruct (std_fold (items mx bs) [] ((None, 0), 0)) as [(s & Er & I & E & D)|(Er & p & A & B)];
    [split; reflexivity|reflexivity|reflexivity|exact F|exact L| |].
  - cbn [app] in *. rewrite Er. cbn [bind]. destruct I as (I1 & I2). fold l in I1, I2, E, D.
    destruct s as [[mm c] sm]. cbn [fst snd] in *. unfold basic_commit. cbn [fst snd]. subst c sm.
    repeat split.
    + intros ->. reflexivity.
    + intros Ne _. destruct (Z.eqb_spec (Z.of_nat (length l)) 0) as [X|_].
      { exfalso. apply Ne. apply length_zero_iff_nil. lia. }
      destruct mm as [[a b]|]; [|contradiction]. destruct I2 as [[J1 J2] [J3 J4]].
      rewrite (J2 b J3). cbn [bind]. exists a, b. split; [reflexivity|]. split; split; assumption.
    + intros p Hp Hb. rewrite (D p Hp) in Hb. discriminate.
  - cbn [app] in *. rewrite Er. cbn [bind]. repeat split.
    intros _ G. rewrite (G p A) in B. discriminate.
Qed.

(** ** Greatest absolute value *)
Section MaxAbs.
  Context {F : Type}.
  Variables (w : nat) (conv : Z -> F) (lt : F -> F -> bool).
  Hypothesis Hirr : forall x, lt x x = false.
  Hypothesis Htot : forall x y, lt x y = false -> lt y x = false -> x = y.
  Hypothesis Hmono : forall a b, a <= b -> lt (conv b) (conv a) = false.
  Lemma maxabs_fold l : forall m, Forall (fun x => fits_s w (Z.abs x) = true) l ->
    foldM (maxabs_fit w conv lt) (conv m) l = Ok (conv (fold_left Z.max (map Z.abs l) m)).
  Proof.
    induction l as [|x r IH]; intros m H; [reflexivity|]. inversion H; subst. cbn [foldM map fold_left].
    assert (S : maxabs_fit w conv lt (conv m) x = Ok (conv (Z.max m (Z.abs x)))).
    { unfold maxabs_fit.
      assert (G : (if lt (conv m) (conv (Z.abs x)) then conv (Z.abs x) else conv m) = conv (Z.max m (Z.abs x))).
      { destruct (lt (conv m) (conv (Z.abs x))) eqn:E.
        - rewrite Z.max_r; [reflexivity|]. destruct (Z.le_gt_cases m (Z.abs x)); [assumption|].
          rewrite Hmono in E; [discriminate|lia].
        - destruct (Z.max_spec m (Z.abs x)) as [[A ->]|[A ->]]; [|reflexivity]. apply Htot; [exact E|apply Hmono; lia]. }
      destruct (Z.ltb_spec x 0).
      - rewrite Z.abs_neq in * by lia. rewrite H2. now rewrite G.
      - rewrite Z.abs_eq in * by lia. now rewrite G. }
    rewrite S. cbn [bind]. now apply IH.
  Qed.
  Lemma fold_max_spec l m : (forall x, In x (m :: l) -> x <= fold_left Z.max l m) /\ In (fold_left Z.max l m) (m :: l).
  Proof.
    revert m. induction l as [|y r IH]; intros m; cbn [fold_left].
    - split; [intros x [<-|[]]; lia|now left].
    - destruct (IH (Z.max m y)) as [A B]. split.
      + intros x [<-|[<-|Hx]]; [| |apply A; now right]; pose proof (A _ (or_introl eq_refl)); lia.
      + destruct B as [B|B]; [|cbn; auto]. rewrite <- B. destruct (Z.max_spec m y) as [[_ ->]|[_ ->]]; cbn; auto.
  Qed.
  Lemma maxabs_spec mx bs : proper_training mx bs ->
    Forall (fun x => fits_s w (Z.abs x) = true) (items mx bs) ->
    exists m, trained (maxabs_policy w conv lt (conv 0)) mx bs = Ok (Some (conv m)) /\
      (forall x, In x (items mx bs) -> Z.abs x <= m) /\
      (items mx bs = [] /\ m = 0 \/ exists x, In x (items mx bs) /\ m = Z.abs x).
  Proof.
    intros H R. unfold maxabs_policy. rewrite trained_simple by exact H. rewrite maxabs_fold by exact R. cbn [bind].
    destruct (fold_max_spec (map Z.abs (items mx bs)) 0) as [A B].
    set (m := fold_left Z.max (map Z.abs (items mx bs)) 0) in *.
    assert (Hm : 0 <= m) by (apply A; now left).
    rewrite (Hmono 0 m Hm). cbn [bind]. exists m. split; [reflexivity|]. split.
    - intros x Hx. apply A. right. now apply in_map.
    - destruct B as [B|B].
      + destruct (items mx bs) as [|x r]; [now left|]. right. exists x. split; [now left|].
        assert (Z.abs x <= m) by (apply A; right; now left). lia.
      + right. apply in_map_iff in B. destruct B as (x & <- & Hx). now exists x.
  Qed.
End MaxAbs.

(** ** Refutations and packaging *)
Lemma hist_nan n : exists h, trained (hist_policy nan_eqb) (S n) [repeat None (S n)] = Ok (Some h) /\ h = repeat (None, 1) (S n).
Proof.
  exists (repeat (None, 1) (S n)). split; [|reflexivity]. unfold hist_policy.
  rewrite trained_simple by (split; [lia|repeat constructor; discriminate]).
  unfold items. cbn [concat]. rewrite app_nil_r, firstn_all2 by (rewrite repeat_length; lia).
  assert (F : forall m h, (forall c, m_find nan_eqb h c = None -> True) -> (forall e, In e h -> e = (None, 1)) ->
    foldM (hist_fit nan_eqb) h (repeat None m) = Ok (h ++ repeat (None, 1) m)).
  { induction m as [|m IH]; intros h _ Hh; cbn [repeat foldM]; [now rewrite app_nil_r|].
    assert (E : m_find nan_eqb h None = None).
    { clear IH. induction h as [|[[x|] c] r IHr]; cbn; [reflexivity| |]; apply IHr; intros e He; apply Hh; now right. }
    unfold hist_fit at 1. rewrite E. cbn [bind]. rewrite IH; [rewrite <- app_assoc; reflexivity|auto|].
    intros e He. apply in_app_iff in He. destruct He as [He|[<-|[]]]; [now apply Hh|reflexivity]. }
  rewrite F; [reflexivity|auto|intros e []].
Qed.

Lemma index_map_spec (T : Type) (eqb ltb : T -> T -> bool) : total_order eqb ltb ->
  forall hist existing, NoDup (map fst hist) -> NoDup (map fst existing) ->
  let m := create_index_map eqb ltb hist existing in
  let is_new x := negb (existsb (eqb x) (map fst existing)) in
  NoDup (map fst m) /\
  (forall k, In k (map fst m) <-> In k (map fst existing) \/ In k (map fst hist)) /\
  (forall k i, In (k, i) existing -> In (k, i) m) /\
  (forall k, In k (map fst hist) -> ~ In k (map fst existing) ->
     In (k, Z.of_nat (length existing + length (filter (fun x => ltb x k) (filter is_new (map fst hist)))) mod 2 ^ 32) m) /\
  (Permutation (map snd existing) (map Z.of_nat (seq 0 (length existing))) -> Z.of_nat (length m) <= 2 ^ 32 ->
     Permutation (map snd m) (map Z.of_nat (seq 0 (length m)))).
Proof.
  intros (H1 & H2 & H3 & H4) hist existing Nh Ne m is_new. split; [|split; [|split; [|split]]].
  - now apply index_map_nodup.
  - intros k. now apply index_map_in.
  - intros k i. now apply index_map_old.
  - intros k. now apply index_map_new.
  - now apply index_map_dense.
Qed.

Lemma filter_false {A} (f : A -> bool) l : (forall x, f x = true) -> filter f l = l.
Proof. intros H. induction l as [|x r IH]; cbn; [reflexivity|]. rewrite H. now rewrite IH. Qed.

Lemma trained_index_map (T : Type) (eqb ltb : T -> T -> bool) : total_order eqb ltb ->
  forall mx bs, proper_training mx bs -> forall h h', trained (hist_policy eqb) mx bs = Ok (Some h) -> Permutation h h' ->
  let m := create_index_map eqb ltb h' [] in
  NoDup (map fst m) /\ (forall k, In k (map fst m) <-> In k (items mx bs)) /\
  (forall k, In k (items mx bs) -> exists n, distinct_count (filter (fun x => ltb x k) (items mx bs)) n /\ In (k, Z.of_nat n mod 2 ^ 32) m).
Proof.
  intros TO mx bs H h h' Eh P m. assert (Heq := proj1 TO).
  destruct (hist_trained eqb Heq mx bs H) as (h0 & E0 & I). rewrite Eh in E0. injection E0 as <-.
  destruct (hist_inv_perm eqb Heq _ _ _ P I) as (ND & K & _).
  destruct (index_map_spec T eqb ltb TO h' [] ND (NoDup_nil _)) as (A & B & _ & D & _). fold m in A, B, D.
  split; [exact A|]. split.
  - intros k. rewrite B, <- K. cbn. tauto.
  - intros k Hk. rewrite <- K in Hk. specialize (D k Hk (fun X => X)). cbn [map length Nat.add] in D.
    rewrite (filter_false _ (map fst h')) in D by reflexivity.
    eexists. split; [|exact D]. exists (filter (fun x => ltb x k) (map fst h')). split; [now apply NoDup_filter|].
    split; [|reflexivity]. intros x. rewrite !filter_In, K. tauto.
Qed.
Lemma index_map_perm (T : Type) (eqb ltb : T -> T -> bool) : total_order eqb ltb ->
  forall h h' existing, NoDup (map fst h) -> Permutation h h' ->
  create_index_map eqb ltb h existing = create_index_map eqb ltb h' existing.
Proof.
  intros (H1 & H2 & H3 & H4) h h' ex ND P. unfold create_index_map. f_equal. apply (s_sort_ext ltb H2 H3 H4).
  unfold new_keys. apply (Permutation_map fst) in P. revert P. generalize (map fst h) (map fst h'). clear.
  intros a b P. induction P; cbn; [constructor| | |].
  - destruct (m_find eqb ex x); [exact IHP|now constructor].
  - destruct (m_find eqb ex x), (m_find eqb ex y); try reflexivity. apply perm_swap.
  - now rewrite IHP1.
Qed.
Lemma sparse_existing : exists hist existing : list (Z * Z),
  NoDup (map fst hist) /\ NoDup (map fst existing) /\ NoDup (map snd existing) /\
  ~ NoDup (map snd (create_index_map Z.eqb Z.ltb hist existing)).
Proof.
  exists [(5, 1)], [(3, 1)]. repeat split; try (repeat constructor; cbn; tauto).
  vm_compute. intros H. inversion H; subst. apply H2. now left.
Qed.
Lemma minmax_infinity (T : Type) (ltb : T -> T -> bool) lo hi x : ltb hi x = true -> ltb x hi = false -> ltb lo x = true -> ltb x lo = false -> ltb x x = false ->
  forall n, trained (minmax_policy ltb lo hi) (S n) [[x]] = Ok (Some (hi, x)).
Proof.
  intros H1 H2 H3 H4 H5 n. unfold minmax_policy. rewrite trained_simple by (split; [lia|repeat constructor; discriminate]).
  unfold items. cbn [concat app firstn]. rewrite firstn_nil. cbn. unfold minmax_fit. cbn. rewrite H2, H3. cbn. now rewrite H2.
Qed.
Lemma std_uint64 x n : 2 ^ 63 <= x < 2 ^ 64 -> trained std_stats_policy (S n) [[Some x]] = UB.
Proof.
  intros H. unfold std_stats_policy. rewrite trained_simple by (split; [lia|repeat constructor; discriminate]).
  unfold items. cbn [concat app firstn]. rewrite firstn_nil. cbn [foldM].
  unfold std_update, basic_update. cbn [fst snd bind]. change (0 =? 18446744073709551615) with false. cbn [bind].
  assert (E : i64_cast x = x - 18446744073709551616).
  { unfold i64_cast, to_s. change (two_pow8 8) with 18446744073709551616. rewrite Z.mod_small by lia.
    change (18446744073709551616 / 2) with 9223372036854775808. destruct (Z.ltb_spec x 9223372036854775808); lia. }
  rewrite E.
  assert (X : (0 <? x) && negb (in_i64 (i64_max - (x - 18446744073709551616))) = true) by (unfold in_i64, i64_min, i64_max; lia).
  now rewrite X.
Qed.
Lemma maxabs_int_min n : trained (maxabs_policy 4 (fun z => z) Z.ltb 0) (S n) [[-2147483648]] = UB
  /\ trained (maxabs_policy 8 (fun z => z) Z.ltb 0) (S n) [[-9223372036854775808]] = UB.
Proof.
  unfold maxabs_policy. rewrite !trained_simple by (split; [lia|repeat constructor; discriminate]).
  unfold items. cbn [concat app firstn]. rewrite firstn_nil. split; reflexivity.
Qed.
