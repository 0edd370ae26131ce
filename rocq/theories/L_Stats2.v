From Verif Require Import Base L_List M_Estimator M_Stats S_Stats L_Estimator L_Stats.

Section Order.
  Context {T : Type}.
  Variable eqb : T -> T -> bool.
  Hypothesis Heq : forall x y, eqb x y = true <-> x = y.

  (** Distinct values in order of first appearance. *)
  Definition dstep (d : list T) (x : T) := if existsb (eqb x) d then d else d ++ [x].
  Definition firsts (l : list T) := fold_left dstep l [].
  Definition enum (d : list T) : list (T * Z) := combine d (map (fun i => u32 (Z.of_nat i)) (seq 0 (length d))).

  Lemma exb_in x d : existsb (eqb x) d = true <-> In x d.
  Proof.
    rewrite existsb_exists. split; [intros (y & H & E); apply Heq in E; now subst|].
    intros H. exists x. split; [exact H|now apply Heq].
  Qed.
  Lemma enum_len (d : list T) : length d = length (map (fun i => u32 (Z.of_nat i)) (seq 0 (length d))).
  Proof. now rewrite map_length, seq_length. Qed.
  Lemma enum_keys d : map fst (enum d) = d.
  Proof. apply combine_fst, enum_len. Qed.
  Lemma enum_length d : length (enum d) = length d.
  Proof. unfold enum. rewrite combine_length, <- enum_len. lia. Qed.
  Lemma enum_snoc d x : enum (d ++ [x]) = enum d ++ [(x, u32 (Z.of_nat (length d)))].
  Proof.
    unfold enum. rewrite app_length. cbn [length]. rewrite Nat.add_1_r, seq_S, map_app. cbn [Nat.add map].
    generalize (enum_len d). generalize (map (fun i => u32 (Z.of_nat i)) (seq 0 (length d))) as e. generalize (u32 (Z.of_nat (length d))) as z.
    induction d as [|y d IH]; intros z [|w e]; cbn; try discriminate; [reflexivity|]. intros [= H]. now rewrite IH.
  Qed.
  Lemma order_step d x : order_fit eqb (enum d) x = Ok (enum (dstep d x)).
  Proof.
    unfold order_fit, m_emplace, dstep. f_equal.
    destruct (m_find eqb (enum d) x) eqn:E.
    - apply (m_find_in eqb Heq), (in_map fst) in E. rewrite enum_keys in E. cbn in E. apply exb_in in E. now rewrite E.
    - apply (m_find_none eqb Heq) in E. rewrite enum_keys in E. rewrite <- exb_in in E. apply not_true_is_false in E.
      rewrite E, enum_snoc, enum_length. reflexivity.
  Qed.
  Lemma order_fold l : forall d, foldM (order_fit eqb) (enum d) l = Ok (enum (fold_left dstep l d)).
  Proof. induction l as [|x r IH]; intros d; [reflexivity|]. cbn [foldM fold_left]. rewrite order_step. cbn [bind]. apply IH. Qed.
  Lemma order_run l : foldM (order_fit eqb) [] l = Ok (enum (firsts l)).
  Proof. exact (order_fold l []). Qed.

  Lemma dstep_nodup d x : NoDup d -> NoDup (dstep d x).
  Proof.
    unfold dstep. destruct (existsb (eqb x) d) eqn:E; [auto|]. intros H.
    apply (Permutation_NoDup (Permutation_cons_append d x)). constructor; [|exact H].
    rewrite <- exb_in. congruence.
  Qed.
  Lemma dstep_in d x y : In y (dstep d x) <-> In y d \/ y = x.
  Proof.
    unfold dstep. destruct (existsb (eqb x) d) eqn:E.
    - apply exb_in in E. split; [auto|]. intros [H| ->]; auto.
    - rewrite in_app_iff. cbn. intuition.
  Qed.
  Lemma firsts_gen l : forall d, NoDup d -> NoDup (fold_left dstep l d) /\
     (forall y, In y (fold_left dstep l d) <-> In y d \/ In y l) /\ exists t, fold_left dstep l d = d ++ t.
  Proof.
    induction l as [|x r IH]; intros d ND; cbn [fold_left].
    - split; [exact ND|]. split; [cbn; tauto|]. exists []. now rewrite app_nil_r.
    - destruct (IH (dstep d x) (dstep_nodup d x ND)) as (A & B & t & E). split; [exact A|]. split.
      + intros y. rewrite B, dstep_in. cbn. intuition.
      + rewrite E. unfold dstep. destruct (existsb (eqb x) d); [now exists t|].
        exists ([x] ++ t). now rewrite app_assoc.
  Qed.
  Lemma firsts_nodup l : NoDup (firsts l).
  Proof. apply (firsts_gen l []). constructor. Qed.
  Lemma firsts_in l y : In y (firsts l) <-> In y l.
  Proof. destruct (firsts_gen l []) as (_ & B & _); [constructor|]. unfold firsts. rewrite B. cbn. tauto. Qed.
  Lemma firsts_app a b : exists t, firsts (a ++ b) = firsts a ++ t.
  Proof.
    unfold firsts. rewrite fold_left_app.
    destruct (firsts_gen b (fold_left dstep a [])) as (_ & _ & H); [apply (firsts_gen a []); constructor|exact H].
  Qed.
  Lemma firsts_first a k b : ~ In k a -> exists t, firsts (a ++ k :: b) = firsts a ++ k :: t.
  Proof.
    intros H. replace (a ++ k :: b) with ((a ++ [k]) ++ b) by now rewrite <- app_assoc.
    destruct (firsts_app (a ++ [k]) b) as (t & E). exists t. rewrite E. clear E.
    assert (E : firsts (a ++ [k]) = firsts a ++ [k]); [|now rewrite E, <- app_assoc].
    unfold firsts at 1. rewrite fold_left_app. cbn. fold (firsts a). unfold dstep.
    destruct (existsb (eqb k) (firsts a)) eqn:X; [|reflexivity]. exfalso. apply H. apply firsts_in. now apply exb_in.
  Qed.
  Lemma firsts_count l : distinct_count l (length (firsts l)).
  Proof. exists (firsts l). split; [apply firsts_nodup|]. split; [apply firsts_in|reflexivity]. Qed.
  Lemma firsts_len_le l : (length (firsts l) <= length l)%nat.
  Proof. apply NoDup_incl_length; [apply firsts_nodup|]. intros x. apply firsts_in. Qed.

  Lemma enum_find d i k : NoDup d -> nth_error d i = Some k -> m_find eqb (enum d) k = Some (u32 (Z.of_nat i)).
  Proof.
    intros ND H. apply (m_find_nodup eqb Heq); [now rewrite enum_keys|].
    apply nth_error_split in H. destruct H as (p & q & -> & Hp). subst i. clear ND.
    replace (p ++ k :: q) with ((p ++ [k]) ++ q) by now rewrite <- app_assoc.
    induction q as [|y q IH] using rev_ind.
    - rewrite app_nil_r, enum_snoc, in_app_iff. right. now left.
    - rewrite app_assoc, enum_snoc, in_app_iff. left. exact IH.
  Qed.
  Lemma first_split (x : T) l : In x l -> exists a b, l = a ++ x :: b /\ ~ In x a.
  Proof.
    induction l as [|y r IH]; [contradiction|]. intros H. destruct (eqb_dec eqb Heq y x) as [->|N].
    - exists [], r. split; [reflexivity|auto].
    - destruct H as [->|H]; [contradiction|]. destruct (IH H) as (a & b & -> & Ha).
      exists (y :: a), b. split; [reflexivity|]. intros [->|H']; contradiction.
  Qed.

  (** C20. *)
  Lemma order_spec mx bs : proper_training mx bs ->
    match items mx bs with
    | [] => trained (order_policy eqb []) mx bs = Throw InvalidArgument
    | _ => exists m, trained (order_policy eqb []) mx bs = Ok (Some m) /\ NoDup (map fst m) /\
             (forall k, In k (map fst m) <-> In k (items mx bs)) /\
             (forall a k b, items mx bs = a ++ k :: b -> ~ In k a ->
                exists n, distinct_count a n /\ In (k, Z.of_nat n mod 2 ^ 32) m)
    end.
  Proof.
    intros H. unfold order_policy. rewrite trained_simple by exact H. rewrite order_run. cbn [bind].
    destruct (items mx bs) as [|x r] eqn:E; [reflexivity|]. rewrite <- E.
    assert (Hne : exists e t, enum (firsts (items mx bs)) = e :: t).
    { destruct (enum (firsts (items mx bs))) as [|e t] eqn:F; [|now exists e, t].
      exfalso. apply (f_equal (map fst)) in F. rewrite enum_keys in F. cbn in F.
      assert (X : In x (firsts (items mx bs))) by (apply firsts_in; rewrite E; now left). now rewrite F in X. }
    destruct Hne as (e & t & F). rewrite F. cbn [bind]. rewrite <- F.
    exists (enum (firsts (items mx bs))). split; [reflexivity|]. rewrite enum_keys.
    split; [apply firsts_nodup|]. split; [apply firsts_in|].
    intros a k b Hs Hk. exists (length (firsts a)). split; [apply firsts_count|].
    apply (m_find_in eqb Heq). apply enum_find; [apply firsts_nodup|]. rewrite Hs.
    destruct (firsts_first a k b Hk) as (t' & ->). rewrite nth_error_app2, Nat.sub_diag by lia. reflexivity.
  Qed.

  (** ** Mode *)
  Variable supported : T -> bool.
  Section Mode.
    Variable l : list T.
    Hypothesis Hlen : Z.of_nat (length l) < 2 ^ 32.
    Let order := enum (firsts l).
    Definition idx (k : T) : Z := match m_find eqb order k with Some i => i | None => 0 end.
    Lemma find_idx k : In k l -> m_find eqb order k = Some (idx k).
    Proof.
      intros H. unfold idx. destruct (m_find eqb order k) eqn:E; [reflexivity|].
      apply (m_find_none eqb Heq) in E. unfold order in E. rewrite enum_keys, firsts_in in E. contradiction.
    Qed.
    Lemma idx_first a k b : l = a ++ k :: b -> ~ In k a -> idx k = Z.of_nat (length (firsts a)).
    Proof.
      intros E H. unfold idx, order.
      erewrite enum_find with (i := length (firsts a)); [|apply firsts_nodup|].
      - unfold u32. apply Z.mod_small. pose proof (firsts_len_le a). rewrite E, app_length in Hlen. lia.
      - rewrite E. destruct (firsts_first a k b H) as (t & ->). rewrite nth_error_app2, Nat.sub_diag by lia. reflexivity.
    Qed.
    Lemma idx_before v w : In v l -> In w l -> idx v < idx w -> appears_before l v w.
    Proof.
      intros Hv Hw L. destruct (first_split v l Hv) as (a & b & E & Ha). exists a, b. split; [exact E|].
      rewrite in_app_iff. cbn. intros [H|[H|[]]]; [|subst; lia].
      destruct (first_split w a H) as (a1 & a2 & -> & H1).
      rewrite (idx_first _ v b E Ha) in L.
      rewrite (idx_first a1 w (a2 ++ v :: b)) in L; [|rewrite E, <- app_assoc; reflexivity|exact H1].
      destruct (firsts_first a1 w a2 H1) as (t & Et). rewrite Et, app_length in L. lia.
    Qed.
    Lemma idx_inj v w : In v l -> In w l -> idx v = idx w -> v = w.
    Proof.
      intros Hv Hw E. destruct (eqb_dec eqb Heq v w) as [|N]; [assumption|exfalso].
      destruct (first_split v l Hv) as (a & b & El & Ha).
      destruct (in_dec_T eqb Heq w a) as [Hin|Hin].
      - destruct (first_split w a Hin) as (a1 & a2 & -> & H1).
        rewrite (idx_first _ v b El Ha) in E.
        rewrite (idx_first a1 w (a2 ++ v :: b)) in E; [|rewrite El, <- app_assoc; reflexivity|exact H1].
        destruct (firsts_first a1 w a2 H1) as (t & Et). rewrite Et, app_length in E. cbn in E. lia.
      - assert (Hb : In w b).
        { rewrite El in Hw. apply in_app_iff in Hw. destruct Hw as [H|[H|H]]; [contradiction|congruence|exact H]. }
        destruct (first_split w b Hb) as (b1 & b2 & Eb & H1).
        rewrite (idx_first _ v b El Ha) in E.
        rewrite (idx_first (a ++ v :: b1) w b2) in E.
        + destruct (firsts_first a v b1 Ha) as (t & Et). rewrite Et, app_length in E. cbn in E. lia.
        + rewrite El, Eb, <- app_assoc. reflexivity.
        + rewrite in_app_iff. cbn. intros [H|[H|H]]; [contradiction|congruence|contradiction].
    Qed.

    Definition better (c i c' i' : Z) := c' < c \/ (c' = c /\ i <= i').
    Definition best_inv (seen : list (T * Z)) (b : option (T * Z * Z)) :=
      match b with
      | None => forall e, In e seen -> supported (fst e) = false
      | Some (v, c, i) => In (v, c) seen /\ supported v = true /\ i = idx v /\
          forall e, In e seen -> supported (fst e) = true -> better c i (snd e) (idx (fst e))
      end.
    Lemma mode_step_inv seen b e : best_inv seen b -> In (fst e) l ->
      exists b', mode_step eqb supported order (Ok b) e = Ok b' /\ best_inv (seen ++ [e]) b'.
    Proof.
      intros I Hin. unfold mode_step. cbn [bind]. destruct e as [k n]. cbn [fst snd] in *.
      set (P := match b with None => true | Some (_, c, _) => c <=? n end).
      destruct P eqn:HP; subst P.
      - destruct (supported k) eqn:S; cbn [negb].
        + rewrite (find_idx k Hin). destruct b as [[[v c] i]|].
          * destruct I as (I1 & I2 & I3 & I4).
            destruct ((n =? c) && (i <? idx k)) eqn:C.
            -- eexists. split; [reflexivity|]. split; [rewrite in_app_iff; auto|]. split; [assumption|]. split; [assumption|].
               intros e. rewrite in_app_iff. intros [H|[<-|[]]] Se; [auto|]. cbn. unfold better. lia.
            -- eexists. split; [reflexivity|]. split; [rewrite in_app_iff; cbn; auto|]. split; [assumption|]. split; [reflexivity|].
               intros e. rewrite in_app_iff. intros [H|[<-|[]]] Se; [|cbn; unfold better; lia].
               specialize (I4 e H Se). unfold better in *. lia.
          * eexists. split; [reflexivity|]. split; [rewrite in_app_iff; cbn; auto|]. split; [assumption|]. split; [reflexivity|].
            intros e. rewrite in_app_iff. intros [H|[<-|[]]] Se; [|cbn; unfold better; lia].
            rewrite (I e H) in Se. discriminate.
        + exists b. split; [reflexivity|]. destruct b as [[[v c] i]|].
          * destruct I as (I1 & I2 & I3 & I4). split; [rewrite in_app_iff; auto|]. split; [assumption|]. split; [assumption|].
            intros e. rewrite in_app_iff. intros [H|[<-|[]]] Se; [auto|]. cbn in Se. congruence.
          * intros e. rewrite in_app_iff. intros [H|[<-|[]]]; auto.
      - exists b. split; [reflexivity|]. destruct b as [[[v c] i]|]; [|discriminate].
        destruct I as (I1 & I2 & I3 & I4). split; [rewrite in_app_iff; auto|]. split; [assumption|]. split; [assumption|].
        intros e. rewrite in_app_iff. intros [H|[<-|[]]] Se; [auto|]. cbn. unfold better. lia.
    Qed.
    Lemma mode_fold h : forall seen b, best_inv seen b -> (forall e, In e h -> In (fst e) l) ->
      exists b', fold_left (mode_step eqb supported order) h (Ok b) = Ok b' /\ best_inv (seen ++ h) b'.
    Proof.
      induction h as [|e r IH]; intros seen b I Hin; cbn [fold_left].
      - exists b. split; [reflexivity|]. now rewrite app_nil_r.
      - destruct (mode_step_inv seen b e I) as (b1 & E1 & I1); [apply Hin; now left|]. rewrite E1.
        destruct (IH _ _ I1) as (b2 & E2 & I2); [intros e' H'; apply Hin; now right|].
        exists b2. split; [exact E2|]. now rewrite <- app_assoc in I2.
    Qed.

    Lemma mode_spec h : hist_inv eqb l h ->
      (exists v, mode_complete eqb supported h order = Ok v /\ In v l /\ supported v = true /\
         forall w, In w l -> supported w = true -> occ eqb w l <= occ eqb v l /\
           (occ eqb w l = occ eqb v l -> w <> v -> appears_before l v w))
      \/ (mode_complete eqb supported h order = Throw RuntimeError /\ forall w, In w l -> supported w = false).
    Proof.
      intros (ND & K & C).
      assert (Hin : forall e, In e h -> In (fst e) l) by (intros e He; apply K; now apply in_map).
      assert (Hc : forall k c, In (k, c) h -> c = occ eqb k l).
      { intros k c He. rewrite (C k c (m_find_nodup eqb Heq _ _ _ ND He)). unfold u32. apply Z.mod_small.
        pose proof (occ_le eqb Heq k l). lia. }
      destruct (mode_fold h [] None (fun e H => match H with end) Hin) as (b & E & I). cbn [app] in I.
      unfold mode_complete.
      destruct h as [|e0 h0].
      { right. split; [reflexivity|]. intros w Hw. apply K in Hw. destruct Hw. }
      destruct order as [|o0 o'] eqn:Eo.
      { exfalso. assert (X : In (fst e0) (firsts l)) by (apply firsts_in, Hin; now left).
        rewrite <- enum_keys in X. unfold order in Eo. now rewrite Eo in X. }
      rewrite E. cbn [bind]. destruct b as [[[v c] i]|].
      - left. exists v. destruct I as (I1 & I2 & I3 & I4). split; [reflexivity|].
        assert (Hv : In v l) by (apply (Hin (v, c) I1)). split; [exact Hv|]. split; [exact I2|].
        intros w Hw Sw. pose proof (proj2 (K w) Hw) as X. apply in_map_iff in X. destruct X as ((w' & cw) & <- & Xin).
        cbn [fst] in *. specialize (I4 _ Xin Sw). cbn [fst snd] in I4.
        rewrite (Hc _ _ Xin), (Hc _ _ I1) in I4. unfold better in I4. split; [lia|].
        intros Eoc Ne. apply idx_before; [assumption|assumption|].
        assert (idx v <> idx w') by (intros X; apply Ne; symmetry; now apply idx_inj). lia.
      - right. split; [reflexivity|]. intros w Hw. apply K in Hw. apply in_map_iff in Hw. destruct Hw as (e & <- & He). now apply I.
    Qed.
  End Mode.

  Lemma hist_inv_perm l h h' : Permutation h h' -> hist_inv eqb l h -> hist_inv eqb l h'.
  Proof.
    intros P (ND & K & C). split; [apply (Permutation_NoDup (Permutation_map fst P) ND)|]. split.
    - intros k. rewrite <- K. split; apply Permutation_in; [symmetry|]; now apply Permutation_map.
    - intros k c H. apply C. now rewrite (m_find_perm eqb Heq h h').
  Qed.
  Lemma mode_trained mx bs h h' o : proper_training mx bs -> Z.of_nat (length (items mx bs)) < 2 ^ 32 ->
    trained (hist_policy eqb) mx bs = Ok (Some h) -> Permutation h h' -> trained (order_policy eqb []) mx bs = Ok (Some o) ->
      (exists v, mode_complete eqb supported h' o = Ok v /\ In v (items mx bs) /\ supported v = true /\
         forall w, In w (items mx bs) -> supported w = true -> occ eqb w (items mx bs) <= occ eqb v (items mx bs) /\
           (occ eqb w (items mx bs) = occ eqb v (items mx bs) -> w <> v -> appears_before (items mx bs) v w))
      \/ (mode_complete eqb supported h' o = Throw RuntimeError /\ forall w, In w (items mx bs) -> supported w = false).
  Proof.
    intros H L Eh P Eo. destruct (hist_trained eqb Heq mx bs H) as (h0 & Eh0 & I). rewrite Eh in Eh0. injection Eh0 as <-.
    assert (o = enum (firsts (items mx bs))) as ->.
    { unfold order_policy in Eo. rewrite trained_simple in Eo by exact H. rewrite order_run in Eo. cbn [bind] in Eo.
      destruct (enum (firsts (items mx bs))) eqn:F; cbn [bind] in Eo; [discriminate|]. congruence. }
    apply mode_spec; [exact L|]. now apply (hist_inv_perm _ h).
  Qed.
End Order.

(** ** Median *)
Section Median.
  Context {T : Type}.
  Variable ltb : T -> T -> bool.
  Hypothesis Hirr : forall x, ltb x x = false.
  Hypothesis Htr : forall x y z, ltb x y = true -> ltb y z = true -> ltb x z = true.
  Hypothesis Htot : forall x y, ltb x y = false -> ltb y x = false -> x = y.
  Notation le := (le ltb).
  Definition ge x y := le y x.

  Lemma max_push_perm x l : Permutation (max_push ltb x l) (x :: l).
  Proof. induction l as [|y r IH]; cbn; [reflexivity|]. destruct (ltb x y); [|reflexivity]. rewrite IH. apply perm_swap. Qed.
  Lemma min_push_perm x l : Permutation (min_push ltb x l) (x :: l).
  Proof. induction l as [|y r IH]; cbn; [reflexivity|]. destruct (ltb y x); [|reflexivity]. rewrite IH. apply perm_swap. Qed.
  Lemma max_push_sorted x l : StronglySorted ge l -> StronglySorted ge (max_push ltb x l).
  Proof.
    induction l as [|y r IH]; cbn; intros S; [repeat constructor|]. inversion S; subst.
    destruct (ltb x y) eqn:E.
    - constructor; [auto|]. rewrite max_push_perm. constructor; [now apply (lt_le ltb Hirr Htr)|assumption].
    - constructor; [assumption|]. constructor; [exact E|].
      eapply Forall_impl; [|exact H2]. intros z Hz. exact (le_trans ltb Htr Htot z y x Hz E).
  Qed.
  Lemma min_push_sorted x l : StronglySorted le l -> StronglySorted le (min_push ltb x l).
  Proof.
    induction l as [|y r IH]; cbn; intros S; [repeat constructor|]. inversion S; subst.
    destruct (ltb y x) eqn:E.
    - constructor; [auto|]. rewrite min_push_perm. constructor; [now apply (lt_le ltb Hirr Htr)|assumption].
    - constructor; [assumption|]. constructor; [exact E|].
      eapply Forall_impl; [|exact H2]. intros z Hz. exact (le_trans ltb Htr Htot x y z E Hz).
  Qed.

  Definition med_inv (l : list T) (s : median_state (T := T)) : Prop :=
    let (sm, lg) := s in
    StronglySorted ge sm /\ StronglySorted le lg /\ (forall a b, In a sm -> In b lg -> le a b) /\
    Permutation (sm ++ lg) l /\ (length sm = length lg \/ length sm = S (length lg)).

  Lemma med_step l s x : med_inv l s -> exists s', median_fit ltb s x = Ok s' /\ med_inv (l ++ [x]) s'.
  Proof.
    destruct s as [sm lg]. intros (S1 & S2 & D & P & L). unfold median_fit.
    set (pr := match sm with [] => _ | t :: _ => _ end).
    assert (Q : exists sm1 lg1, pr = (sm1, lg1) /\ StronglySorted ge sm1 /\ StronglySorted le lg1 /\
                (forall a b, In a sm1 -> In b lg1 -> le a b) /\ Permutation (sm1 ++ lg1) (l ++ [x]) /\
                ((length sm1 = S (length sm) /\ lg1 = lg) \/ (sm1 = sm /\ length lg1 = S (length lg)))).
    { subst pr. destruct sm as [|t r].
      - destruct lg as [|g lg]; [|cbn in L; lia]. exists [x], []. repeat split; try constructor; try constructor; cbn; try tauto.
        apply Permutation_nil in P. subst. reflexivity.
      - destruct (negb (ltb t x)) eqn:E.
        + assert (Hxt : le x t) by (unfold L_Stats.le; now apply negb_true_iff).
          exists (max_push ltb x (t :: r)), lg. split; [reflexivity|].
          split; [now apply max_push_sorted|]. split; [assumption|]. split; [|split].
          * intros a b Ha Hb. apply (Permutation_in _ (max_push_perm _ _)) in Ha. destruct Ha as [<-|Ha]; [|now apply D].
            apply (le_trans ltb Htr Htot x t b Hxt). apply D; [now left|exact Hb].
          * rewrite max_push_perm, <- P. cbn. apply Permutation_cons_append with (l := (t :: r) ++ lg).
          * left. split; [|reflexivity]. now rewrite (Permutation_length (max_push_perm x (t :: r))).
        + assert (Htx : le t x) by (apply (lt_le ltb Hirr Htr); now apply negb_false_iff).
          exists (t :: r), (min_push ltb x lg). split; [reflexivity|].
          split; [assumption|]. split; [now apply min_push_sorted|]. split; [|split].
          * intros a b Ha Hb. apply (Permutation_in _ (min_push_perm _ _)) in Hb. destruct Hb as [<-|Hb]; [|now apply D].
            inversion S1; subst. destruct Ha as [<-|Ha]; [exact Htx|]. rewrite Forall_forall in H2.
            apply (le_trans ltb Htr Htot a t x); [now apply H2|exact Htx].
          * rewrite min_push_perm, <- P. rewrite <- Permutation_middle. apply Permutation_cons_append with (l := (t :: r) ++ lg).
          * right. split; [reflexivity|]. now rewrite (Permutation_length (min_push_perm x lg)). }
    clearbody pr. destruct Q as (sm1 & lg1 & -> & T1 & T2 & D1 & P1 & L1).
    destruct (Nat.leb_spec (length lg1 + 2) (length sm1)).
    - destruct sm1 as [|t r]; [cbn in *; lia|]. exists (r, min_push ltb t lg1). split; [reflexivity|].
      inversion T1; subst. rewrite Forall_forall in H3. repeat split.
      + assumption.
      + now apply min_push_sorted.
      + intros a b Ha Hb. apply (Permutation_in _ (min_push_perm _ _)) in Hb. destruct Hb as [<-|Hb]; [now apply H3|].
        apply D1; [now right|assumption].
      + rewrite min_push_perm, <- Permutation_middle. exact P1.
      + rewrite (Permutation_length (min_push_perm t lg1)). cbn in *.
        destruct L1 as [[L1 ->]|[L1 L2]]; [|rewrite <- L1 in *; cbn in *]; lia.
    - destruct (Nat.ltb_spec (length sm1) (length lg1)).
      + destruct lg1 as [|t r]; [cbn in *; lia|]. exists (max_push ltb t sm1, r). split; [reflexivity|].
        inversion T2; subst. rewrite Forall_forall in H4. repeat split.
        * now apply max_push_sorted.
        * assumption.
        * intros a b Ha Hb. apply (Permutation_in _ (max_push_perm _ _)) in Ha. destruct Ha as [<-|Ha]; [now apply H4|].
          apply D1; [assumption|now right].
        * rewrite max_push_perm. rewrite <- P1. now rewrite <- Permutation_middle.
        * rewrite (Permutation_length (max_push_perm t sm1)). cbn in *.
          destruct L1 as [[L1 L2]|[-> L1]]; [rewrite <- L2 in *; cbn in *|]; lia.
      + exists (sm1, lg1). split; [reflexivity|]. repeat split; try assumption.
        destruct L1 as [[L1 ->]|[-> L1]]; lia.
  Qed.

  Lemma med_run d : forall l s, med_inv l s ->
    exists s', foldM (fun s x => match x with None => Ok s | Some v => median_fit ltb s v end) s d = Ok s' /\ med_inv (l ++ somes d) s'.
  Proof.
    induction d as [|[v|] r IH]; intros l s I.
    - exists s. split; [reflexivity|]. cbn. now rewrite app_nil_r.
    - cbn [foldM]. destruct (med_step l s v I) as (s1 & -> & I1). cbn [bind].
      destruct (IH _ _ I1) as (s2 & E & I2). exists s2. split; [exact E|]. now rewrite <- app_assoc in I2.
    - cbn [foldM bind somes flat_map app]. apply IH, I.
  Qed.

  Lemma rev_sorted l : StronglySorted ge l -> StronglySorted le (rev l).
  Proof.
    induction 1 as [|x l S IH F]; cbn; [constructor|].
    rewrite Forall_forall in F.
    assert (G : forall a b, StronglySorted le a -> StronglySorted le b -> (forall u v, In u a -> In v b -> le u v) -> StronglySorted le (a ++ b)).
    { induction a as [|u a IHa]; intros b Sa Sb C; [exact Sb|]. inversion Sa; subst. cbn. constructor.
      - apply IHa; auto. intros p q Hp Hq. apply C; [now right|exact Hq].
      - apply Forall_app. split; [assumption|]. apply Forall_forall. intros q Hq. apply C; [now left|exact Hq]. }
    apply G; [exact IH|repeat constructor|]. intros u v Hu [<-|[]]. apply F. now apply in_rev.
  Qed.
  Lemma app_sorted a b : StronglySorted le a -> StronglySorted le b -> (forall u v, In u a -> In v b -> le u v) -> StronglySorted le (a ++ b).
  Proof.
    induction a as [|u a IHa]; intros Sa Sb C; [exact Sb|]. inversion Sa; subst. cbn. constructor.
    - apply IHa; auto. intros p q Hp Hq. apply C; [now right|exact Hq].
    - apply Forall_app. split; [assumption|]. apply Forall_forall. intros q Hq. apply C; [now left|exact Hq].
  Qed.

  (** C22. *)
  Lemma median_spec interpolate avg zero mx bs : proper_training mx bs ->
    forall s, Permutation s (somes (items mx bs)) -> StronglySorted (fun x y => ltb y x = false) s ->
    trained (median_policy ltb interpolate avg zero) mx bs =
    (let n := length s in
     if Nat.eqb n 0 then Throw RuntimeError
     else if negb interpolate || Nat.odd n then Ok (Some (nth ((n - 1) / 2) s zero))
     else Ok (Some (avg (nth (n / 2 - 1) s zero) (nth (n / 2) s zero)))).
  Proof.
    intros H s P Ss. unfold median_policy. rewrite trained_simple by exact H.
    destruct (med_run (items mx bs) [] ([], [])) as ([sm lg] & Er & (S1 & S2 & D & P1 & L)).
    { split; [constructor|]. split; [constructor|]. split; [cbn; tauto|]. split; [constructor|]. now left. }
    unfold median_state in *. rewrite Er.
    cbn [app] in P1. cbn [bind].
    assert (E : s = rev sm ++ lg).
    { apply (sorted_perm_eq ltb Htot); [exact Ss| |].
      - apply app_sorted; [now apply rev_sorted|exact S2|]. intros u v Hu Hv. apply D; [now apply in_rev|exact Hv].
      - rewrite P, <- P1. apply Permutation_app_tail. apply Permutation_rev. }
    unfold median_complete. subst s. rewrite app_length, rev_length. cbn zeta.
    set (n := (length sm + length lg)%nat).
    destruct (Nat.eqb_spec n 0) as [Hn|Hn]; [reflexivity|].
    destruct sm as [|t r]; [cbn in *; lia|]. cbn [rev].
    assert (Hnth : forall d, nth (length r) ((rev r ++ [t]) ++ lg) d = t).
    { intros d. rewrite <- app_assoc, app_nth2; rewrite rev_length; [|lia]. now rewrite Nat.sub_diag. }
    assert (Hnth2 : forall d, nth (S (length r)) ((rev r ++ [t]) ++ lg) d = hd d lg).
    { intros d. rewrite app_nth2; rewrite app_length, rev_length; [|cbn; lia].
      cbn [length]. replace (S (length r) - (length r + 1))%nat with 0%nat by lia. now destruct lg. }
    assert (Hn' : (n = 2 * length r + 1 \/ n = 2 * length r + 2)%nat) by (subst n; cbn in *; lia).
    clearbody n.
    destruct Hn' as [->| ->].
    - replace (Nat.odd (2 * length r + 1)) with true by (symmetry; apply Nat.odd_spec; now exists (length r)).
      rewrite orb_true_r. cbn [bind]. replace ((2 * length r + 1 - 1) / 2)%nat with (length r); [now rewrite Hnth|].
      rewrite Nat.add_sub, Nat.mul_comm, Nat.div_mul; lia.
    - replace (Nat.odd (2 * length r + 2)) with false.
      2:{ symmetry. rewrite <- Nat.negb_even. apply negb_false_iff, Nat.even_spec. exists (S (length r)). lia. }
      assert (D1 : ((2 * length r + 2 - 1) / 2 = length r)%nat).
      { symmetry. apply Nat.div_unique with 1%nat; lia. }
      assert (D2 : ((2 * length r + 2) / 2 = S (length r))%nat).
      { symmetry. apply Nat.div_unique with 0%nat; lia. }
      rewrite D1, D2. cbn [Nat.sub]. rewrite Nat.sub_0_r, Hnth, Hnth2. rewrite orb_false_r.
      destruct interpolate; cbn [negb bind]; [|reflexivity]. now destruct lg.
  Qed.

  (** ** Minimum and maximum *)
  Lemma minmax_fold l : forall mn mx, le mn mx -> exists mn' mx', foldM (minmax_fit ltb) (mn, mx) l = Ok (mn', mx') /\
    (forall x, In x (mn :: l) -> ltb x mn' = false) /\ (forall x, In x (mx :: l) -> ltb mx' x = false) /\
    In mn' (mn :: l) /\ In mx' (mx :: l) .
  Proof.
    induction l as [|x r IH]; intros mn mx H.
    - exists mn, mx. cbn. repeat split; auto; intros x [<-|[]]; apply Hirr.
    - cbn [foldM]. unfold minmax_fit at 1. cbn [bind fst snd].
      set (mn1 := if ltb x mn then x else mn). set (mx1 := if ltb mx x then x else mx).
      assert (A1 : le mn1 mn) by (unfold mn1; destruct (ltb x mn) eqn:E; [now apply (lt_le ltb Hirr Htr)|apply Hirr]).
      assert (A2 : le mn1 x) by (unfold mn1; destruct (ltb x mn) eqn:E; [apply Hirr|exact E]).
      assert (A3 : le mx mx1) by (unfold mx1; destruct (ltb mx x) eqn:E; [now apply (lt_le ltb Hirr Htr)|apply Hirr]).
      assert (A4 : le x mx1) by (unfold mx1; destruct (ltb mx x) eqn:E; [apply Hirr|exact E]).
      assert (A5 : mn1 = mn \/ mn1 = x) by (unfold mn1; destruct (ltb x mn); auto).
      assert (A6 : mx1 = mx \/ mx1 = x) by (unfold mx1; destruct (ltb mx x); auto).
      destruct (IH mn1 mx1 (le_trans ltb Htr Htot _ _ _ A2 A4)) as (a & b & E & F1 & F2 & F3 & F4).
      exists a, b. split; [exact E|].
      assert (G1 : le a mn1) by (apply F1; now left). assert (G2 : le mx1 b) by (apply F2; now left).
      repeat split.
      + intros y [<-|[<-|Hy]].
        * exact (le_trans ltb Htr Htot _ _ _ G1 A1).
        * exact (le_trans ltb Htr Htot _ _ _ G1 A2).
        * apply F1. now right.
      + intros y [<-|[<-|Hy]].
        * exact (le_trans ltb Htr Htot _ _ _ A3 G2).
        * exact (le_trans ltb Htr Htot _ _ _ A4 G2).
        * apply F2. now right.
      + cbn in *. destruct F3 as [<-|F3]; [destruct A5 as [->| ->]; auto|auto].
      + cbn in *. destruct F4 as [<-|F4]; [destruct A6 as [->| ->]; auto|auto].
  Qed.

  Lemma minmax_fold0 l lo hi : (forall x, In x l -> le lo x /\ le x hi) -> l <> [] ->
     exists mn mx, foldM (minmax_fit ltb) (hi, lo) l = Ok (mn, mx) /\ is_min ltb mn l /\ is_max ltb mx l.
  Proof.
    destruct l as [|x r]; [congruence|]. intros B _. cbn [foldM]. unfold minmax_fit at 1. cbn [fst snd bind].
    destruct (B x) as [B1 B2]; [now left|].
    assert (E1 : (if ltb x hi then x else hi) = x) by (destruct (ltb x hi) eqn:E; [reflexivity|now apply Htot]).
    assert (E2 : (if ltb lo x then x else lo) = x) by (destruct (ltb lo x) eqn:E; [reflexivity|now apply Htot]).
    rewrite E1, E2. destruct (minmax_fold r x x (Hirr x)) as (a & b & -> & F1 & F2 & F3 & F4).
    exists a, b. repeat split; assumption.
  Qed.
  Lemma minmax_spec lo hi mx bs : proper_training mx bs -> ltb lo hi = true ->
    (forall x, In x (items mx bs) -> ltb x lo = false /\ ltb hi x = false) ->
    (items mx bs = [] -> trained (minmax_policy ltb lo hi) mx bs = Throw InvalidArgument) /\
    (items mx bs <> [] -> exists mn mxv, trained (minmax_policy ltb lo hi) mx bs = Ok (Some (mn, mxv)) /\
       is_min ltb mn (items mx bs) /\ is_max ltb mxv (items mx bs)).
  Proof.
    intros H Hlo B. unfold minmax_policy. rewrite trained_simple by exact H. split.
    - intros ->. cbn. now rewrite Hlo.
    - intros Ne. destruct (minmax_fold0 (items mx bs) lo hi B Ne) as (a & b & -> & M1 & M2). cbn [bind fst snd].
      destruct M1 as [M1 M1']. destruct M2 as [M2 M2']. rewrite (M1' b M2). cbn [bind].
      exists a, b. split; [reflexivity|]. split; split; assumption.
  Qed.

  Definition basic_inv (l : list T) (s : stats_state (T := T)) :=
    snd s = Z.of_nat (length l) /\
    match fst s with
    | None => l = []
    | Some (a, b) => is_min ltb a l /\ is_max ltb b l
    end.
  Lemma basic_step l s x : basic_inv l s -> Z.of_nat (length l) < 2 ^ 64 - 1 ->
    exists s', basic_update ltb s x = Ok s' /\ basic_inv (l ++ [x]) s'.
  Proof.
    intros (E & I) L. unfold basic_update. rewrite E.
    destruct (Z.eqb_spec (Z.of_nat (length l)) 18446744073709551615) as [X|_]; [lia|].
    eexists. split; [reflexivity|]. split; [cbn; rewrite app_length; cbn; lia|]. cbn [fst].
    destruct (fst s) as [[a b]|].
    - destruct I as [[I1 I2] [I3 I4]]. split; split.
      + rewrite in_app_iff. destruct (ltb x a); cbn; auto.
      + intros y. rewrite in_app_iff. intros [Hy|[<-|[]]].
        * specialize (I2 y Hy). destruct (ltb x a) eqn:C; [|exact I2].
          refine (le_trans ltb Htr Htot x a y _ I2). now apply (lt_le ltb Hirr Htr).
        * destruct (ltb x a) eqn:C; [apply Hirr|exact C].
      + rewrite in_app_iff. destruct (ltb b x); cbn; auto.
      + intros y. rewrite in_app_iff. intros [Hy|[<-|[]]].
        * specialize (I4 y Hy). destruct (ltb b x) eqn:C; [|exact I4].
          refine (le_trans ltb Htr Htot y b x I4 _). now apply (lt_le ltb Hirr Htr).
        * destruct (ltb b x) eqn:C; [apply Hirr|exact C].
    - subst l. cbn. repeat split; cbn; auto; intros y [<-|[]]; apply Hirr.
  Qed.
  Lemma basic_fold d : forall l s, basic_inv l s -> Z.of_nat (length l + length (somes d)) < 2 ^ 64 ->
    exists s', foldM (fun s x => match x with None => Ok s | Some v => basic_update ltb s v end) s d = Ok s' /\ basic_inv (l ++ somes d) s'.
  Proof.
    induction d as [|[v|] r IH]; intros l s I L.
    - exists s. split; [reflexivity|]. cbn. now rewrite app_nil_r.
    - cbn [somes flat_map app length] in L. fold (somes r) in L.
      cbn [foldM]. destruct (basic_step l s v I) as (s1 & -> & I1); [lia|]. cbn [bind].
      destruct (IH _ _ I1) as (s2 & E & I2); [rewrite app_length; cbn [length]; lia|]. exists s2. split; [exact E|]. now rewrite <- app_assoc in I2.
    - cbn [foldM bind somes flat_map app]. apply IH; [exact I|exact L].
  Qed.
  Lemma basic_stats_spec mx bs : proper_training mx bs -> Z.of_nat (length (somes (items mx bs))) < 2 ^ 64 ->
    (somes (items mx bs) = [] -> trained (basic_stats_policy ltb) mx bs = Throw RuntimeError) /\
    (somes (items mx bs) <> [] -> exists mn mxv, trained (basic_stats_policy ltb) mx bs = Ok (Some (mn, mxv, Z.of_nat (length (somes (items mx bs))))) /\
       is_min ltb mn (somes (items mx bs)) /\ is_max ltb mxv (somes (items mx bs))).
  Proof.
    intros H L. unfold basic_stats_policy. rewrite trained_simple by exact H.
    destruct (basic_fold (items mx bs) [] (None, 0)) as (s & Er & E & I); [split; reflexivity|exact L|].
    unfold stats_state in *. rewrite Er. cbn [app] in *. cbn [bind]. unfold basic_commit. rewrite E. split.
    - intros ->. reflexivity.
    - intros Ne. destruct (Z.eqb_spec (Z.of_nat (length (somes (items mx bs)))) 0) as [X|_].
      { exfalso. apply Ne. apply length_zero_iff_nil. lia. }
      destruct (fst s) as [[a b]|]; [|contradiction]. destruct I as [[I1 I2] [I3 I4]].
      rewrite (I2 b I3). cbn [bind]. exists a, b. split; [reflexivity|]. split; split; assumption.
  Qed.
End Median.
