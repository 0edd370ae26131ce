From Verif Require Import Base L_List M_Estimator M_Stats S_Stats L_Estimator.

Lemma bind_ok {A B} (a : A) (f : A -> res B) : bind (Ok a) f = f a.
Proof. reflexivity. Qed.

Lemma trained_simple {P In A} (init : P) (f : P -> In -> res P) (c : P -> res A) mx bs : proper_training mx bs ->
  trained (simple_policy init f c) mx bs = do p <- foldM f init (items mx bs); do a <- c p; Ok (Some a).
Proof. intros [H1 H2]. rewrite trained_eq by assumption. reflexivity. Qed.

Lemma NoDup_app_iff_aux {A} (a b : list A) : NoDup a -> NoDup b -> (forall x, In x a -> In x b -> False) -> NoDup (a ++ b).
Proof.
  induction a as [|x r IH]; cbn; intros Na Nb D; [exact Nb|]. inversion Na; subst. constructor.
  - rewrite in_app_iff. intros [H|H]; [contradiction|]. apply (D x); auto.
  - apply IH; auto. intros y Hy. apply D. now right.
Qed.

Section Generic.
  Context {T : Type}.
  Variable eqb : T -> T -> bool.
  Hypothesis Heq : forall x y, eqb x y = true <-> x = y.

  Lemma eqb_refl x : eqb x x = true. Proof. now apply Heq. Qed.
  Lemma eqb_neq x y : x <> y -> eqb x y = false.
  Proof. intros H. destruct (eqb x y) eqn:E; [|reflexivity]. apply Heq in E. contradiction. Qed.
  Lemma eqb_dec (x y : T) : {x = y} + {x <> y}.
  Proof. destruct (eqb x y) eqn:E; [left; now apply Heq|right; intros ->; rewrite eqb_refl in E; discriminate]. Qed.
  Lemma in_dec_T (x : T) l : {In x l} + {~ In x l}.
  Proof. apply in_dec, eqb_dec. Qed.

  Lemma m_find_in {V} (m : list (T * V)) k v : m_find eqb m k = Some v -> In (k, v) m.
  Proof.
    induction m as [|[x w] r IH]; cbn; [discriminate|]. destruct (eqb x k) eqn:E.
    - intros [= ->]. apply Heq in E. subst. now left.
    - intros H. right. auto.
  Qed.
  Lemma m_find_none {V} (m : list (T * V)) k : m_find eqb m k = None <-> ~ In k (map fst m).
  Proof.
    induction m as [|[x w] r IH]; cbn; [tauto|]. destruct (eqb x k) eqn:E.
    - apply Heq in E. subst. split; [discriminate|]. intros H. exfalso. apply H. now left.
    - rewrite IH. split; intros H; [intros [->|H']; [rewrite eqb_refl in E; discriminate|auto]|auto].
  Qed.
  Lemma m_find_nodup {V} (m : list (T * V)) k v : NoDup (map fst m) -> In (k, v) m -> m_find eqb m k = Some v.
  Proof.
    induction m as [|[x w] r IH]; cbn; [contradiction|]. intros ND [[= -> ->]|H].
    - now rewrite eqb_refl.
    - inversion ND; subst. rewrite eqb_neq; [auto|]. intros ->. apply H2. now apply (in_map fst) in H.
  Qed.
  Lemma m_find_app {V} (a b : list (T * V)) k :
    m_find eqb (a ++ b) k = match m_find eqb a k with Some v => Some v | None => m_find eqb b k end.
  Proof. induction a as [|[x w] r IH]; cbn; [reflexivity|]. now destruct (eqb x k). Qed.
  Lemma m_update_keys {V} (m : list (T * V)) k f : map fst (m_update eqb m k f) = map fst m.
  Proof. induction m as [|[x w] r IH]; cbn; [reflexivity|]. destruct (eqb x k); cbn; [reflexivity|now rewrite IH]. Qed.
  Lemma m_update_find {V} (m : list (T * V)) k f k' :
    m_find eqb (m_update eqb m k f) k' = (if eqb k k' then option_map f (m_find eqb m k') else m_find eqb m k').
  Proof.
    induction m as [|[x w] r IH]; cbn; [now destruct (eqb k k')|].
    destruct (eqb x k) eqn:E; cbn.
    - apply Heq in E. subst. destruct (eqb k k'); reflexivity.
    - destruct (eqb x k') eqn:E'; cbn.
      + apply Heq in E'. subst. rewrite eqb_neq; [reflexivity|]. intros ->. rewrite eqb_refl in E. discriminate.
      + exact IH.
  Qed.
  Lemma m_emplace_find {V} (m : list (T * V)) k v k' :
    m_find eqb (m_emplace eqb m k v) k' =
    match m_find eqb m k' with Some w => Some w | None => if eqb k k' then Some v else None end.
  Proof.
    unfold m_emplace. destruct (m_find eqb m k) eqn:E.
    - destruct (m_find eqb m k') eqn:E'; [reflexivity|].
      rewrite eqb_neq; [reflexivity|]. intros ->. congruence.
    - rewrite m_find_app. cbn. destruct (m_find eqb m k'); [reflexivity|now destruct (eqb k k')].
  Qed.
  Lemma m_emplace_nodup {V} (m : list (T * V)) k v : NoDup (map fst m) -> NoDup (map fst (m_emplace eqb m k v)).
  Proof.
    unfold m_emplace. destruct (m_find eqb m k) eqn:E; [auto|]. intros H.
    apply m_find_none in E. rewrite map_app. cbn.
    apply Permutation_NoDup with (l := k :: map fst m); [apply Permutation_cons_append|]. now constructor.
  Qed.
  Lemma m_emplace_in {V} (m : list (T * V)) k v k' :
    In k' (map fst (m_emplace eqb m k v)) <-> In k' (map fst m) \/ k' = k.
  Proof.
    unfold m_emplace. destruct (m_find eqb m k) eqn:E.
    - apply m_find_in, (in_map fst) in E. cbn in E. split; [auto|]. intros [H| ->]; auto.
    - rewrite map_app, in_app_iff. cbn. intuition.
  Qed.
  Lemma m_find_perm {V} (m m' : list (T * V)) k : NoDup (map fst m) -> Permutation m m' -> m_find eqb m k = m_find eqb m' k.
  Proof.
    intros ND P. destruct (m_find eqb m k) eqn:E.
    - symmetry. apply m_find_nodup; [now apply (Permutation_NoDup (Permutation_map fst P))|].
      apply m_find_in in E. now apply (Permutation_in _ P).
    - symmetry. apply m_find_none. apply m_find_none in E. intros H. apply E.
      apply (Permutation_in _ (Permutation_sym (Permutation_map fst P)) H).
  Qed.

  (** ** Histogram *)
  Lemma occ_app x a b : occ eqb x (a ++ b) = occ eqb x a + occ eqb x b.
  Proof. unfold occ. rewrite filter_app, app_length. lia. Qed.
  Lemma occ_zero x l : ~ In x l -> occ eqb x l = 0.
  Proof.
    unfold occ. induction l as [|y r IH]; [reflexivity|]. intros H. cbn.
    rewrite eqb_neq by (intros ->; apply H; now left). apply IH. intros H'. apply H. now right.
  Qed.
  Lemma occ_pos x l : In x l -> 0 < occ eqb x l.
  Proof.
    unfold occ. induction l as [|y r IH]; [contradiction|]. cbn. intros [->|H].
    - rewrite eqb_refl. cbn. lia.
    - specialize (IH H). destruct (eqb x y); cbn; lia.
  Qed.
  Lemma occ_le x l : 0 <= occ eqb x l <= Z.of_nat (length l).
  Proof. unfold occ. pose proof (filter_length_le (eqb x) l). lia. Qed.

  Definition hist_inv (l : list T) (h : list (T * Z)) :=
    NoDup (map fst h) /\ (forall k, In k (map fst h) <-> In k l) /\
    (forall k c, m_find eqb h k = Some c -> c = u32 (occ eqb k l)).

  Lemma m_update_snoc {V} (m : list (T * V)) k v f : m_find eqb m k = None -> m_update eqb (m ++ [(k, v)]) k f = m ++ [(k, f v)].
  Proof.
    induction m as [|[x w] r IH]; cbn; [now rewrite eqb_refl|]. destruct (eqb x k); [discriminate|].
    intros H. now rewrite IH.
  Qed.
  Lemma hist_fit_alt h x : hist_fit eqb h x = Ok (m_update eqb (m_emplace eqb h x 0) x (fun c => u32 (c + 1))).
  Proof.
    unfold hist_fit, m_emplace. destruct (m_find eqb h x) eqn:E; [reflexivity|]. now rewrite m_update_snoc.
  Qed.
  Lemma hist_step l h x h' : hist_inv l h -> hist_fit eqb h x = Ok h' -> hist_inv (l ++ [x]) h'.
  Proof.
    intros (ND & K & C). rewrite hist_fit_alt. intros [= <-]. split; [|split].
    - rewrite m_update_keys. now apply m_emplace_nodup.
    - intros k. rewrite m_update_keys, m_emplace_in, K, in_app_iff. cbn. intuition.
    - intros k c. rewrite m_update_find, m_emplace_find, occ_app.
      destruct (eqb x k) eqn:E.
      + apply Heq in E. subst k.
        replace (occ eqb x [x]) with 1 by (unfold occ; cbn; rewrite eqb_refl; reflexivity).
        destruct (m_find eqb h x) eqn:F; cbn; intros [= <-].
        * apply C in F. subst. unfold u32. now rewrite Zplus_mod_idemp_l.
        * rewrite occ_zero; [reflexivity|]. rewrite <- K. now apply m_find_none.
      + replace (occ eqb k [x]) with 0.
        2:{ unfold occ. cbn. rewrite eqb_neq; [reflexivity|]. intros ->. rewrite eqb_refl in E. discriminate. }
        rewrite Z.add_0_r. destruct (m_find eqb h k) eqn:F; intros [= <-]. now apply C.
  Qed.

  Lemma foldM_hist l : forall l0 h, hist_inv l0 h -> exists h', foldM (hist_fit eqb) h l = Ok h' /\ hist_inv (l0 ++ l) h'.
  Proof.
    induction l as [|x r IH]; intros l0 h I.
    - exists h. split; [reflexivity|now rewrite app_nil_r].
    - cbn [foldM]. rewrite hist_fit_alt. cbn [bind].
      destruct (IH (l0 ++ [x]) _ (hist_step _ _ x _ I (hist_fit_alt h x))) as (h' & E & I').
      exists h'. split; [exact E|]. now rewrite <- app_assoc in I'.
  Qed.
  Lemma hist_run l : exists h, foldM (hist_fit eqb) [] l = Ok h /\ hist_inv l h.
  Proof. apply (foldM_hist l [] []). split; [constructor|split; cbn; [tauto|discriminate]]. Qed.

  Lemma hist_trained mx bs : proper_training mx bs ->
    exists h, trained (hist_policy eqb) mx bs = Ok (Some h) /\ hist_inv (items mx bs) h.
  Proof.
    intros H. destruct (hist_run (items mx bs)) as (h & E & I). exists h. split; [|exact I].
    unfold hist_policy. rewrite trained_simple by exact H. now rewrite E.
  Qed.
  Lemma hist_spec mx bs : proper_training mx bs ->
    exists h, trained (hist_policy eqb) mx bs = Ok (Some h) /\
      NoDup (map fst h) /\ (forall k, In k (map fst h) <-> In k (items mx bs)) /\
      (forall k c, In (k, c) h -> c = occ eqb k (items mx bs) mod 2 ^ 32).
  Proof.
    intros H. destruct (hist_trained mx bs H) as (h & E & ND & K & C). exists h. repeat split; try assumption; try apply K.
    intros k c Hin. apply C. now apply m_find_nodup.
  Qed.

  (** ** Sorting and index maps *)
  Variable ltb : T -> T -> bool.
  Hypothesis Hirr : forall x, ltb x x = false.
  Hypothesis Htr : forall x y z, ltb x y = true -> ltb y z = true -> ltb x z = true.
  Hypothesis Htot : forall x y, ltb x y = false -> ltb y x = false -> x = y.
  Definition le x y := ltb y x = false.
  Lemma le_trans x y z : le x y -> le y z -> le x z.
  Proof.
    unfold le. intros H1 H2. destruct (ltb z x) eqn:E; [|reflexivity].
    destruct (ltb z y) eqn:E2; [congruence|]. destruct (ltb y z) eqn:E3.
    - rewrite (Htr y z x) in H1; congruence.
    - assert (y = z) by (apply Htot; assumption). subst. congruence.
  Qed.
  Lemma lt_le x y : ltb x y = true -> le x y.
  Proof. unfold le. intros H. destruct (ltb y x) eqn:E; [|reflexivity]. rewrite <- (Hirr x). symmetry. eauto. Qed.
  Lemma le_refl x : le x x. Proof. apply Hirr. Qed.
  Lemma le_antisym x y : le x y -> le y x -> x = y.
  Proof. unfold le. intros. apply Htot; assumption. Qed.

  Lemma s_insert_perm x l : Permutation (s_insert ltb x l) (x :: l).
  Proof.
    induction l as [|y r IH]; cbn; [reflexivity|]. destruct (ltb y x); [|reflexivity].
    rewrite IH. apply perm_swap.
  Qed.
  Lemma s_sort_perm l : Permutation (s_sort ltb l) l.
  Proof. induction l as [|x r IH]; cbn; [reflexivity|]. rewrite s_insert_perm. now constructor. Qed.
  Lemma s_insert_sorted x l : StronglySorted le l -> StronglySorted le (s_insert ltb x l).
  Proof.
    induction l as [|y r IH]; cbn; intros S; [repeat constructor|]. inversion S; subst.
    destruct (ltb y x) eqn:E.
    - constructor; [auto|]. rewrite s_insert_perm. constructor; [now apply lt_le|assumption].
    - constructor; [assumption|]. constructor; [exact E|].
      eapply Forall_impl; [|exact H2]. intros z Hz. exact (le_trans x y z E Hz).
  Qed.
  Lemma s_sort_sorted l : StronglySorted le (s_sort ltb l).
  Proof. induction l as [|x r IH]; cbn; [constructor|]. now apply s_insert_sorted. Qed.
  Lemma sorted_perm_eq a b : StronglySorted le a -> StronglySorted le b -> Permutation a b -> a = b.
  Proof.
    revert b. induction a as [|x r IH]; intros b Sa Sb P.
    - apply Permutation_nil in P. now subst.
    - destruct b as [|y s]; [apply Permutation_sym, Permutation_nil in P; discriminate|].
      inversion Sa; subst. inversion Sb; subst.
      assert (x = y).
      { assert (Hx : In x (y :: s)) by (apply (Permutation_in _ P); now left).
        assert (Hy : In y (x :: r)) by (apply (Permutation_in _ (Permutation_sym P)); now left).
        destruct Hx as [->|Hx]; [reflexivity|]. destruct Hy as [->|Hy]; [reflexivity|].
        rewrite Forall_forall in *. apply le_antisym; auto. }
      subst y. f_equal. apply IH; auto. now apply Permutation_cons_inv in P.
  Qed.
  Lemma s_sort_unique l s : Permutation s l -> StronglySorted le s -> s = s_sort ltb l.
  Proof.
    intros P S. apply sorted_perm_eq; [exact S|apply s_sort_sorted|]. rewrite P. symmetry. apply s_sort_perm.
  Qed.
  Lemma s_sort_ext a b : Permutation a b -> s_sort ltb a = s_sort ltb b.
  Proof. intros P. apply s_sort_unique; [|apply s_sort_sorted]. rewrite s_sort_perm. exact P. Qed.

  (** Rank in a sorted list of distinct values. *)
  Definition below (k : T) (l : list T) : nat := length (filter (fun x => ltb x k) l).
  Lemma below_perm k a b : Permutation a b -> below k a = below k b.
  Proof.
    intros P. unfold below. induction P; cbn; [reflexivity| | |congruence].
    - destruct (ltb x k); cbn; congruence.
    - now destruct (ltb x k), (ltb y k).
  Qed.
  Lemma below_sorted s : StronglySorted le s -> NoDup s -> forall i k, nth_error s i = Some k -> below k s = i.
  Proof.
    induction s as [|x r IH]; intros S ND i k; [destruct i; discriminate|].
    inversion S; subst. inversion ND; subst. rewrite Forall_forall in H2. unfold below. cbn [filter].
    destruct i as [|i]; cbn.
    - intros [= <-]. rewrite Hirr. clear - H2. revert H2. induction r as [|y r IH]; intros H; [reflexivity|]. cbn.
      assert (E : ltb y x = false) by (apply H; now left). rewrite E. apply IH. intros z Hz. apply H. now right.
    - intros E. assert (Hk : In k r) by (eapply nth_error_In; eauto).
      assert (Hxk : ltb x k = true).
      { destruct (ltb x k) eqn:F; [reflexivity|]. exfalso. apply H3.
        replace x with k; [exact Hk|]. symmetry. apply Htot; [exact F|]. now apply H2. }
      rewrite Hxk. cbn. f_equal. now apply IH.
  Qed.

  Definition ext (m : list (T * Z)) (ks : list T) := fold_left (fun m k => m_emplace eqb m k (u32 (Z.of_nat (length m)))) ks m.
  Lemma ext_fresh ks : forall m, NoDup ks -> (forall k, In k ks -> ~ In k (map fst m)) ->
    ext m ks = m ++ combine ks (map (fun i => u32 (Z.of_nat i)) (seq (length m) (length ks))).
  Proof.
    induction ks as [|k r IH]; intros m ND F; cbn; [now rewrite app_nil_r|].
    assert (E : m_find eqb m k = None) by (apply m_find_none, F; now left).
    unfold m_emplace. rewrite E. inversion ND; subst.
    unfold ext in IH. rewrite IH.
    - rewrite app_length. cbn. rewrite Nat.add_1_r, <- app_assoc. reflexivity.
    - assumption.
    - intros j Hj. rewrite map_app, in_app_iff. cbn. intros [H|[H|[]]].
      + apply (F j); [now right|exact H].
      + subst. contradiction.
  Qed.

  Section IndexMap.
    Variables hist existing : list (T * Z).
    Hypothesis NDh : NoDup (map fst hist).
    Hypothesis NDe : NoDup (map fst existing).
    Let ks := s_sort ltb (new_keys eqb hist existing).
    Let nk := new_keys eqb hist existing.
    Lemma nk_nodup : NoDup nk. Proof. now apply NoDup_filter. Qed.
    Lemma nk_in k : In k nk <-> In k (map fst hist) /\ ~ In k (map fst existing).
    Proof.
      unfold nk, new_keys. rewrite filter_In. split; intros [A B]; (split; [exact A|]).
      - apply m_find_none. destruct (m_find eqb existing k); [discriminate|reflexivity].
      - apply m_find_none in B. now rewrite B.
    Qed.
    Lemma ks_nodup : NoDup ks.
    Proof. eapply Permutation_NoDup; [symmetry; apply s_sort_perm|apply nk_nodup]. Qed.
    Lemma index_map_eq : create_index_map eqb ltb hist existing =
      existing ++ combine ks (map (fun i => u32 (Z.of_nat i)) (seq (length existing) (length ks))).
    Proof.
      unfold create_index_map. fold ks. apply ext_fresh; [apply ks_nodup|].
      intros k Hk. apply (Permutation_in _ (s_sort_perm _)) in Hk. apply nk_in in Hk. tauto.
    Qed.
    Lemma combine_fst {A B} (a : list A) (b : list B) : length a = length b -> map fst (combine a b) = a.
    Proof. revert b. induction a as [|x r IH]; intros [|y s]; cbn; try discriminate; [reflexivity|]. intros [= H]. now rewrite IH. Qed.
    Lemma combine_snd {A B} (a : list A) (b : list B) : length a = length b -> map snd (combine a b) = b.
    Proof. revert b. induction a as [|x r IH]; intros [|y s]; cbn; try discriminate; [reflexivity|]. intros [= H]. now rewrite IH. Qed.
    Let len_eq : length ks = length (map (fun i => u32 (Z.of_nat i)) (seq (length existing) (length ks))).
    Proof. now rewrite map_length, seq_length. Qed.
    Lemma index_map_keys : map fst (create_index_map eqb ltb hist existing) = map fst existing ++ ks.
    Proof. rewrite index_map_eq, map_app, combine_fst; [reflexivity|exact len_eq]. Qed.
    Lemma index_map_nodup : NoDup (map fst (create_index_map eqb ltb hist existing)).
    Proof.
      rewrite index_map_keys. apply NoDup_app_iff_aux; [exact NDe|apply ks_nodup|].
      intros k H1 H2. apply (Permutation_in _ (s_sort_perm _)) in H2. apply nk_in in H2. tauto.
    Qed.
    Lemma index_map_in k : In k (map fst (create_index_map eqb ltb hist existing)) <-> In k (map fst existing) \/ In k (map fst hist).
    Proof.
      rewrite index_map_keys, in_app_iff.
      assert (E : In k ks <-> In k nk).
      { split; intros H; [apply (Permutation_in _ (s_sort_perm _) H)|apply (Permutation_in _ (Permutation_sym (s_sort_perm _)) H)]. }
      rewrite E, nk_in. destruct (in_dec_T k (map fst existing)); tauto.
    Qed.
    Lemma index_map_new k : In k (map fst hist) -> ~ In k (map fst existing) ->
      In (k, u32 (Z.of_nat (length existing + below k (filter (fun x => negb (existsb (eqb x) (map fst existing))) (map fst hist)))))
         (create_index_map eqb ltb hist existing).
    Proof.
      intros H1 H2. assert (Hn : In k nk) by (apply nk_in; tauto).
      assert (Hk : In k ks) by (apply (Permutation_in _ (Permutation_sym (s_sort_perm _)) Hn)).
      assert (Efl : filter (fun x => negb (existsb (eqb x) (map fst existing))) (map fst hist) = nk).
      { unfold nk, new_keys. apply filter_ext. intros x. destruct (m_find eqb existing x) eqn:E.
        - apply m_find_in, (in_map fst) in E. cbn in E.
          assert (X : existsb (eqb x) (map fst existing) = true) by (apply existsb_exists; exists x; split; [exact E|apply eqb_refl]).
          now rewrite X.
        - apply m_find_none in E. destruct (existsb (eqb x) (map fst existing)) eqn:X; [|reflexivity].
          apply existsb_exists in X. destruct X as (y & Y1 & Y2). apply Heq in Y2. subst. contradiction. }
      rewrite Efl. clear Efl.
      destruct (In_nth_error _ _ Hk) as (i & Hi).
      assert (B : below k nk = i).
      { rewrite <- (below_perm k _ _ (s_sort_perm nk)). apply below_sorted; [apply s_sort_sorted|apply ks_nodup|exact Hi]. }
      rewrite B, index_map_eq, in_app_iff. right.
      apply nth_error_In with (n := i).
      assert (Hlt : (i < length ks)%nat) by (apply nth_error_Some; congruence).
      clear B.
      enough (G : forall (a : list T) (b : list Z) n x y, nth_error a n = Some x -> nth_error b n = Some y -> nth_error (combine a b) n = Some (x, y)).
      { apply G; [exact Hi|]. rewrite nth_error_map.
        assert (E : nth_error (seq (length existing) (length ks)) i = Some (length existing + i)%nat).
        { rewrite (nth_error_nth' _ 0%nat) by (rewrite seq_length; lia). f_equal. now apply seq_nth. }
        now rewrite E. }
      clear. induction a as [|u a IH]; intros [|v b] [|n] x y; cbn; try discriminate.
      - intros [= ->] [= ->]. reflexivity.
      - apply IH.
    Qed.
    Lemma index_map_old k i : In (k, i) existing -> In (k, i) (create_index_map eqb ltb hist existing).
    Proof. intros H. rewrite index_map_eq, in_app_iff. now left. Qed.
    Lemma index_map_length : length (create_index_map eqb ltb hist existing) = (length existing + length ks)%nat.
    Proof. rewrite index_map_eq, app_length, combine_length, <- len_eq. lia. Qed.
    Lemma index_map_dense :
      Permutation (map snd existing) (map Z.of_nat (seq 0 (length existing))) ->
      Z.of_nat (length (create_index_map eqb ltb hist existing)) <= 2 ^ 32 ->
      Permutation (map snd (create_index_map eqb ltb hist existing))
                  (map Z.of_nat (seq 0 (length (create_index_map eqb ltb hist existing)))).
    Proof.
      intros P L. rewrite index_map_length in *. rewrite index_map_eq, map_app, combine_snd by exact len_eq.
      rewrite seq_app, map_app. cbn. apply Permutation_app; [exact P|].
      replace (map (fun i => u32 (Z.of_nat i)) (seq (length existing) (length ks))) with (map Z.of_nat (seq (length existing) (length ks))); [reflexivity|].
      apply map_ext_in. intros i Hi. apply in_seq in Hi. unfold u32. symmetry. apply Z.mod_small. lia.
    Qed.
  End IndexMap.
End Generic.
