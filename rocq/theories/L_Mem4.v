(** Proofs about M_Mem: grains with matrices, the list of countries. *)
From Verif Require Import Base M_Date M_Mem S_Mem L_Mem L_Mem2 L_Mem3.
Open Scope Z_scope.

Lemma owned_lags_names (h : heap) : forall (l : list (list (list Z) * matrix)) (ps qs : list (option Z)) (o : heap),
  owned_lags ps qs l o -> incl o h ->
  matched (fun p x => exists names, array_at h p (map Ptr names) /\ matched (string_at h) names (fst x)) ps l /\
  matched (fun q x => array_at h q (map Num (m_data (snd x)))) qs l.
Proof.
  induction l as [|x l IH]; intros [|p ps] [|q qs] o Ho Hi; cbn [owned_lags matched] in *; try contradiction; [auto|].
  destruct Ho as (o1 & o2 & -> & (a & d & ns & no & -> & -> & -> & Hns) & H2).
  destruct (IH ps qs o2 H2) as [M1 M2]; [intros y Hy; apply Hi, in_or_app; left; exact Hy|].
  assert (Hj : incl ((d, map Num (m_data (snd x))) :: no ++ [(a, map Ptr ns)]) h) by (intros y Hy; apply Hi, in_or_app; right; exact Hy).
  split; split; try assumption.
  - exists ns. split.
    + exists a. split; [reflexivity|]. apply Hj. right. apply in_or_app. right. left. reflexivity.
    + apply (owned_matched name_owned (string_at h) h) with (o := no); [intros p' s' o'; apply name_shows|exact Hns|].
      intros y Hy. apply Hj. right. apply in_or_app. left. exact Hy.
  - exists d. split; [reflexivity|]. apply Hj. left. reflexivity.
Qed.

(** The five arrays of a result. *)
Definition five (g : lag_arrays) : list Z := [g_data g; g_rows g; g_cols g; g_sizes g; g_names g].

Lemma lag_removes (h : heap) (ks : list Z) (p q : option Z) (x : list (list Z) * matrix) (o : heap) (rest : act unit) (js : list Z) :
  well h -> lag_owned p q x o -> NoDup (map fst o) -> incl o h -> (forall k, In k (map fst o) -> ~ In k ks) ->
  (forall js1, (forall k, In k js1 <-> In k (map fst o)) -> removes h (js1 ++ ks) js rest) ->
  exists js1, (forall k, In k js1 <-> In k (map fst o)) /\
  removes h ks (js ++ js1)
    (thn (match p with None => done tt | Some a => thn (free_names a 0 (length (fst x))) (fun _ => delete_array a) end)
         (fun _ => thn (match q with None => done tt | Some a => delete_array a end) (fun _ => rest))).
Proof.
  intros Hw (a & d & ns & no & -> & -> & -> & Hns) Hn Hi Hk Hrest.
  assert (Ia : In (a, map Ptr ns) h) by (apply Hi; right; apply in_or_app; right; left; reflexivity).
  assert (Id : In (d, map Num (m_data (snd x))) h) by (apply Hi; left; reflexivity).
  assert (Ino : incl no h) by (intros y Hy; apply Hi; right; apply in_or_app; left; exact Hy).
  cbn [map fst] in Hn, Hk. inversion_clear Hn as [|? ? Hd Hn']. destruct (nodup_app _ _ Hn') as (Hn1 & _ & D).
  rewrite map_app in Hd, Hk. cbn [map fst] in Hd, Hk.
  assert (Ha : ~ In a (map fst no)) by (intros G; apply (D a G); left; reflexivity).
  assert (E : forall k, In k ([d] ++ [a] ++ map fst no) <-> In k (map fst ((d, map Num (m_data (snd x))) :: no ++ [(a, map Ptr ns)]))).
  { intros k. cbn [map fst]. rewrite map_app. cbn [map fst app In]. rewrite in_app_iff. cbn [In]. tauto. }
  exists ([d] ++ [a] ++ map fst no). split; [exact E|].
  rewrite !app_assoc. rewrite <- app_assoc. apply removes_thn.
  - apply (removes_thn h ks (map fst no) [a]).
    + apply (free_names_removes h a ns Hw Ia (fst x) [] ns no ks eq_refl Hns Hn1 Ino).
      * intros k Hx. apply Hk. right. apply in_or_app. left. exact Hx.
      * apply Hk. right. apply in_or_app. right. left. reflexivity.
      * exact Ha.
    + apply (removes_delete h _ a _ Hw Ia). intros G. apply in_app_or in G as [G|G]; [exact (Ha G)|].
      revert G. apply Hk. right. apply in_or_app. right. left. reflexivity.
  - apply removes_thn.
    + apply (removes_delete h _ d _ Hw Id). intros G. apply in_app_or in G as [G|G].
      * apply Hd. apply in_or_app. cbn [app In] in G. destruct G as [G|G]; [right; left; exact G|left; exact G].
      * revert G. apply Hk. left. reflexivity.
    + change ([d] ++ ([a] ++ map fst no) ++ ks) with (([d] ++ [a] ++ map fst no) ++ ks). apply Hrest. exact E.
Qed.

Lemma free_lags_removes (h : heap) (g : lag_arrays) (l0 : list (list (list Z) * matrix)) (ps0 qs0 : list (option Z)) :
  well h -> In (g_names g, map Ptr ps0) h -> In (g_sizes g, map size_cell l0) h -> In (g_cols g, map cols_cell l0) h ->
  In (g_rows g, map rows_cell l0) h -> In (g_data g, map Ptr qs0) h ->
  forall (l dn : list (list (list Z) * matrix)) (ps ps' qs qs' : list (option Z)) (o : heap) (ks : list Z),
  ps0 = ps ++ ps' -> qs0 = qs ++ qs' -> l0 = dn ++ l -> length ps = length dn -> length qs = length dn ->
  (forall x, In x l -> fst x <> [] /\ proper_matrix (snd x)) ->
  owned_lags ps' qs' l o -> NoDup (map fst o) -> incl o h ->
  (forall k, In k (map fst o) -> ~ In k ks) -> (forall k, In k (five g) -> ~ In k ks /\ ~ In k (map fst o)) ->
  exists js, (forall k, In k js <-> In k (map fst o)) /\ removes h ks js (free_lags g (length dn) (length l)).
Proof.
  intros Hw H1 H2 H3 H4 H5. induction l as [|x l IH]; intros dn ps [|p ps'] qs [|q qs'] o ks Ep Eq El Lp Lq Hx Ho Hn Hi Hk Hg;
    cbn [owned_lags] in Ho; try contradiction; cbn [free_lags length].
  - subst o. exists []. split; [reflexivity|]. apply removes_done.
  - destruct Ho as (o1 & o2 & -> & Hl & Ho). destruct (nodup_app _ _ Hn) as (Hn2 & Hn1 & D).
    rewrite map_app in Hk, Hg |- *.
    assert (I1 : incl o1 h) by (intros y Hy; apply Hi, in_or_app; right; exact Hy).
    assert (I2 : incl o2 h) by (intros y Hy; apply Hi, in_or_app; left; exact Hy).
    assert (G : forall k, In k (five g) -> ~ In k ks) by (intros k Hkk; exact (proj1 (Hg k Hkk))).
    destruct (Hx x (or_introl eq_refl)) as [Hne (Hr & Hc & _)].
    destruct (IH (dn ++ [x]) (ps ++ [p]) ps' (qs ++ [q]) qs' o2 (map fst o1 ++ ks)) as (js2 & Ej2 & R2).
    { rewrite <- app_assoc. exact Ep. }
    { rewrite <- app_assoc. exact Eq. }
    { rewrite <- app_assoc. exact El. }
    { rewrite !app_length. cbn [length]. lia. }
    { rewrite !app_length. cbn [length]. lia. }
    { intros y Hy. apply Hx. right. exact Hy. }
    { exact Ho. }
    { exact Hn2. }
    { exact I2. }
    { intros k Hy F. apply in_app_or in F as [F|F]; [exact (D k Hy F)|]. apply (Hk k); [apply in_or_app; left; exact Hy|exact F]. }
    { intros k Hkk. destruct (Hg k Hkk) as [G1 G2]. rewrite in_app_iff in G2. split; [intros F; apply in_app_or in F as [F|F]; tauto|tauto]. }
    replace (length (dn ++ [x])) with (S (length dn)) in R2 by (rewrite app_length; cbn [length]; lia).
    destruct (lag_removes h ks p q x o1 (free_lags g (S (length dn)) (length l)) js2 Hw Hl Hn1 I1) as (js1 & Ej1 & R1).
    { intros k Hy. apply Hk, in_or_app. right. exact Hy. }
    { intros js1 Ej1 t. destruct (R2 t) as [t' E]. exists t'.
      assert (ED : forall zs, drop (zs ++ js1 ++ ks) h = drop (zs ++ map fst o1 ++ ks) h).
      { intros zs. apply filter_ext_in. intros [k b] _. apply Bool.eq_iff_eq_true. rewrite !gone_spec, !in_app_iff, Ej1. reflexivity. }
      specialize (ED []) as ED0. cbn [app] in ED0. rewrite ED0, E, <- ED. reflexivity. }
    exists (js2 ++ js1). split; [intros k; rewrite !in_app_iff, Ej1, Ej2; reflexivity|].
    apply (removes_load_ptr h ks _ (g_names g) _ (length dn) p _ Hw H1); [apply G; unfold five; cbn; auto 6|rewrite Ep, <- Lp; apply nth_ptr|].
    apply (removes_load_num h ks _ (g_sizes g) _ (length dn) (Z.of_nat (length (fst x))) _ Hw H2);
      [apply G; unfold five; cbn; auto 6|rewrite El; exact (nth_map size_cell dn l x _ eq_refl)|].
    apply (removes_load_num h ks _ (g_cols g) _ (length dn) (Z.of_nat (m_cols (snd x))) _ Hw H3);
      [apply G; unfold five; cbn; auto 6|rewrite El; exact (nth_map cols_cell dn l x _ eq_refl)|].
    apply (removes_load_num h ks _ (g_rows g) _ (length dn) (Z.of_nat (m_rows (snd x))) _ Hw H4);
      [apply G; unfold five; cbn; auto 6|rewrite El; exact (nth_map rows_cell dn l x _ eq_refl)|].
    apply (removes_load_ptr h ks _ (g_data g) _ (length dn) q _ Hw H5); [apply G; unfold five; cbn; auto 6|rewrite Eq, <- Lq; apply nth_ptr|].
    rewrite Nat2Z.id. unfold consistent. apply removes_require.
    { destruct Hl as (? & ? & ? & ? & -> & _). destruct (fst x); [contradiction|reflexivity]. }
    apply removes_require.
    { destruct Hl as (? & ? & ? & ? & _ & -> & _). apply negb_true_iff, orb_false_iff. split; apply Z.eqb_neq; lia. }
    exact R1.
Qed.

Section Kinds.
  Variable place : nat -> list Z -> option Z.
  Hypothesis Hplace : allocator place.
  Variable what : list Z.

  Definition lags_owned (l : list (list (list Z) * matrix)) (o : option lag_arrays * nat) (owned : heap) : Prop :=
    snd o = length l /\
    match l with
    | [] => fst o = None /\ owned = []
    | _ => exists a b c d e ps qs new, fst o = Some (mkLag a b c d e) /\
        owned = new ++ [(e, map Ptr qs); (d, map rows_cell l); (c, map cols_cell l); (b, map size_cell l); (a, map Ptr ps)] /\
        owned_lags ps qs l new
    end.
  Lemma out_lags_trip (l : list (list (list Z) * matrix)) : trip place [] (out_lags place l) (lags_owned l) (fun _ => True).
  Proof.
    unfold out_lags. destruct l as [|x l].
    - apply trip_done. split; [reflexivity|]. split; reflexivity.
    - eapply trip_thn; [apply (trip_new place Hplace); exact I|]. intros a post -> _.
      eapply trip_thn; [apply (trip_new place Hplace); exact I|]. intros b post -> _.
      eapply trip_thn; [apply (trip_new place Hplace); exact I|]. intros c post -> _.
      eapply trip_thn; [apply (trip_new place Hplace); exact I|]. intros d post -> _.
      eapply trip_thn; [apply (trip_new place Hplace); exact I|]. intros e post -> _.
      eapply trip_thn; [apply (put_lags_trip place Hplace a b c d e [] (x :: l) 0 [] [] [] [] eq_refl eq_refl eq_refl)|].
      intros _ post (ps & qs & new & -> & Hl) _. apply trip_done. split; [reflexivity|]. exists a, b, c, d, e, ps, qs, new. auto.
  Qed.
  Lemma lags_given (l : list (list (list Z) * matrix)) :
    ((forall x, In x l -> fst x <> [] /\ proper_matrix (snd x)) ->
     handed_over place what (out_lags place l) (fun o => destroy_lags (fst o) (snd o)) (shows_lags l)) /\
    ends place what (out_lags place l).
  Proof.
    assert (T := out_lags_trip l). split; [|exact (ends_of place Hplace what _ _ _ T)].
    intros Hx. refine (glue place what _ _ _ _ _ T _).
    intros [p n] owned h [Hc Ho] Hn Hw Hi. unfold shows_lags, destroy_lags. cbn [fst snd] in *.
    destruct l as [|x l]; subst n.
    - destruct Ho as (-> & ->). split; [split; reflexivity|]. exists []. split; [reflexivity|].
      intros t. exists t. cbn. rewrite drop_nil. reflexivity.
    - destruct Ho as (a & b & c & d & e & ps & qs & new & -> & -> & Hl).
      assert (Inew : incl new h) by (intros y Hy; apply Hi, in_or_app; left; exact Hy).
      assert (Ie : In (e, map Ptr qs) h) by (apply Hi, in_or_app; right; cbn; auto 6).
      assert (Id : In (d, map rows_cell (x :: l)) h) by (apply Hi, in_or_app; right; right; left; reflexivity).
      assert (Ic : In (c, map cols_cell (x :: l)) h) by (apply Hi, in_or_app; right; right; right; left; reflexivity).
      assert (Ib : In (b, map size_cell (x :: l)) h) by (apply Hi, in_or_app; right; right; right; right; left; reflexivity).
      assert (Ia : In (a, map Ptr ps) h) by (apply Hi, in_or_app; right; right; right; right; right; left; reflexivity).
      destruct (nodup_app _ _ Hn) as (Hn1 & Hn2 & D). cbn [map fst] in Hn2, D.
      destruct (owned_lags_names h (x :: l) ps qs new Hl Inew) as [M1 M2].
      split.
      { split; [reflexivity|]. exists (mkLag a b c d e), ps, qs. cbn [g_names g_sizes g_cols g_rows g_data].
        split; [reflexivity|]. split; [exists a; split; [reflexivity|exact Ia]|]. split; [exists b; split; [reflexivity|exact Ib]|].
        split; [exists c; split; [reflexivity|exact Ic]|]. split; [exists d; split; [reflexivity|exact Id]|].
        split; [exists e; split; [reflexivity|exact Ie]|]. split; assumption. }
      destruct (free_lags_removes h (mkLag a b c d e) (x :: l) ps qs Hw Ia Ib Ic Id Ie (x :: l) [] [] ps [] qs new []
                  eq_refl eq_refl eq_refl eq_refl eq_refl Hx Hl Hn1 Inew) as (js & Ej & Rj).
      { intros k _ []. }
      { intros k Hk. split; [intros []|]. intros G. exact (D k G Hk). }
      assert (NI : forall k, In k [e; d; c; b; a] -> ~ In k js) by (intros k Hk G; apply Ej in G; exact (D k G Hk)).
      exists ([e] ++ [d] ++ [c] ++ [b] ++ [a] ++ js). split.
      { intros k. rewrite map_app, !in_app_iff, Ej. cbn [map fst In]. tauto. }
      apply removes_require; [reflexivity|].
      inversion_clear Hn2 as [|? ? N1 T1]. inversion_clear T1 as [|? ? N2 T2]. inversion_clear T2 as [|? ? N3 T3].
      inversion_clear T3 as [|? ? N4 _]. cbn [In] in N1, N2, N3, N4.
      rewrite !app_assoc. apply removes_thn; [exact Rj|].
      apply (removes_ext h _ (((([e] ++ [d]) ++ [c]) ++ [b]) ++ [a])); [reflexivity|].
      apply removes_thn.
      { apply (removes_delete h _ a _ Hw Ia). rewrite app_nil_r. apply NI. cbn; auto 6. }
      apply removes_thn.
      { apply (removes_delete h _ b _ Hw Ib). rewrite app_nil_r. intros [G|G]; [apply N4; left; exact G|]. revert G. apply NI. cbn; auto 6. }
      apply removes_thn.
      { apply (removes_delete h _ c _ Hw Ic). rewrite app_nil_r. intros [G|[G|G]]; [apply N3; auto|apply N3; auto|].
        revert G. apply NI. cbn; auto 6. }
      apply removes_thn.
      { apply (removes_delete h _ d _ Hw Id). rewrite app_nil_r. intros [G|[G|[G|G]]]; [apply N2; auto|apply N2; auto|apply N2; auto|].
        revert G. apply NI. cbn; auto 6. }
      apply (removes_delete h _ e _ Hw Ie). rewrite app_nil_r. intros [G|[G|[G|[G|G]]]]; [apply N1; auto|apply N1; auto|apply N1; auto|apply N1; auto|].
      revert G. apply NI. cbn; auto 6.
  Qed.

  (* -------------------------------------------------- the list of countries -------------------------------------------------- *)
  Fixpoint names_heap (addresses : list Z) (l : list (list Z)) : heap :=
    match addresses, l with
    | a :: r, s :: t => names_heap r t ++ [(a, map Num s ++ [Num 0])]
    | _, _ => []
    end.
  Lemma names_owned : forall (l : list (list Z)) (addresses : list Z), length addresses = length l ->
    owned_list name_owned (map Some addresses) l (names_heap addresses l).
  Proof using Type.
    induction l as [|s l IH]; intros [|a r] E; try discriminate E; [reflexivity|]. cbn [map names_heap owned_list].
    exists [(a, map Num s ++ [Num 0])], (names_heap r l). split; [reflexivity|]. split; [exists a; split; reflexivity|].
    apply IH. injection E as E. exact E.
  Qed.
  Lemma with_texts_trip {A : Type} (Q : A -> heap -> Prop) (l : list (list Z)) :
    forall (R : heap -> Prop) (k : list Z -> act A) (pre : heap), R pre ->
    (forall addresses, length addresses = length l ->
       trip place (names_heap addresses l ++ pre) (k addresses) Q (fun post => exists xs, post = xs ++ pre /\ R pre /\ xs = names_heap addresses l)) ->
    trip place pre (with_texts place l k) Q R.
  Proof.
    induction l as [|s l IH]; intros R k pre HR Hk; cbn [with_texts].
    - eapply trip_mono; [apply (Hk [] eq_refl)|auto|]. intros post _ (xs & -> & Hp & ->). exact Hp.
    - eapply trip_thn; [apply (trip_new place Hplace); exact HR|]. intros a post -> _. apply trip_guard. eapply trip_thn.
      { eapply (trip_eq place _ ([] ++ (a, repeat Junk (length (map Num s ++ [Num 0]))) :: pre)).
        - rewrite app_length, map_length. cbn [length app]. rewrite Nat.add_1_r. reflexivity.
        - eapply (trip_mono place _ _ _ _ (fun _ => False)); [apply trip_fill_all|intros u post _ H; exact H|intros post _ []]. }
      intros _ post -> _. cbn [app]. apply IH.
      + exists [], pre, (map Num s ++ [Num 0]). split; [reflexivity|exact HR].
      + intros addresses Hl. eapply trip_eq; [|eapply trip_mono; [apply (Hk (a :: addresses))|..]].
        * cbn [names_heap]. rewrite <- app_assoc. reflexivity.
        * cbn [length]. f_equal. exact Hl.
        * auto.
        * intros post _ (xs & -> & Hp & ->). exists (names_heap addresses l). split; [cbn [names_heap]; rewrite <- app_assoc; reflexivity|].
          split; [|reflexivity]. exists [], pre, (map Num s ++ [Num 0]). split; [reflexivity|exact HR].
  Qed.
  Definition countries_owned (l : list (list Z)) (o : option Z * nat) (owned : heap) : Prop :=
    snd o = length l /\
    match l with
    | [] => fst o = None /\ owned = []
    | _ => exists a ps new, fst o = Some a /\ owned = (a, map Ptr ps) :: new /\ owned_list name_owned ps l new
    end.
  Lemma out_countries_trip (l : list (list Z)) : trip place [] (out_countries place l) (countries_owned l) (fun post => post = []).
  Proof.
    unfold out_countries. destruct l as [|x l].
    - apply trip_done. split; [reflexivity|]. split; reflexivity.
    - eapply trip_thn; [apply (trip_new place Hplace); reflexivity|]. intros v post -> _. eapply trip_thn.
      { apply trip_guard.
        apply (with_texts_trip (fun o post => exists p addresses, o = (Some p, length (x :: l)) /\ length addresses = length (x :: l) /\
          post = ((p, map (fun a => Ptr (Some a)) addresses) :: names_heap addresses (x :: l)) ++ [(v, repeat Junk (length (x :: l)))])).
        - exists [], [], (repeat Junk (length (x :: l))). split; reflexivity.
        - intros addresses Ha. eapply trip_thn.
          { apply (trip_new place Hplace). exists (names_heap addresses (x :: l)). split; [reflexivity|]. split; [|reflexivity].
            exists [], [], (repeat Junk (length (x :: l))). split; reflexivity. }
          intros p post -> _. apply trip_guard. eapply trip_thn.
          { eapply (trip_eq place _ ([] ++ (p, repeat Junk (length (map (fun a => Ptr (Some a)) addresses))) ::
              names_heap addresses (x :: l) ++ [(v, repeat Junk (length (x :: l)))])).
            - rewrite map_length, Ha. reflexivity.
            - eapply (trip_mono place _ _ _ _ (fun _ => False)); [apply trip_fill_all|intros u post _ H; exact H|intros post _ []]. }
          intros _ post -> _. apply trip_done. exists p, addresses. split; [reflexivity|]. split; [exact Ha|]. reflexivity. }
      intros o post (p & addresses & -> & Ha & ->) _. eapply trip_thn.
      { eapply (trip_mono place _ _ _ _ (fun _ => False)); [apply trip_delete|intros u post _ H; exact H|intros post _ []]. }
      intros _ post -> _. rewrite app_nil_r. apply trip_done. split; [reflexivity|].
      exists p, (map Some addresses), (names_heap addresses (x :: l)). split; [reflexivity|].
      split; [rewrite map_map; reflexivity|]. exact (names_owned (x :: l) addresses Ha).
  Qed.
  Lemma countries_given (l : list (list Z)) :
    handed_over place what (out_countries place l) (fun o => destroy_countries (fst o) (snd o)) (shows_countries l) /\
    ends place what (out_countries place l) /\ leaks_nothing place what (out_countries place l).
  Proof.
    assert (T := out_countries_trip l).
    split; [|split; [exact (ends_of place Hplace what _ _ _ T)|exact (leaks_of place what _ _ T)]].
    refine (glue place what _ _ _ _ _ T _).
    intros [p n] owned h [Hc Ho] Hn Hw Hi. cbn [fst snd] in *. unfold shows_countries, destroy_countries, consistent. cbn [fst snd].
    destruct l as [|x l]; subst n.
    - destruct Ho as [-> ->]. split; [split; reflexivity|]. exists []. split; [reflexivity|].
      apply removes_require; [reflexivity|]. apply removes_done.
    - destruct Ho as (a & ps & new & -> & -> & Hq).
      assert (Ia : In (a, map Ptr ps) h) by (apply Hi; left; reflexivity).
      assert (In_ : incl new h) by (intros y Hy; apply Hi; right; exact Hy).
      cbn [map fst] in Hn. inversion_clear Hn as [|? ? Ha Hn1].
      split.
      { split; [reflexivity|]. exists ps. split; [exists a; split; [reflexivity|exact Ia]|].
        apply (owned_matched name_owned (string_at h) h) with (o := new); [intros p' s' o'; apply name_shows|exact Hq|exact In_]. }
      exists ([a] ++ map fst new). split; [reflexivity|].
      apply removes_require; [reflexivity|]. apply removes_thn.
      + apply (free_names_removes h a ps Hw Ia (x :: l) [] ps new [] eq_refl Hq Hn1 In_); [intros k _ []|intros []|exact Ha].
      + apply (removes_delete h _ a _ Hw Ia). rewrite app_nil_r. exact Ha.
  Qed.
End Kinds.
