(** The mode of floating point columns: NaN is equal to nothing, and different values can be equal (0 and -0).
    The training data is relabelled: each value by the position of the first one equal to it, each null by its own position. *)
From Verif Require Import Base L_List M_Estimator M_Stats S_Stats L_Estimator L_Stats L_Stats2 M_Impute S_Impute M_Pipeline L_Impute.
Local Open Scope nat_scope.

Lemma find_ext {A} (f g : A -> bool) l : (forall x, f x = g x) -> find f l = find g l.
Proof. intros H. induction l as [|x r IH]; cbn; [reflexivity|]. now rewrite H, IH. Qed.
Lemma map_nth_all {A} (l : list A) d : map (fun i => nth i l d) (seq 0 (length l)) = l.
Proof.
  induction l as [|x r IH]; [reflexivity|]. cbn [length seq map nth]. f_equal. rewrite <- seq_shift, map_map. exact IH.
Qed.
Lemma find_seq_some f n j : find f (seq 0 n) = Some j -> f j = true /\ j < n /\ forall k, k < j -> f k = false.
Proof.
  intros H. pose proof (find_some _ _ H) as [Hi Hf]. apply in_seq in Hi. split; [exact Hf|]. split; [lia|]. intros k Hk.
  assert (G : forall a n, find f (seq a n) = Some j -> a <= k -> f k = false).
  { intros a m. revert a. induction m as [|m IH]; intros a E Ha; [discriminate|]. cbn in E. destruct (f a) eqn:Fa; [injection E as ->; lia|].
    destruct (Nat.eq_dec a k) as [<-|]; [exact Fa|]. apply (IH (S a) E). lia. }
  apply (G 0 n H). lia.
Qed.

Section FloatMode.
  Context {T : Type}.
  Variable eqb : T -> T -> bool.
  Hypothesis Hrefl : forall x, eqb x x = true.
  Hypothesis Hsym : forall x y, eqb x y = eqb y x.
  Hypothesis Htrans : forall x y z, eqb x y = true -> eqb y z = true -> eqb x z = true.
  Notation e := (feqb eqb).

  Lemma fsym a b : e a b = e b a.
  Proof. destruct a, b; cbn; try reflexivity. apply Hsym. Qed.
  Lemma ftrans a b c : e a b = true -> e b c = true -> e a c = true.
  Proof. destruct a, b, c; cbn; try discriminate. apply Htrans. Qed.
  Lemma fcong a b c : e a b = true -> e a c = e b c.
  Proof.
    intros H. destruct (e b c) eqn:E; [exact (ftrans _ _ _ H E)|]. destruct (e a c) eqn:E2; [|reflexivity].
    rewrite fsym in H. rewrite (ftrans _ _ _ H E2) in E. discriminate.
  Qed.

  Variable l : list (option T).
  Notation n := (length l).
  Definition x (i : nat) : option T := nth i l None.
  Definition lab (i : nat) : nat := match find (fun j => e (x j) (x i)) (seq 0 n) with Some j => j | None => i end.
  Definition sup (i : nat) : bool := not_null (x i).

  Lemma lab_some i : i < n -> sup i = true -> e (x (lab i)) (x i) = true /\ lab i <= i /\ forall j, j < lab i -> e (x j) (x i) = false.
  Proof.
    intros Hi Hs. unfold lab. destruct (find (fun j => e (x j) (x i)) (seq 0 n)) as [j|] eqn:F.
    - destruct (find_seq_some _ _ _ F) as (A & B & C). split; [exact A|]. split; [|exact C]. destruct (le_lt_dec j i); [assumption|].
      exfalso. specialize (C i l0). unfold sup in Hs. destruct (x i) as [v|]; [|discriminate]. cbn in C. rewrite Hrefl in C. discriminate.
    - exfalso. assert (Hx : e (x i) (x i) = false) by (apply (find_none _ _ F i); apply in_seq; lia). unfold sup in Hs. destruct (x i) as [v|]; [|discriminate]. cbn in Hx. rewrite Hrefl in Hx. discriminate.
  Qed.
  Lemma lab_none i : sup i = false -> lab i = i.
  Proof.
    intros Hs. unfold lab, sup in *. destruct (x i) as [v|] eqn:E; [discriminate|].
    destruct (find _ _) as [j|] eqn:F; [|reflexivity]. apply find_some in F as [_ F]. destruct (x j); discriminate.
  Qed.
  Lemma lab_le i : i < n -> lab i <= i.
  Proof. intros Hi. destruct (sup i) eqn:E; [now apply lab_some|]. rewrite lab_none; auto. Qed.
  Lemma e_sup i j : e (x i) (x j) = true -> sup i = true /\ sup j = true.
  Proof. unfold sup. destruct (x i), (x j); cbn; try discriminate; auto. Qed.
  Lemma lab_cong i j : i < n -> j < n -> e (x i) (x j) = true -> lab i = lab j.
  Proof.
    intros Hi Hj H. unfold lab. rewrite (find_ext (fun k => e (x k) (x i)) (fun k => e (x k) (x j))).
    - destruct (find _ _) eqn:F; [reflexivity|]. exfalso. assert (G : e (x i) (x j) = false) by (apply (find_none _ _ F i); apply in_seq; lia). congruence.
    - intros k. rewrite (fsym (x k) (x i)), (fsym (x k) (x j)). now apply fcong.
  Qed.
  Lemma lab_idem i : i < n -> lab (lab i) = lab i.
  Proof.
    intros Hi. destruct (sup i) eqn:E; [|rewrite (lab_none i E); exact (lab_none i E)].
    destruct (lab_some i Hi E) as (A & B & _). apply lab_cong; [lia|exact Hi|exact A].
  Qed.
  Lemma e_lab i j : i < n -> j < n -> e (x j) (x i) = (lab j =? lab i) && sup i.
  Proof.
    intros Hi Hj. destruct (e (x j) (x i)) eqn:E.
    - destruct (e_sup _ _ E) as [_ S]. rewrite (lab_cong j i Hj Hi E), Nat.eqb_refl, S. reflexivity.
    - destruct (Nat.eqb_spec (lab j) (lab i)) as [L|]; [|reflexivity]. destruct (sup i) eqn:S; [|reflexivity]. exfalso.
      destruct (lab_some i Hi S) as (A & _). destruct (e_sup _ _ A) as [S2 _].
      destruct (sup j) eqn:Sj.
      + destruct (lab_some j Hj Sj) as (A2 & _). rewrite L in A2. rewrite fsym in A2. rewrite (ftrans _ _ _ A2 A) in E. discriminate.
      + rewrite (lab_none j Sj) in L. congruence.
  Qed.
  (** Keys are labels of earlier positions. *)
  Definition labels (i : nat) : list nat := map lab (seq 0 i).
  Definition rel {V} (h : list (nat * V)) : list (option T * V) := map (fun p => (x (fst p), snd p)) h.
  Lemma key_test i k : i < n -> In k (labels i) -> e (x k) (x i) = (k =? lab i).
  Proof.
    intros Hi Hk. apply in_map_iff in Hk as (j & <- & Hj). apply in_seq in Hj.
    pose proof (lab_le j ltac:(lia)) as Lj. rewrite e_lab, lab_idem by lia. destruct (sup i) eqn:S; [now rewrite andb_true_r|].
    rewrite andb_false_r, (lab_none i S). symmetry. apply Nat.eqb_neq. lia.
  Qed.
  Lemma find_rel {V} i (h : list (nat * V)) : i < n -> (forall k, In k (map fst h) -> In k (labels i)) -> m_find e (rel h) (x i) = m_find Nat.eqb h (lab i).
  Proof.
    intros Hi. induction h as [|[k v] h IH]; intros Hk; [reflexivity|]. cbn [rel map m_find fst snd]. rewrite key_test by (try exact Hi; apply Hk; now left).
    destruct (k =? lab i); [reflexivity|]. apply IH. intros k' H'. apply Hk. now right.
  Qed.
  Lemma update_rel {V} i (h : list (nat * V)) f : i < n -> (forall k, In k (map fst h) -> In k (labels i)) -> m_update e (rel h) (x i) f = rel (m_update Nat.eqb h (lab i) f).
  Proof.
    intros Hi. induction h as [|[k v] h IH]; intros Hk; [reflexivity|]. cbn [rel map m_update fst snd]. rewrite key_test by (try exact Hi; apply Hk; now left).
    destruct (k =? lab i); [reflexivity|]. cbn [map fst snd]. f_equal. apply IH. intros k' H'. apply Hk. now right.
  Qed.
  Lemma lab_new i : i < n -> ~ In (lab i) (labels i) -> lab i = i.
  Proof.
    intros Hi H. pose proof (lab_le i Hi). destruct (Nat.eq_dec (lab i) i); [assumption|]. exfalso. apply H. apply in_map_iff. exists (lab i).
    split; [now apply lab_idem|]. apply in_seq. lia.
  Qed.
  Notation neq := (fun a b : nat => proj1 (Nat.eqb_eq a b)).
  Lemma Heqn : forall a b : nat, (a =? b) = true <-> a = b. Proof. exact Nat.eqb_eq. Qed.
  Lemma labels_S i : labels (S i) = labels i ++ [lab i].
  Proof. unfold labels. now rewrite seq_S, map_app. Qed.
  Lemma xs_S i : map x (seq 0 (S i)) = map x (seq 0 i) ++ [x i].
  Proof. now rewrite seq_S, map_app. Qed.

  Lemma hist_labels i : i <= n -> exists h, foldM (hist_fit Nat.eqb) [] (labels i) = Ok h /\ foldM (hist_fit e) [] (map x (seq 0 i)) = Ok (rel h).
  Proof.
    induction i as [|i IH]; intros Hi; [exists []; split; reflexivity|]. destruct IH as (h & A & B); [lia|].
    assert (I : hist_inv Nat.eqb (labels i) h).
    { destruct (hist_run Nat.eqb Heqn (labels i)) as (h0 & E0 & I0). congruence. }
    destruct I as (ND & K & C).
    assert (Hk : forall k, In k (map fst h) -> In k (labels i)) by (intros k; apply K).
    rewrite labels_S, xs_S, !foldM_app, A, B. cbn [bind foldM]. unfold hist_fit. rewrite find_rel by (try exact Hk; lia).
    destruct (m_find Nat.eqb h (lab i)) eqn:F.
    - eexists. split; [reflexivity|]. cbn [bind]. rewrite update_rel by (try exact Hk; lia). reflexivity.
    - eexists. split; [reflexivity|]. cbn [bind]. apply (m_find_none Nat.eqb Heqn) in F.
      assert (L : lab i = i) by (apply lab_new; [lia|]; intros G; apply F, K, G). unfold rel. rewrite map_app. cbn [map fst snd]. now rewrite L.
  Qed.
  Lemma order_labels i : i <= n -> exists o, foldM (order_fit Nat.eqb) [] (labels i) = Ok o /\ foldM (order_fit e) [] (map x (seq 0 i)) = Ok (rel o) /\ forall k, In k (map fst o) <-> In k (labels i).
  Proof.
    induction i as [|i IH]; intros Hi; [exists []; split; [reflexivity|split; [reflexivity|reflexivity]]|]. destruct IH as (o & A & B & K); [lia|].
    assert (Hk : forall k, In k (map fst o) -> In k (labels i)) by (intros k; apply K).
    rewrite labels_S, xs_S, !foldM_app, A, B. cbn [bind foldM]. unfold order_fit. cbn [bind].
    eexists. split; [reflexivity|]. split.
    - unfold m_emplace. rewrite find_rel by (try exact Hk; lia). destruct (m_find Nat.eqb o (lab i)) eqn:F; [reflexivity|]. 
      apply (m_find_none Nat.eqb Heqn) in F. assert (L : lab i = i) by (apply lab_new; [lia|]; intros G; apply F, K, G).
      unfold rel. rewrite map_app, map_length. cbn [map fst snd]. now rewrite L.
    - intros k. rewrite (m_emplace_in Nat.eqb Heqn), K, in_app_iff. cbn. intuition.
  Qed.

  (** *** The loop over the histogram *)
  Definition relbest (b : option (nat * Z * Z)) : option (option T * Z * Z) := option_map (fun t => (x (fst (fst t)), snd (fst t), snd t)) b.
  Lemma order_find (o : list (nat * Z)) k : (forall j, In j (map fst o) -> In j (labels n)) -> In k (labels n) -> sup k = true ->
    m_find e (rel o) (x k) = m_find Nat.eqb o k.
  Proof.
    intros Ho Hk Hs. apply in_map_iff in Hk as (i & <- & Hi). apply in_seq in Hi. assert (Hi' : i < n) by lia. pose proof (lab_le i Hi') as Li.
    induction o as [|[j v] o IH]; [reflexivity|]. cbn [rel map m_find fst snd].
    assert (Hj : In j (labels n)) by (apply Ho; now left). apply in_map_iff in Hj as (j' & <- & Hj'). apply in_seq in Hj'. assert (Hj2 : j' < n) by lia. pose proof (lab_le j' Hj2).
    rewrite e_lab, !lab_idem, Hs, andb_true_r by lia. destruct (lab j' =? lab i); [reflexivity|]. apply IH. intros j2 H2. apply Ho. now right.
  Qed.
  Lemma mode_step_rel o b p : (forall j, In j (map fst o) -> In j (labels n)) -> In (fst p) (labels n) ->
    mode_step e not_null (rel o) (Ok (relbest b)) (x (fst p), snd p) = match mode_step Nat.eqb sup o (Ok b) p with Ok b' => Ok (relbest b') | Throw ex => Throw ex | UB => UB end.
  Proof.
    intros Ho Hp. destruct p as [k c]. cbn [fst snd] in *. unfold mode_step. cbn [bind fst snd].
    assert (E : (match relbest b with None => true | Some (_, c0, _) => (c0 <=? c)%Z end) = match b with None => true | Some (_, c0, _) => (c0 <=? c)%Z end) by (destruct b as [[[v c0] i0]|]; reflexivity).
    rewrite E. destruct (match b with None => true | Some (_, c0, _) => (c0 <=? c)%Z end); [|reflexivity].
    change (not_null (x k)) with (sup k). destruct (sup k) eqn:S; [|reflexivity]. cbn [negb]. rewrite order_find by assumption.
    destruct (m_find Nat.eqb o k) as [idx|]; [|reflexivity]. destruct b as [[[v c0] i0]|]; [|reflexivity]. cbn [relbest option_map fst snd].
    destruct ((c =? c0)%Z && (i0 <? idx)%Z); reflexivity.
  Qed.
  Lemma fold_fail {A B} (f : res A -> B -> res A) (Hf : forall b ex, f (Throw ex) b = Throw ex) (Hu : forall b, f UB b = UB) h :
    (forall ex, fold_left f h (Throw ex) = Throw ex) /\ fold_left f h UB = UB.
  Proof. induction h as [|b h [IH1 IH2]]; [split; reflexivity|]. cbn [fold_left]. split; [intros ex; rewrite Hf; apply IH1|rewrite Hu; apply IH2]. Qed.
  Lemma mode_fold_rel o h : (forall j, In j (map fst o) -> In j (labels n)) -> forall b, (forall k, In k (map fst h) -> In k (labels n)) ->
    fold_left (mode_step e not_null (rel o)) (rel h) (Ok (relbest b)) =
    match fold_left (mode_step Nat.eqb sup o) h (Ok b) with Ok b' => Ok (relbest b') | Throw ex => Throw ex | UB => UB end.
  Proof.
    intros Ho. induction h as [|p h IH]; intros b Hh; [reflexivity|]. cbn [rel map fold_left]. rewrite mode_step_rel by (try exact Ho; apply Hh; now left).
    destruct (mode_step Nat.eqb sup o (Ok b) p) as [b'|ex|].
    - apply IH. intros k Hk. apply Hh. now right.
    - rewrite (proj1 (fold_fail (mode_step e not_null (rel o)) ltac:(reflexivity) ltac:(reflexivity) _)).
      now rewrite (proj1 (fold_fail (mode_step Nat.eqb sup o) ltac:(reflexivity) ltac:(reflexivity) _)).
    - rewrite (proj2 (fold_fail (mode_step e not_null (rel o)) ltac:(reflexivity) ltac:(reflexivity) _)).
      now rewrite (proj2 (fold_fail (mode_step Nat.eqb sup o) ltac:(reflexivity) ltac:(reflexivity) _)).
  Qed.
  Lemma mode_rel o h : (forall j, In j (map fst o) -> In j (labels n)) -> (forall k, In k (map fst h) -> In k (labels n)) ->
    mode_complete e not_null (rel h) (rel o) = match mode_complete Nat.eqb sup h o with Ok k => Ok (x k) | Throw ex => Throw ex | UB => UB end.
  Proof.
    intros Ho Hh. destruct h as [|p h]; [reflexivity|]. destruct o as [|q o]; [reflexivity|].
    assert (G : forall o1 h1, o1 = q :: o -> h1 = p :: h -> mode_complete e not_null (rel h1) (rel o1) = do b <- fold_left (mode_step e not_null (rel o1)) (rel h1) (Ok None); match b with None => Throw RuntimeError | Some (v, _, _) => Ok v end) by (intros o1 h1 -> ->; reflexivity).
    rewrite (G _ _ eq_refl eq_refl). clear G. change (@None (option T * Z * Z)) with (relbest None).
    rewrite (mode_fold_rel (q :: o) (p :: h) Ho None Hh). unfold mode_complete. destruct (fold_left _ (p :: h) (Ok None)) as [[[[k c] i]|]|ex|]; reflexivity.
  Qed.

  (** *** Back to values *)
  Lemma occ_labels i : i < n -> sup i = true -> occ Nat.eqb (lab i) (labels n) = occ e (x i) l.
  Proof.
    intros Hi Hs. assert (Hl : map x (seq 0 n) = l) by (apply (map_nth_all l None)). unfold occ. f_equal.
    assert (G : forall js, (forall j, In j js -> j < n) -> length (filter (Nat.eqb (lab i)) (map lab js)) = length (filter (e (x i)) (map x js))).
    { induction js as [|j js IH]; intros Hj; [reflexivity|]. cbn [map filter]. rewrite fsym, e_lab by (try exact Hi; apply Hj; now left).
      rewrite Hs, andb_true_r, (Nat.eqb_sym (lab j) (lab i)). destruct (lab i =? lab j); cbn [length]; rewrite IH; auto using in_cons. }
    rewrite <- Hl at 2. apply G. intros j Hj. apply in_seq in Hj. lia.
  Qed.
  Lemma label_index k : In k (labels n) -> exists i, i < n /\ k = lab i /\ lab k = k /\ k <= i.
  Proof. intros H. apply in_map_iff in H as (i & <- & Hi). apply in_seq in Hi. exists i. split; [lia|]. split; [reflexivity|]. split; [apply lab_idem; lia|apply lab_le; lia]. Qed.
  Lemma in_index v : In v l -> exists i, i < n /\ x i = v.
  Proof. intros H. apply (In_nth _ _ None) in H as (i & A & B). eauto. Qed.
  Lemma float_mode_l h h' o : (Z.of_nat n < 2 ^ 32)%Z -> foldM (hist_fit e) [] l = Ok h -> Permutation h h' -> foldM (order_fit e) [] l = Ok o ->
    (exists v a b, mode_complete e not_null h' o = Ok (Some v) /\ l = a ++ Some v :: b /\
       (forall u, In (Some u) a -> eqb u v = false) /\
       forall w, In (Some w) l -> (occ e (Some w) l <= occ e (Some v) l)%Z /\
         (occ e (Some w) l = occ e (Some v) l -> eqb w v = false -> forall u, In (Some u) a -> eqb u w = false))
    \/ (mode_complete e not_null h' o = Throw RuntimeError /\ forall w, ~ In (Some w) l).
  Proof.
    intros Hn Hh HP Ho.
    assert (Hl : map x (seq 0 n) = l) by (apply (map_nth_all l None)).
    destruct (hist_labels n (le_n _)) as (h0 & A1 & A2). rewrite Hl, Hh in A2. injection A2 as ->.
    destruct (order_labels n (le_n _)) as (o0 & B1 & B2 & B3). rewrite Hl, Ho in B2. injection B2 as ->.
    destruct (hist_run Nat.eqb Heqn (labels n)) as (h1 & E1 & I1). rewrite A1 in E1. injection E1 as <-.
    unfold rel in HP. destruct (Permutation_map_inv _ _ (Permutation_sym HP)) as (h2 & -> & P2).
    assert (I2 : hist_inv Nat.eqb (labels n) h2) by (apply (hist_inv_perm Nat.eqb Heqn _ h0); [now symmetry|exact I1]).
    rewrite (order_run Nat.eqb Heqn) in B1. injection B1 as B1.
    fold (rel h2). rewrite mode_rel; [|intros j; apply B3|intros k; apply I2]. rewrite <- B1.
    assert (Hlen : length (labels n) = n) by (unfold labels; now rewrite map_length, seq_length).
    destruct (mode_spec Nat.eqb Heqn sup (labels n) ltac:(rewrite Hlen; exact Hn) h2 I2) as [(k & E & Hk & Sk & M)|[E M]].
    - left. rewrite E. destruct (label_index k Hk) as (i0 & Hi0 & _ & Lk & Le). assert (Hkn : k < n) by lia.
      destruct (x k) as [v|] eqn:Xk; [|unfold sup in Sk; rewrite Xk in Sk; discriminate].
      exists v, (firstn k l), (skipn (S k) l). split; [reflexivity|].
      assert (Hsplit : l = firstn k l ++ Some v :: skipn (S k) l).
      { rewrite <- (firstn_skipn k l) at 1. f_equal. rewrite <- Xk. unfold x. clear - Hkn. revert k Hkn. induction l as [|y r IH]; intros k Hk; [cbn in Hk; lia|].
        destruct k; [reflexivity|]. cbn [skipn nth]. apply IH. cbn in Hk. lia. }
      split; [exact Hsplit|].
      assert (Hin : forall u, In (Some u) (firstn k l) -> exists j, j < k /\ x j = Some u).
      { intros u Hu. apply (In_nth _ _ None) in Hu as (j & Hj & Ej). rewrite firstn_length in Hj. exists j. split; [lia|]. unfold x. rewrite <- Ej.
        clear - Hj. assert (Hjk : j < k) by lia. clear Hj. revert j k Hjk. induction l as [|y r IH]; intros j k Hjk; [destruct k, j; reflexivity|].
        destruct k; [lia|]. destruct j; [reflexivity|]. cbn. apply IH. lia. }
      split.
      + intros u Hu. destruct (Hin u Hu) as (j & Hj & Xj). destruct (lab_some k Hkn Sk) as (_ & _ & F). rewrite Lk in F. specialize (F j Hj). rewrite Xj, Xk in F. exact F.
      + intros w Hw. destruct (in_index _ Hw) as (i & Hi & Xi).
        assert (Si : sup i = true) by (unfold sup; now rewrite Xi).
        destruct (lab_some i Hi Si) as (Ei & Li & _). destruct (e_sup _ _ Ei) as [Sl _].
        assert (Hli : In (lab i) (labels n)) by (apply in_map, in_seq; lia).
        destruct (M (lab i) Hli Sl) as [M1 M2].
        rewrite (occ_labels i Hi Si), Xi in M1, M2. rewrite <- Lk, (occ_labels k Hkn Sk), Xk in M1, M2. split; [exact M1|].
        intros Eo Hne u Hu. rewrite Lk in M2. destruct M2 as (a & b & Hab & Hn2); [exact Eo| |].
        { intros Hc. pose proof (e_lab i k Hi Hkn) as G. rewrite Xi, Xk, Lk, Hc, Nat.eqb_refl, Si in G. cbn in G. rewrite Hsym in G. congruence. }
        destruct (Hin u Hu) as (j & Hj & Xj). destruct (eqb u w) eqn:Euw; [|reflexivity]. exfalso.
        assert (Lj : lab j = lab i) by (apply lab_cong; [lia|exact Hi|rewrite Xj, Xi; exact Euw]).
        assert (Hp : length a < n) by (rewrite <- Hlen, Hab, app_length; cbn; lia).
        assert (Lp : lab (length a) = k).
        { assert (G : nth (length a) (labels n) 0 = k) by (rewrite Hab, app_nth2, Nat.sub_diag by lia; reflexivity).
          unfold labels in G. rewrite (nth_indep _ 0 (lab 0)) in G by (rewrite map_length, seq_length; exact Hp). rewrite map_nth, seq_nth in G by exact Hp. exact G. }
        assert (k <= length a) by (rewrite <- Lp; apply lab_le; exact Hp).
        apply Hn2. rewrite <- Lj. apply in_or_app. left.
        assert (G : nth j (labels n) 0 = lab j).
        { unfold labels. rewrite (nth_indep _ 0 (lab 0)) by (rewrite map_length, seq_length; lia). rewrite map_nth, seq_nth by lia. reflexivity. }
        rewrite Hab, app_nth1 in G by lia. rewrite <- G. apply nth_In. lia.
    - right. rewrite E. split; [reflexivity|]. intros w Hw. destruct (in_index _ Hw) as (i & Hi & Xi).
      assert (Si : sup i = true) by (unfold sup; now rewrite Xi). destruct (lab_some i Hi Si) as (Ei & Li & _). destruct (e_sup _ _ Ei) as [Sl _].
      specialize (M (lab i)). rewrite Sl in M. discriminate M. apply in_map, in_seq. lia.
  Qed.
End FloatMode.

Lemma in_somes {T} (w : T) l : In (Some w) l <-> In w (somes l).
Proof.
  unfold somes. rewrite in_flat_map. split; [intros H; exists (Some w); split; [exact H|now left]|].
  intros ([y|] & H & G); [destruct G as [<-|[]]; exact H|destruct G].
Qed.

Lemma float_mode {T} (eqb : T -> T -> bool) : (forall x, eqb x x = true) -> (forall x y, eqb x y = eqb y x) -> (forall x y z, eqb x y = true -> eqb y z = true -> eqb x z = true) ->
  forall mx bs h h' o, proper_training mx bs -> (Z.of_nat (length (items mx bs)) < 2 ^ 32)%Z ->
  trained (hist_policy (feqb eqb)) mx bs = Ok (Some h) -> Permutation h h' -> trained (order_policy (feqb eqb) []) mx bs = Ok (Some o) ->
  (exists v a b, mode_complete (feqb eqb) not_null h' o = Ok (Some v) /\ items mx bs = a ++ Some v :: b /\
     (forall u, In (Some u) a -> eqb u v = false) /\
     forall w, In (Some w) (items mx bs) -> (occ (feqb eqb) (Some w) (items mx bs) <= occ (feqb eqb) (Some v) (items mx bs))%Z /\
       (occ (feqb eqb) (Some w) (items mx bs) = occ (feqb eqb) (Some v) (items mx bs) -> eqb w v = false -> forall u, In (Some u) a -> eqb u w = false))
  \/ (mode_complete (feqb eqb) not_null h' o = Throw RuntimeError /\ somes (items mx bs) = []).
Proof.
  intros H1 H2 H3 mx bs h h' o Hp Hlen Hh HP Ho.
  unfold hist_policy in Hh. rewrite trained_simple in Hh by exact Hp. unfold order_policy in Ho. rewrite trained_simple in Ho by exact Hp.
  destruct (foldM (hist_fit (feqb eqb)) [] (items mx bs)) as [h1|ex|] eqn:Eh; cbn [bind] in Hh; try discriminate.
  destruct (foldM (order_fit (feqb eqb)) [] (items mx bs)) as [o1|ex|] eqn:Eo; cbn [bind] in Ho; try discriminate.
  assert (Oo : o1 = o) by (destruct o1; cbn [bind] in Ho; congruence). subst o1.
  assert (Hhh : h1 = h) by (cbn [bind] in Hh; congruence). subst h1.
  destruct (float_mode_l eqb H1 H2 H3 (items mx bs) h h' o Hlen Eh HP Eo) as [G|[G1 G2]]; [left; exact G|right].
  split; [exact G1|]. destruct (somes (items mx bs)) as [|w r] eqn:E; [reflexivity|]. exfalso. apply (G2 w). apply in_somes. rewrite E. now left.
Qed.

Lemma float_mode_imputer : forall (T : Type) (eqb : T -> T -> bool),
  (forall x, eqb x x = true) -> (forall x y, eqb x y = eqb y x) -> (forall x y z, eqb x y = true -> eqb y z = true -> eqb x z = true) ->
  let e := feqb eqb in
  forall mx bs h h' o, proper_training mx bs -> (Z.of_nat (length (items mx bs)) < 2 ^ 32)%Z ->
  trained (hist_policy e) mx bs = Ok (Some h) -> Permutation h h' -> trained (order_policy e []) mx bs = Ok (Some o) ->
  (somes (items mx bs) <> [] ->
   exists v a b, items mx bs = a ++ Some v :: b /\ (forall u, In (Some u) a -> eqb u v = false) /\
     (forall w, In (Some w) (items mx bs) -> (occ e (Some w) (items mx bs) <= occ e (Some v) (items mx bs))%Z /\
       (occ e (Some w) (items mx bs) = occ e (Some v) (items mx bs) -> eqb w v = false -> forall u, In (Some u) a -> eqb u w = false)) /\
     exists tc tm, (do m <- mode_complete e not_null h' o; cat_imputer m) = Ok tc /\
       (do m <- mode_complete e not_null h' o; mode_imputer m) = Ok tm /\
       forall l, delivered tc l = (map (replace_null v) l, Ok tt) /\ delivered tm l = (map (replace_null v) l, Ok tt)) /\
  (somes (items mx bs) = [] -> mode_complete e not_null h' o = Throw RuntimeError).
Proof.
  intros T eqb H1 H2 H3 e mx bs h h' o Hp Hlen Hh HP Ho. unfold e in *.
  destruct (float_mode eqb H1 H2 H3 mx bs h h' o Hp Hlen Hh HP Ho) as [(v & a & b & E & A & B & C)|[E N]].
  - split.
    + intros _. exists v, a, b. split; [exact A|]. split; [exact B|]. split; [exact C|]. rewrite E. cbn [bind]. do 2 eexists. split; [reflexivity|]. split; [reflexivity|].
      intros l. split; apply per_value_spec.
    + intros N. exfalso. assert (G : In (Some v) (items mx bs)) by (rewrite A; apply in_or_app; right; now left). apply in_somes in G. rewrite N in G. destruct G.
  - split; [intros G; exfalso; now apply G|]. intros _. exact E.
Qed.
