(** Pruning: the entries that stay. *)
From Verif Require Import Base L_List M_Estimator M_Stats S_Stats L_Estimator L_Stats L_Stats2 L_Stats3 M_String M_Text
  M_Grain M_Scale M_Docs S_Docs L_Docs.

Definition cnt {A} (p : A -> bool) (l : list A) : nat := length (filter p l).

Lemma cnt_perm {A} (p : A -> bool) l l' : Permutation l l' -> cnt p l = cnt p l'.
Proof. unfold cnt. induction 1; cbn; try congruence; [destruct (p x)|destruct (p x), (p y)]; cbn; congruence. Qed.
Lemma cnt_map {A B} (f : A -> B) (p : B -> bool) l : cnt p (map f l) = cnt (fun x => p (f x)) l.
Proof. unfold cnt. induction l as [|x l IH]; [reflexivity|]. cbn. destruct (p (f x)); cbn; congruence. Qed.
Lemma cnt_app {A} (p : A -> bool) l l' : cnt p (l ++ l') = (cnt p l + cnt p l')%nat.
Proof. unfold cnt. rewrite filter_app, app_length. reflexivity. Qed.
Lemma cnt_le {A} (p q : A -> bool) l : (forall x, In x l -> p x = true -> q x = true) -> (cnt p l <= cnt q l)%nat.
Proof.
  unfold cnt. induction l as [|x l IH]; intro H; [apply le_n|]. cbn [filter].
  specialize (IH (fun y Hy => H y (or_intror Hy))). pose proof (H x (or_introl eq_refl)).
  destruct (p x), (q x); cbn [length]; try lia; discriminate (H0 eq_refl).
Qed.
Lemma cnt_lt {A} (p q : A -> bool) l e : (forall x, In x l -> p x = true -> q x = true) -> In e l -> p e = false -> q e = true ->
  (cnt p l < cnt q l)%nat.
Proof.
  unfold cnt. induction l as [|x l IH]; intros H He Hp Hq; [destruct He|]. cbn [filter].
  pose proof (cnt_le p q l (fun y Hy => H y (or_intror Hy))) as Hl. unfold cnt in Hl. pose proof (H x (or_introl eq_refl)).
  destruct He as [->|He].
  - rewrite Hp, Hq. cbn [length]. lia.
  - specialize (IH (fun y Hy => H y (or_intror Hy)) He Hp Hq). destruct (p x), (q x); cbn [length]; try lia; discriminate (H0 eq_refl).
Qed.
Lemma cnt_all {A} (p : A -> bool) l : (forall x, In x l -> p x = true) -> cnt p l = length l.
Proof.
  unfold cnt. induction l as [|x l IH]; intro H; [reflexivity|]. cbn [filter]. rewrite (H x (or_introl eq_refl)). cbn [length].
  rewrite IH; [reflexivity|]. intros y Hy. apply H. right. exact Hy.
Qed.
Lemma cnt_none {A} (p : A -> bool) l : (forall x, In x l -> p x = false) -> cnt p l = 0%nat.
Proof.
  unfold cnt. induction l as [|x l IH]; intro H; [reflexivity|]. cbn [filter]. rewrite (H x (or_introl eq_refl)).
  apply IH. intros y Hy. apply H. right. exact Hy.
Qed.
Lemma cnt_or {A} (p q r : A -> bool) l : (forall x, In x l -> r x = p x || q x) -> (forall x, In x l -> p x && q x = false) ->
  cnt r l = (cnt p l + cnt q l)%nat.
Proof.
  unfold cnt. induction l as [|x l IH]; intros H1 H2; [reflexivity|]. cbn [filter].
  specialize (IH (fun y Hy => H1 y (or_intror Hy)) (fun y Hy => H2 y (or_intror Hy))).
  pose proof (H1 x (or_introl eq_refl)). pose proof (H2 x (or_introl eq_refl)).
  destruct (p x), (q x); try discriminate; rewrite H; cbn [orb length]; lia.
Qed.

Lemma nth_firstn_lt {A} (l : list A) k j d : (j < k)%nat -> nth j (firstn k l) d = nth j l d.
Proof.
  revert k j; induction l as [|x l IH]; intros [|k] [|j] H; cbn; auto; try lia. apply IH. lia.
Qed.

Lemma filter_both {A} (p q : A -> bool) l : filter p (filter q l) = filter (fun x => q x && p x) l.
Proof. induction l as [|x l IH]; [reflexivity|]. cbn [filter]. destruct (q x); cbn [andb filter]; rewrite IH; reflexivity. Qed.

Notation entry := (list Z * Z)%type.
Definition beats (e f : entry) : bool := (snd f <? snd e) || ((snd e =? snd f) && str_lt (fst e) (fst f)).

Lemma nth_error_skip {A} (l : list A) n i : nth_error (skipn n l) i = nth_error l (n + i).
Proof. revert l; induction n as [|n IH]; intro l; [reflexivity|]. destruct l; [destruct i; reflexivity|]. apply IH. Qed.
Lemma skipn_nth_error {A} (l : list A) n x : In x (skipn n l) <-> exists i, (n <= i)%nat /\ nth_error l i = Some x.
Proof.
  split.
  - intro H. apply In_nth_error in H. destruct H as (i & Hi). exists (n + i)%nat. split; [lia|]. rewrite <- nth_error_skip. exact Hi.
  - intros (i & Hi & H). apply (nth_error_In _ (i - n)). rewrite nth_error_skip. rewrite <- H. f_equal. lia.
Qed.
Lemma nodup_key {A B} (l : list (A * B)) a b b' : NoDup (map fst l) -> In (a, b) l -> In (a, b') l -> b = b'.
Proof.
  induction l as [|(x, y) l IH]; intros H H1 H2; [destruct H1|]. cbn [map fst] in H. inversion H; subst.
  assert (G : forall y', In (a, y') l -> In a (map fst l)) by (intros y' Hy; exact (in_map fst _ _ Hy)).
  destruct H1 as [E1|H1], H2 as [E2|H2]; [congruence| | |auto].
  - injection E1 as -> ->. exfalso. eauto.
  - injection E2 as -> ->. exfalso. eauto.
Qed.
Lemma nodup_map_filter {A B} (f : A -> B) p l : NoDup (map f l) -> NoDup (map f (filter p l)).
Proof.
  induction l as [|x l IH]; intro H; [constructor|]. cbn [filter]. cbn [map] in H. inversion H; subst.
  destruct (p x); [|auto]. cbn [map]. constructor; auto. intro Hi. apply in_map_iff in Hi. destruct Hi as (y & E & Hy).
  apply filter_In in Hy. apply H2. rewrite <- E. apply in_map. apply Hy.
Qed.

Section Top.
  Variable nthe : list Z -> nat -> list Z.
  Hypothesis Hnthe : nth_element_ok nthe.

  (** What nth_element gives: the k first are at least the target, the others at most. *)
  Lemma target_split (l : list Z) k : (1 <= k)%nat -> (k < length l)%nat ->
    let v := nthe l (k - 1) in let t := nth (k - 1) v 0 in
    In t l /\ (forall x, In x (firstn k v) -> t <= x) /\ (forall x, In x (skipn k v) -> x <= t) /\ Permutation v l /\ length v = length l.
  Proof using Hnthe.
    intros H1 H2 v t. destruct (Hnthe l (k - 1)%nat ltac:(lia)) as (Hp & Hj). fold v in Hp, Hj. fold t in Hj.
    pose proof (Permutation_length Hp) as Hl. split; [|split; [|split; [|split]]]; auto.
    - apply (Permutation_in _ Hp). apply nth_In. lia.
    - intros x Hx. apply (In_nth _ _ 0) in Hx. destruct Hx as (j & Hlj & <-). rewrite firstn_length in Hlj.
      rewrite nth_firstn_lt by lia. destruct (Nat.eq_dec j (k - 1)) as [->|Hn]; [unfold t; lia|].
      apply (Hj j); lia.
    - intros x Hx. apply skipn_nth_error in Hx. destruct Hx as (j & Hkj & Hx). assert (Hjl : (j < length v)%nat).
      { apply nth_error_Some. congruence. }
      apply (nth_error_nth _ _ 0) in Hx. rewrite <- Hx. apply (Hj j); lia.
  Qed.

  Lemma prune_top_spec (k : nat) (h : list entry) : (1 <= k)%nat -> NoDup (map fst h) ->
    exists keep, prune_top nthe k h = filter keep h /\
      forall e, In e h -> (keep e = true <-> (cnt (fun f => beats f e) h < k)%nat).
  Proof using Hnthe.
    intros Hk Hn. unfold prune_top. destruct (Nat.eqb_spec (length h) 0) as [E0|E0].
    { cbn [orb]. exists (fun _ => true). destruct h; [|discriminate]. split; [reflexivity|intros e []]. }
    cbn [orb]. destruct (Nat.leb_spec (length h) k) as [Hlk|Hlk].
    { exists (fun _ => true). split.
      - symmetry. clear. induction h as [|x h IH]; [reflexivity|]. cbn. rewrite IH. reflexivity.
      - intros e He. split; [intros _|reflexivity]. eapply Nat.lt_le_trans; [|exact Hlk].
        rewrite <- (cnt_all (fun _ => true) h) by reflexivity. apply cnt_lt with (e := e); auto.
        unfold beats. rewrite Z.ltb_irrefl, Z.eqb_refl, str_lt_irr. reflexivity. }
    cbv zeta. pose (v := nthe (map snd h) (k - 1)). fold v. pose (t := nth (k - 1) v 0). fold t.
    destruct (target_split (map snd h) k Hk) as (_ & Hge & Hle & Hp & Hlen); [rewrite map_length; lia|]. fold v in Hge, Hle, Hp, Hlen.
    fold t in Hge, Hle. pose (G := cnt (fun e : entry => t <? snd e) h). pose (Q := cnt (fun e : entry => t =? snd e) h).
    assert (Hlf : length (firstn k v) = k) by (rewrite firstn_length, Hlen, map_length; lia).
    assert (HG : G = cnt (fun x => t <? x) (firstn k v)).
    { unfold G. rewrite <- (cnt_map snd (fun x => t <? x)). rewrite <- (cnt_perm _ _ _ Hp). rewrite <- (firstn_skipn k v) at 1.
      rewrite cnt_app. rewrite (cnt_none _ (skipn k v)); [lia|]. intros x Hx. apply Hle in Hx. lia. }
    assert (HQ : (cnt (Z.eqb t) (firstn k v) <= Q)%nat).
    { unfold Q. rewrite <- (cnt_map snd (fun x => t =? x)). rewrite <- (cnt_perm _ _ _ Hp). rewrite <- (firstn_skipn k v) at 2.
      rewrite cnt_app. change (Z.eqb t) with (fun x => t =? x). apply Nat.le_add_r. }
    assert (Hsum : (G + cnt (Z.eqb t) (firstn k v) = k)%nat).
    { rewrite HG. transitivity (cnt (fun _ : Z => true) (firstn k v)); [|rewrite cnt_all; auto]. symmetry.
      apply cnt_or; intros x Hx; specialize (Hge x Hx); destruct (Z.ltb_spec t x), (Z.eqb_spec t x); cbn; auto; lia. }
    change (length (filter (Z.eqb t) (firstn k v))) with (cnt (Z.eqb t) (firstn k v)).
    pose (rem := cnt (Z.eqb t) (firstn k v)). fold rem. fold rem in HQ, Hsum.
    pose (kept := filter (fun e : entry => negb (snd e <? t)) h). fold kept.
    pose (ties := map fst (filter (fun e : entry => snd e =? t) kept)). fold ties.
    assert (Hties : forall x, In x ties <-> In (x, t) h).
    { intro x. unfold ties, kept. rewrite in_map_iff. split.
      - intros ((y, c) & E & Hf). cbn in E. subst y. rewrite !filter_In in Hf. cbn [snd] in Hf. destruct Hf as ((Hf & _) & Ec).
        apply Z.eqb_eq in Ec. subst c. exact Hf.
      - intro Hf. exists (x, t). split; [reflexivity|]. rewrite !filter_In. cbn [snd]. rewrite Z.ltb_irrefl, Z.eqb_refl. auto. }
    assert (Hnt : NoDup ties) by (unfold ties, kept; apply nodup_map_filter, nodup_map_filter, Hn).
    pose (cands := s_sort str_lt ties). fold cands.
    pose proof (s_sort_perm str_lt ties) as Hpc. fold cands in Hpc.
    pose proof (s_sort_sorted str_lt str_lt_irr str_lt_trans str_lt_total ties) as Hsc. fold cands in Hsc.
    assert (Hnc : NoDup cands) by (eapply Permutation_NoDup; [symmetry; exact Hpc|exact Hnt]).
    exists (fun e => negb (snd e <? t) && negb (existsb (str_eqb (fst e)) (skipn rem cands))). split.
    { unfold kept. apply filter_both. }
    intros (x, c) He. cbn [fst snd].
    assert (Her : existsb (str_eqb x) (skipn rem cands) = true <-> exists i, (rem <= i)%nat /\ nth_error cands i = Some x).
    { rewrite existsb_exists. rewrite <- skipn_nth_error. split; [|intro H; exists x; split; [exact H|apply str_eqb_refl]].
      intros (y & Hy & E). apply str_eqb_eq in E. subst y. exact Hy. }
    destruct (Z.ltb_spec c t) as [Hct|Hct].
    - (* below the target *)
      cbn [negb andb]. split; [discriminate|]. intro Hc. exfalso.
      assert (Hor : cnt (fun e : entry => t <=? snd e) h = (G + Q)%nat).
      { apply cnt_or; intros f _; cbn; lia. }
      assert (Hle2 : (cnt (fun e : entry => (t <=? snd e)%Z) h <= cnt (fun f => beats f (x, c)) h)%nat).
      { apply cnt_le. intros f _ Hf. unfold beats. cbn [snd fst]. apply Z.leb_le in Hf.
        replace (c <? snd f) with true by lia. reflexivity. }
      lia.
    - cbn [negb andb]. destruct (Z.eq_dec c t) as [->|Hne].
      + (* a tie *)
        assert (Hcnt : cnt (fun f => beats f (x, t)) h = (G + below str_lt x cands)%nat).
        { rewrite (below_perm str_lt x _ _ Hpc). unfold below.
          change (length (filter (fun y => str_lt y x) ties)) with (cnt (fun y => str_lt y x) ties).
          replace (cnt (fun y => str_lt y x) ties) with (cnt (fun f : entry => (snd f =? t) && str_lt (fst f) x) h).
          - apply cnt_or; intros f _; unfold beats; cbn [fst snd]; [reflexivity|].
            destruct (Z.ltb_spec t (snd f)), (Z.eqb_spec (snd f) t); cbn; auto; lia.
          - unfold ties. rewrite cnt_map. unfold cnt, kept. rewrite !filter_both. f_equal. apply filter_ext. intro f.
            destruct (Z.ltb_spec (snd f) t), (Z.eqb_spec (snd f) t); cbn; auto; lia. }
        rewrite Hcnt.
        assert (Hin : In x cands). { apply (Permutation_in _ (Permutation_sym Hpc)). apply Hties. exact He. }
        apply In_nth_error in Hin. destruct Hin as (i & Hi).
        pose proof (below_sorted str_lt str_lt_irr str_lt_total cands Hsc Hnc i x Hi) as Hb. rewrite Hb.
        rewrite negb_true_iff. rewrite <- not_true_iff_false, Her. split.
        * intro H. destruct (Nat.lt_ge_cases i rem); [lia|]. exfalso. apply H. exists i. auto.
        * intros H (j & Hj & Hxj). rewrite (below_sorted str_lt str_lt_irr str_lt_total cands Hsc Hnc j x Hxj) in Hb. lia.
      + (* above the target *)
        assert (Hnot : existsb (str_eqb x) (skipn rem cands) = false).
        { apply not_true_iff_false. rewrite Her. intros (i & _ & Hi). apply nth_error_In in Hi. apply (Permutation_in _ Hpc) in Hi.
          apply Hties in Hi. apply Hne. exact (nodup_key h x c t Hn He Hi). }
        rewrite Hnot. cbn [negb]. split; [intros _|reflexivity].
        assert (Hlt : (cnt (fun f => beats f (x, c)) h < G)%nat).
        { unfold G. apply cnt_lt with (e := (x, c)); auto.
          - intros f _. unfold beats. cbn [fst snd]. intro Hf. apply orb_true_iff in Hf.
            destruct Hf as [Hf|Hf]; [lia|]. apply andb_true_iff in Hf. lia.
          - unfold beats. cbn [fst snd]. rewrite Z.ltb_irrefl, Z.eqb_refl, str_lt_irr. reflexivity.
          - cbn. lia. }
        lia.
  Qed.
End Top.
