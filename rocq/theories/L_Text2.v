(** Word n-grams. *)
From Verif Require Import Base L_List M_String M_Text S_Text L_Text.

Notation increasing := (StronglySorted (fun a b : nat => (a < b)%nat)).

Lemma increasing_unique (l l' : list nat) : increasing l -> increasing l' -> (forall x, In x l <-> In x l') -> l = l'.
Proof.
  intros Hs. revert l'. induction Hs as [|x l Hs IH Hx]; intros l' Hs' Heq.
  - destruct l' as [|y l']; [reflexivity|]. exfalso. apply (Heq y). left; reflexivity.
  - destruct Hs' as [|y l' Hs' Hy].
    + exfalso. apply (Heq x). left; reflexivity.
    + rewrite Forall_forall in Hx, Hy.
      assert (Hxy : x = y).
      { destruct (proj1 (Heq x) (or_introl eq_refl)) as [E|H1]; [auto|].
        destruct (proj2 (Heq y) (or_introl eq_refl)) as [E|H2]; [auto|]. exfalso.
        pose proof (Hx _ H2). pose proof (Hy _ H1). lia. }
      subst y. f_equal. apply IH; auto.
      intros w. pose proof (Heq w) as Hw. cbn [In] in Hw. split; intro Hin.
      * destruct (proj1 Hw (or_intror Hin)) as [<-|]; auto. pose proof (Hx _ Hin). lia.
      * destruct (proj2 Hw (or_intror Hin)) as [<-|]; auto. pose proof (Hy _ Hin). lia.
Qed.

Lemma increasing_seq n : forall b, increasing (seq b n).
Proof.
  induction n as [|n IH]; intro b; cbn [seq]; constructor; auto.
  apply Forall_forall. intros x Hx. apply in_seq in Hx. lia.
Qed.

Lemma sorted_filter {A} (R : A -> A -> Prop) (f : A -> bool) l : StronglySorted R l -> StronglySorted R (filter f l).
Proof.
  induction 1 as [|x l Hs IH Hx]; cbn [filter]; [constructor|]. destruct (f x); auto. constructor; auto.
  rewrite Forall_forall in *. intros y Hy. apply filter_In in Hy. apply Hx. tauto.
Qed.

Lemma sorted_map {A B} (R : A -> A -> Prop) (R' : B -> B -> Prop) (f : A -> B) l :
  (forall a b, In a l -> In b l -> R a b -> R' (f a) (f b)) -> StronglySorted R l -> StronglySorted R' (map f l).
Proof.
  intros H Hs. induction Hs as [|x l Hs IH Hx]; cbn [map]; constructor.
  - apply IH. intros. apply H; cbn; auto.
  - rewrite Forall_forall in *. intros y Hy. apply in_map_iff in Hy. destruct Hy as (z & <- & Hz). apply H; cbn; auto.
Qed.

Lemma sorted_flat_map {A B} (R : A -> A -> Prop) (R' : B -> B -> Prop) (f : A -> list B) l :
  StronglySorted R l -> (forall a, In a l -> StronglySorted R' (f a)) ->
  (forall a b x y, In a l -> In b l -> R a b -> In x (f a) -> In y (f b) -> R' x y) -> StronglySorted R' (flat_map f l).
Proof.
  intros Hs. induction Hs as [|a l Hs IH Ha]; intros H1 H2; cbn [flat_map]; [constructor|].
  assert (Hrest : StronglySorted R' (flat_map f l)).
  { apply IH; [intros; apply H1; cbn; auto|]. intros a0 b0 x y Ha0 Hb0 HR Hx Hy. apply (H2 a0 b0); cbn; auto. }
  assert (Hcross : forall x y, In x (f a) -> In y (flat_map f l) -> R' x y).
  { intros x y Hx Hy. apply in_flat_map in Hy. destruct Hy as (b & Hb & Hy). rewrite Forall_forall in Ha.
    eapply H2; [left; reflexivity|right; eauto|apply Ha; auto|auto|auto]. }
  pose proof (H1 a (or_introl eq_refl)) as Hfa. clear - Hrest Hcross Hfa.
  induction Hfa as [|x m Hm IHm Hx]; cbn [app]; auto.
  constructor.
  - apply IHm. intros; apply Hcross; cbn; auto.
  - rewrite Forall_forall in *. intros y Hy. apply in_app_or in Hy. destruct Hy as [Hy|Hy]; [auto|apply Hcross; cbn; auto].
Qed.

Lemma sorted_nth {A} (R : A -> A -> Prop) l i j x y : StronglySorted R l -> (i < j)%nat ->
  nth_error l i = Some x -> nth_error l j = Some y -> R x y.
Proof.
  intros Hs. revert i j. induction Hs as [|a l Hs IH Ha]; intros [|i] [|j] Hij Hi Hj; cbn in *; try discriminate; try lia.
  - injection Hi as ->. rewrite Forall_forall in Ha. apply Ha. eapply nth_error_In; eauto.
  - eapply (IH i j); eauto. lia.
Qed.

Lemma sorted_sublist {A} (R : A -> A -> Prop) l : StronglySorted R l -> forall i k, StronglySorted R (firstn k (skipn i l)).
Proof.
  intros Hs i k. assert (H : StronglySorted R (skipn i l)).
  { revert l Hs. induction i as [|i IH]; intros l Hs; [exact Hs|]. destruct Hs as [|x l Hs Hx]; [constructor|]. cbn. auto. }
  clear Hs. revert k. induction H as [|x m Hm IH Hx]; intros [|k]; cbn [firstn]; try constructor; auto.
  rewrite Forall_forall in *. intros y Hy. apply Hx. rewrite <- (firstn_skipn k m). apply in_or_app; auto.
Qed.

Lemma nth_error_sub {A} (l : list A) i k j : (j < k)%nat -> nth_error (firstn k (skipn i l)) j = nth_error l (i + j).
Proof.
  revert k j l. induction i as [|i IH]; intros k j l H.
  - cbn [skipn Nat.add]. revert k j H. induction l as [|x l IHl]; intros [|k] [|j] H; cbn; try lia; auto. apply IHl. lia.
  - destruct l as [|x l]; [cbn; destruct k, j; reflexivity|]. cbn [skipn Nat.add nth_error]. apply IH. lia.
Qed.

Section Ngram.
  Variable p : Z -> bool.
  Variable t : list Z.
  Notation words := (parse p t).

  Lemma word_end : forall k i, (length t - i <= k)%nat -> at_word p t i ->
    exists e, (i < e <= length t)%nat /\ (forall j, (i <= j < e)%nat -> at_word p t j) /\ (e = length t \/ at_sep p t e).
  Proof.
    induction k as [|k IH]; intros i Hk Hi.
    - destruct Hi as (c & Hc & _). assert (nth_error t i <> None) as Hn by congruence. apply nth_error_Some in Hn. lia.
    - assert (Hlt : (i < length t)%nat). { destruct Hi as (c & Hc & _). apply nth_error_Some. congruence. }
      destruct (nth_error t (S i)) as [c|] eqn:E.
      + destruct (p c) eqn:Ep.
        * exists (S i). split; [lia|]. split; [|right; exists c; auto]. intros j Hj. replace j with i by lia. auto.
        * destruct (IH (S i)) as (e & He & Hw & Hend); [lia|exists c; auto|]. exists e. split; [lia|]. split; [|auto].
          intros j Hj. destruct (Nat.eq_dec j i) as [->|]; auto. apply Hw. lia.
      + apply nth_error_None in E. exists (S i). split; [lia|]. split; [|left; lia]. intros j Hj. replace j with i by lia. auto.
  Qed.
  Lemma word_start : forall i, at_word p t i ->
    exists b, (b <= i)%nat /\ (forall j, (b <= j <= i)%nat -> at_word p t j) /\ (b = 0%nat \/ at_sep p t (b - 1)).
  Proof.
    induction i as [|i IH]; intro Hi.
    - exists 0%nat. split; [lia|]. split; auto. intros j Hj. replace j with 0%nat by lia. auto.
    - assert (Hlt : (S i < length t)%nat). { destruct Hi as (c & Hc & _). apply nth_error_Some. congruence. }
      destruct (nth_error t i) as [c|] eqn:E; [|apply nth_error_None in E; lia].
      destruct (p c) eqn:Ep.
      + exists (S i). split; [lia|]. split; [|right; exists c; replace (S i - 1)%nat with i by lia; auto].
        intros j Hj. replace j with (S i) by lia. auto.
      + destruct IH as (b & Hb & Hw & Hs); [exists c; auto|]. exists b. split; [lia|]. split; auto.
        intros j Hj. destruct (Nat.eq_dec j (S i)) as [->|]; auto. apply Hw. lia.
  Qed.

  Lemma starts_word_iff i : starts_word p t i = true <-> exists e, is_word p t (i, e).
  Proof.
    unfold starts_word. split.
    - destruct (nth_error t i) as [c|] eqn:E; [|discriminate]. intro H. apply andb_true_iff in H. destruct H as (H1 & H2).
      assert (Hi : at_word p t i) by (exists c; split; auto; destruct (p c); auto; discriminate).
      destruct (word_end _ i (le_n _) Hi) as (e & He & Hw & Hend). exists e. repeat split; auto; try lia.
      destruct i as [|j]; auto. right. replace (S j - 1)%nat with j by lia.
      destruct (nth_error t j) as [d|] eqn:Ed; [exists d; auto|]. apply nth_error_None in Ed.
      assert (nth_error t (S j) <> None) as Hn by congruence. apply nth_error_Some in Hn. lia.
    - intros (e & (Hbe & Hin & Hb & He)). destruct (Hin i ltac:(lia)) as (c & Hc & Hp). rewrite Hc, Hp. cbn [negb andb].
      destruct i as [|j]; auto. destruct Hb as [Hb|Hb]; [lia|]. destruct Hb as (d & Hd & Hpd).
      replace (S j - 1)%nat with j in Hd by lia. rewrite Hd. auto.
  Qed.
  Lemma ends_word_iff e : ends_word p t e = true <-> exists b, is_word p t (b, e).
  Proof.
    unfold ends_word. split.
    - destruct e as [|j]; [discriminate|]. destruct (nth_error t j) as [c|] eqn:E; [|discriminate].
      intro H. apply andb_true_iff in H. destruct H as (H1 & H2).
      assert (Hi : at_word p t j) by (exists c; split; auto; destruct (p c); auto; discriminate).
      assert (Hlt : (j < length t)%nat) by (apply nth_error_Some; congruence).
      destruct (word_start j Hi) as (b & Hb & Hw & Hs). exists b. repeat split; auto; try lia.
      + intros k Hk. apply Hw. lia.
      + destruct (nth_error t (S j)) as [d|] eqn:Ed; [right; exists d; auto|left]. apply nth_error_None in Ed. lia.
    - intros (b & (Hbe & Hin & Hb & He)). destruct e as [|j]; [lia|].
      destruct (Hin j ltac:(lia)) as (c & Hc & Hp). rewrite Hc, Hp. cbn [negb andb].
      destruct He as [He|(d & Hd & Hpd)]; [|rewrite Hd; auto].
      destruct (nth_error t (S j)) eqn:Ed; auto. assert (nth_error t (S j) <> None) as Hn by congruence.
      apply nth_error_Some in Hn. lia.
  Qed.

  Lemma words_nth i b e : nth_error words i = Some (b, e) -> is_word p t (b, e).
  Proof. intro H. apply (proj1 (parse_words p t)). eapply nth_error_In; eauto. Qed.
  Lemma words_order i j b e b' e' : nth_error words i = Some (b, e) -> nth_error words j = Some (b', e') ->
    ((i < j)%nat <-> (e < b')%nat) /\ ((i <= j)%nat <-> (b <= b')%nat) /\ ((i <= j)%nat <-> (b < e')%nat) /\ ((i = j)%nat <-> (b = b')%nat).
  Proof.
    intros Hi Hj.
    assert (H1 : (i < j)%nat -> (e < b')%nat).
    { intro H. apply (sorted_nth _ _ _ _ _ _ (proj2 (parse_words p t)) H Hi Hj). }
    assert (H2 : (j < i)%nat -> (e' < b)%nat).
    { intro H. apply (sorted_nth _ _ _ _ _ _ (proj2 (parse_words p t)) H Hj Hi). }
    pose proof (words_nth _ _ _ Hi) as ((W1 & _) & _). pose proof (words_nth _ _ _ Hj) as ((W2 & _) & _).
    assert (H3 : i = j -> b = b' /\ e = e') by (intros <-; split; congruence).
    lia.
  Qed.

  (** The word starts between the start of word i and the end of word j are those of words i..j. *)
  Lemma starts_between i j b e b' e' : (i <= j)%nat -> nth_error words i = Some (b, e) -> nth_error words j = Some (b', e') ->
    filter (starts_word p t) (seq b (e' - b)) = map fst (firstn (j - i + 1) (skipn i words)).
  Proof.
    intros Hij Hi Hj. apply increasing_unique.
    - apply sorted_filter, increasing_seq.
    - apply sorted_map with (R := fun a b : nat * nat => (snd a < fst b)%nat).
      + intros (a1, a2) (b1, b2) Ha Hb. cbn.
        assert (Hin : In (a1, a2) words).
        { rewrite <- (firstn_skipn i words). apply in_or_app. right. rewrite <- (firstn_skipn (j - i + 1) (skipn i words)).
          apply in_or_app. left; auto. }
        apply (proj1 (parse_words p t)) in Hin. destruct Hin as (H & _). lia.
      + apply sorted_sublist. apply parse_words.
    - intro x. rewrite filter_In, in_seq, in_map_iff. split.
      + intros (Hx & Hst). apply starts_word_iff in Hst. destruct Hst as (ex & Hw).
        apply (proj1 (parse_words p t)) in Hw. apply In_nth_error in Hw. destruct Hw as (k & Hk).
        exists (x, ex). split; [reflexivity|].
        pose proof (words_order _ _ _ _ _ _ Hi Hk) as (_ & O1 & _). pose proof (words_order _ _ _ _ _ _ Hk Hj) as (_ & _ & O2 & _).
        apply (nth_error_In _ (k - i)). rewrite nth_error_sub by lia. replace (i + (k - i))%nat with k by lia. exact Hk.
      + intros ((x', ex) & <- & Hin). cbn [fst]. apply In_nth_error in Hin. destruct Hin as (k & Hk).
        assert (Hlt : (k < j - i + 1)%nat).
        { assert (nth_error (firstn (j - i + 1) (skipn i words)) k <> None) as Hn by congruence.
          apply nth_error_Some in Hn. rewrite firstn_length in Hn. lia. }
        rewrite nth_error_sub in Hk by auto.
        pose proof (words_order _ _ _ _ _ _ Hi Hk) as (_ & O1 & _). pose proof (words_order _ _ _ _ _ _ Hk Hj) as (_ & _ & O2 & _).
        split; [lia|]. apply starts_word_iff. exists ex. eapply words_nth; eauto.
  Qed.
  Lemma words_in_between i j b e b' e' : (i <= j)%nat -> nth_error words i = Some (b, e) -> nth_error words j = Some (b', e') ->
    words_in p t b e' = (j - i + 1)%nat.
  Proof.
    intros Hij Hi Hj. unfold words_in. rewrite (starts_between i j b e b' e'); auto. rewrite map_length, firstn_length, skipn_length.
    assert (nth_error words j <> None) as Hn by congruence. apply nth_error_Some in Hn. lia.
  Qed.
  Lemma number_of_words_length : number_of_words p t = length words.
  Proof.
    unfold number_of_words, words_in. rewrite Nat.sub_0_r. rewrite <- (map_length fst words). f_equal. apply increasing_unique.
    - apply sorted_filter, increasing_seq.
    - apply sorted_map with (R := fun a b : nat * nat => (snd a < fst b)%nat); [|apply parse_words].
      intros (a1, a2) (b1, b2) Ha Hb. cbn. apply (proj1 (parse_words p t)) in Ha. destruct Ha as (H & _). lia.
    - intro x. rewrite filter_In, in_seq, in_map_iff. split.
      + intros (_ & H). apply starts_word_iff in H. destruct H as (e & H). exists (x, e). split; auto. apply parse_words; auto.
      + intros ((b, e) & <- & H). apply parse_words in H. pose proof H as (Hb & _). split; [cbn; lia|].
        apply starts_word_iff. exists e. auto.
  Qed.

  Definition ngram_pair (i n : nat) : nat * nat := (fst (nth i words (0,0)%nat), snd (nth (i + n - 1) words (0,0)%nat)).

  Lemma mapM_ok {A B} (f : A -> res B) (g : A -> B) l : (forall x, In x l -> f x = Ok (g x)) -> mapM f l = Ok (map g l).
  Proof.
    induction l as [|x l IH]; intro H; [reflexivity|]. cbn [mapM map]. rewrite (H x (or_introl eq_refl)). cbn [bind].
    rewrite IH; [reflexivity|]. intros; apply H; right; auto.
  Qed.

  Lemma ngram_word_ok mn mx : (1 <= mn)%nat -> (mn <= mx)%nat -> (mx <= length words)%nat ->
    parse_ngram_word p t mn mx =
    Ok (flat_map (fun n => map (fun i => ngram_pair i n) (seq 0 (length words - n + 1))) (seq mn (mx + 1 - mn))).
  Proof.
    intros H1 H2 H3. unfold parse_ngram_word. cbv zeta.
    destruct (Nat.eqb_spec (length words) 0) as [E|E]; [lia|].
    destruct (Nat.ltb_spec mn 1); [lia|]. destruct (Nat.ltb_spec mx mn); [lia|]. destruct (Nat.ltb_spec (length words) mx); [lia|].
    cbn [orb]. erewrite mapM_ok; [cbn [rmap bind]; rewrite <- flat_map_concat_map; reflexivity|].
    intros n Hn. apply in_seq in Hn. cbv beta. apply mapM_ok. intros i Hi. apply in_seq in Hi.
    unfold idx, ngram_pair.
    rewrite (nth_error_nth' words (0,0)%nat) by lia. cbn [bind].
    rewrite (nth_error_nth' words (0,0)%nat) by lia. reflexivity.
  Qed.

  Lemma ngram_pair_spans i n : (1 <= n)%nat -> (i + n <= length words)%nat -> spans p t n (ngram_pair i n).
  Proof.
    intros H1 H2. unfold ngram_pair.
    destruct (nth i words (0,0)%nat) as (b, e) eqn:E1. destruct (nth (i + n - 1) words (0,0)%nat) as (b', e') eqn:E2. cbn [fst snd].
    assert (N1 : nth_error words i = Some (b, e)) by (rewrite <- E1; apply nth_error_nth'; lia).
    assert (N2 : nth_error words (i + n - 1) = Some (b', e')) by (rewrite <- E2; apply nth_error_nth'; lia).
    pose proof (words_nth _ _ _ N1) as W1. pose proof (words_nth _ _ _ N2) as W2.
    pose proof (words_order _ _ _ _ _ _ N1 N2) as (_ & _ & O & _).
    unfold spans. split; [pose proof W2 as (H & _); lia|]. split; [apply starts_word_iff; eauto|]. split; [apply ends_word_iff; eauto|].
    rewrite (words_in_between i (i + n - 1) b e b' e'); auto; lia.
  Qed.
  Lemma spans_pair n w : spans p t n w -> exists i, (i + n <= length words)%nat /\ (1 <= n)%nat /\ w = ngram_pair i n.
  Proof.
    destruct w as (b, e'). intros (Hlt & Hs & He & Hn).
    apply starts_word_iff in Hs. destruct Hs as (e & W1). apply ends_word_iff in He. destruct He as (b' & W2).
    pose proof W1 as N1. pose proof W2 as N2. apply (proj1 (parse_words p t)) in N1, N2.
    apply In_nth_error in N1, N2. destruct N1 as (i & N1). destruct N2 as (j & N2).
    pose proof (words_order _ _ _ _ _ _ N1 N2) as (_ & _ & O & _). assert (Hij : (i <= j)%nat) by (apply O; lia).
    rewrite (words_in_between i j b e b' e' Hij N1 N2) in Hn.
    assert (nth_error words j <> None) as Hj by congruence. apply nth_error_Some in Hj.
    exists i. split; [lia|]. split; [lia|]. unfold ngram_pair. replace (i + n - 1)%nat with j by lia.
    rewrite (nth_error_nth _ _ _ N1), (nth_error_nth _ _ _ N2). reflexivity.
  Qed.

  Lemma ngram_word_spec mn mx : (1 <= mn)%nat -> (mn <= mx)%nat -> (mx <= number_of_words p t)%nat ->
    exists out, parse_ngram_word p t mn mx = Ok out /\
      (forall w, In w out <-> exists n, (mn <= n <= mx)%nat /\ spans p t n w) /\
      StronglySorted (ngram_before p t) out.
  Proof.
    rewrite number_of_words_length. intros H1 H2 H3. rewrite ngram_word_ok by auto. eexists. split; [reflexivity|]. split.
    - intro w. rewrite in_flat_map. split.
      + intros (n & Hn & Hin). apply in_seq in Hn. apply in_map_iff in Hin. destruct Hin as (i & <- & Hi). apply in_seq in Hi.
        exists n. split; [lia|]. apply ngram_pair_spans; lia.
      + intros (n & Hn & Hsp). destruct (spans_pair _ _ Hsp) as (i & Hi & Hn1 & ->). exists n. split; [apply in_seq; lia|].
        apply in_map_iff. exists i. split; [reflexivity|]. apply in_seq. lia.
    - assert (Hspan : forall n x, (mn <= n <= mx)%nat -> In x (map (fun i => ngram_pair i n) (seq 0 (length words - n + 1))) ->
                words_in p t (fst x) (snd x) = n).
      { intros n x Hn Hx. apply in_map_iff in Hx. destruct Hx as (i & <- & Hi). apply in_seq in Hi.
        pose proof (ngram_pair_spans i n) as Hsp. destruct (ngram_pair i n) as (b, e). cbn. apply Hsp; lia. }
      apply sorted_flat_map with (R := fun a b : nat => (a < b)%nat).
      + apply increasing_seq.
      + intros n Hn. apply in_seq in Hn. apply sorted_map with (R := fun a b : nat => (a < b)%nat); [|apply increasing_seq].
        intros i j Hi Hj Hij. right. split.
        * rewrite (Hspan n (ngram_pair i n)), (Hspan n (ngram_pair j n)); auto; try lia;
            [apply (in_map (fun i => ngram_pair i n)), Hj|apply (in_map (fun i => ngram_pair i n)), Hi].
        * apply in_seq in Hi, Hj. unfold ngram_pair. cbn [fst].
          destruct (nth i words (0,0)%nat) as (b, e) eqn:E1. destruct (nth j words (0,0)%nat) as (b', e') eqn:E2. cbn [fst].
          assert (N1 : nth_error words i = Some (b, e)) by (rewrite <- E1; apply nth_error_nth'; lia).
          assert (N2 : nth_error words j = Some (b', e')) by (rewrite <- E2; apply nth_error_nth'; lia).
          pose proof (words_order _ _ _ _ _ _ N1 N2) as (O & _). pose proof (words_nth _ _ _ N1) as (W & _). lia.
      + intros n m x y Hn Hm Hlt Hx Hy. apply in_seq in Hn, Hm. left.
        rewrite (Hspan n x), (Hspan m y); auto; lia.
  Qed.

  Lemma ngram_word_throws mn mx : (mn < 1 \/ mx < mn \/ number_of_words p t < mx \/ number_of_words p t = 0)%nat ->
    parse_ngram_word p t mn mx = Throw InvalidArgument.
  Proof.
    rewrite number_of_words_length. intro H. unfold parse_ngram_word. cbv zeta.
    destruct (Nat.eqb_spec (length words) 0); [reflexivity|].
    destruct (Nat.ltb_spec mn 1); [reflexivity|]. destruct (Nat.ltb_spec mx mn); [reflexivity|].
    destruct (Nat.ltb_spec (length words) mx); [reflexivity|]. lia.
  Qed.
End Ngram.
