(** Tokenizing. *)
From Verif Require Import Base L_List M_String M_Text S_Text.

Lemma skipn_cons {A} (t : list A) i c r : skipn i t = c :: r -> nth_error t i = Some c /\ skipn (S i) t = r /\ (i < length t)%nat.
Proof.
  revert i; induction t as [|x t IH]; intros [|i] H; simpl in H; try discriminate.
  - injection H as -> ->. cbn. repeat split. lia.
  - destruct (IH _ H) as (a & b & d). cbn. repeat split; auto. lia.
Qed.

Section Parse.
  Variable p : Z -> bool.
  Variable t : list Z.

  Lemma sep_not_word i : at_sep p t i -> at_word p t i -> False.
  Proof. intros (c & a & b) (d & a' & b'). congruence. Qed.

  Definition parse_inv (skipping : bool) (left right : nat) : Prop :=
    (left = 0%nat \/ at_sep p t (left - 1)) /\
    if skipping then left = right
    else (left < right)%nat /\ forall i, (left <= i < right)%nat -> at_word p t i.

  Lemma word_in_scan left right b e :
    (forall i, (left <= i < right)%nat -> at_word p t i) -> (left <= b)%nat -> (b < right)%nat -> is_word p t (b, e) ->
    (right = length t \/ at_sep p t right) -> b = left /\ e = right.
  Proof.
    intros Hw Hl Hr (Hbe & Hin & Hb & He) Hright.
    assert (b = left) as ->.
    { destruct (Nat.eq_dec b left) as [E|E]; [exact E|exfalso]. destruct Hb as [Hb|Hb]; [lia|].
      apply (sep_not_word _ Hb). apply Hw. lia. }
    split; [reflexivity|].
    destruct (lt_eq_lt_dec e right) as [[E|E]|E]; [|exact E|].
    - exfalso. destruct He as [He|He].
      + destruct (Hw e ltac:(lia)) as (c & H & _). assert (Hn : nth_error t e <> None) by congruence.
        apply nth_error_Some in Hn. lia.
      + apply (sep_not_word _ He). apply Hw. lia.
    - exfalso. destruct Hright as [H|H]; [lia|]. apply (sep_not_word _ H). apply Hin. lia.
  Qed.

  Lemma parse_loop_words : forall (s : list Z) (skipping : bool) (left right : nat), s = skipn right t -> (right <= length t)%nat ->
    parse_inv skipping left right ->
    forall b e, In (b, e) (parse_loop p skipping left right s) <-> is_word p t (b, e) /\ (left <= b)%nat.
  Proof.
    induction s as [|c r IH]; intros skipping left right Hs Hlen (Hleft & Hinv) b e; cbn [parse_loop].
    - assert (right = length t).
      { assert (H : length (skipn right t) = 0%nat) by (rewrite <- Hs; reflexivity). rewrite skipn_length in H. lia. }
      destruct (Nat.eqb_spec left right) as [E|E].
      + split; [intros []|]. intros ((Hb & _) & Hl). lia.
      + destruct skipping; [congruence|]. destruct Hinv as (Hlt & Hw). split.
        * intros [H'|[]]. injection H' as <- <-. split; [|lia]. repeat split; auto; lia.
        * intros (H1 & H2). left. pose proof H1 as ((Hb & He) & _).
          destruct (word_in_scan left right b e) as [-> ->]; auto. lia.
    - symmetry in Hs. destruct (skipn_cons _ _ _ _ Hs) as (Hc & Hr & Hlt).
      destruct skipping.
      + subst right. destruct (p c) eqn:Ep.
        * rewrite (IH true (S left) (S left)); [|auto|lia|].
          -- split; intros (H1 & H2); split; auto; [lia|]. destruct (Nat.eq_dec b left) as [->|]; [|lia]. exfalso.
             apply (sep_not_word left); [exists c; auto|]. destruct H1 as (Hbe & Hin & _). apply Hin. lia.
          -- split; [|reflexivity]. right. exists c. replace (S left - 1)%nat with left by lia. auto.
        * apply (IH false left (S left)); [auto|lia|]. split; [exact Hleft|]. split; [lia|].
          intros i Hi. replace i with left by lia. exists c. auto.
      + destruct Hinv as (Hlr & Hw). destruct (p c) eqn:Ep.
        * assert (Hsep : at_sep p t right) by (exists c; auto). cbn [In].
          rewrite (IH true (S right) (S right)); [|auto|lia|].
          -- split.
             ++ intros [H|(H1 & H2)]; [|split; auto; lia]. injection H as <- <-. split; [|lia]. repeat split; auto; lia.
             ++ intros (H1 & H2). destruct (le_lt_dec (S right) b) as [H|H]; [right; auto|left].
                destruct (Nat.eq_dec b right) as [->|].
                ** exfalso. apply (sep_not_word right Hsep). destruct H1 as (Hbe & Hin & _). apply Hin. lia.
                ** destruct (word_in_scan left right b e) as [-> ->]; auto. lia.
          -- split; [|reflexivity]. right. replace (S right - 1)%nat with right by lia. auto.
        * apply (IH false left (S right)); [auto|lia|]. split; [exact Hleft|]. split; [lia|].
          intros i Hi. destruct (Nat.eq_dec i right) as [->|]; [exists c; auto|apply Hw; lia].
  Qed.

  Lemma parse_loop_sorted : forall (s : list Z) (skipping : bool) (left right : nat), s = skipn right t -> (right <= length t)%nat ->
    parse_inv skipping left right -> left_to_right (parse_loop p skipping left right s).
  Proof.
    induction s as [|c r IH]; intros skipping left right Hs Hlen (Hleft & Hinv); cbn [parse_loop].
    - destruct (Nat.eqb left right); repeat constructor.
    - symmetry in Hs. destruct (skipn_cons _ _ _ _ Hs) as (Hc & Hr & Hlt).
      assert (Hskip : p c = true -> parse_inv true (S right) (S right)).
      { intro Ep. split; [|reflexivity]. right. exists c. replace (S right - 1)%nat with right by lia. auto. }
      destruct skipping; destruct (p c) eqn:Ep.
      + apply IH; auto.
      + subst right. apply IH; auto. split; [exact Hleft|]. split; [lia|]. intros i Hi. replace i with left by lia. exists c; auto.
      + constructor; [apply IH; auto|]. apply Forall_forall. intros (b, e) Hin.
        apply parse_loop_words in Hin; auto. cbn. lia.
      + destruct Hinv as (Hlr & Hw). apply IH; auto. split; [exact Hleft|]. split; [lia|].
        intros i Hi. destruct (Nat.eq_dec i right) as [->|]; [exists c; auto|apply Hw; lia].
  Qed.

  Lemma parse_words : (forall w, In w (parse p t) <-> is_word p t w) /\ left_to_right (parse p t).
  Proof.
    assert (Hi : parse_inv true 0 0) by (split; auto). split.
    - intros (b, e). unfold parse. rewrite (parse_loop_words t true 0 0); auto; [|lia]. split; [tauto|]. split; [auto|lia].
    - apply parse_loop_sorted; auto. lia.
  Qed.
End Parse.

(** A list in text order is determined by its elements. *)
Lemma sorted_lt_unique (l l' : list (nat * nat)) : (forall w, In w l -> (fst w < snd w)%nat) ->
  left_to_right l -> left_to_right l' -> (forall w, In w l <-> In w l') -> l = l'.
Proof.
  unfold left_to_right. intros Hpos Hs. revert l' Hpos. induction Hs as [|x l Hs IH Hx]; intros l' Hpos Hs' Heq.
  - destruct l' as [|y l']; [reflexivity|]. exfalso. apply (Heq y). left; reflexivity.
  - destruct Hs' as [|y l' Hs' Hy].
    + exfalso. apply (Heq x). left; reflexivity.
    + rewrite Forall_forall in Hx, Hy.
      assert (Hxy : x = y).
      { destruct (proj1 (Heq x) (or_introl eq_refl)) as [E|H1]; [auto|].
        destruct (proj2 (Heq y) (or_introl eq_refl)) as [E|H2]; [auto|]. exfalso.
        pose proof (Hx _ H2). pose proof (Hy _ H1). pose proof (Hpos x (or_introl eq_refl)).
        pose proof (Hpos y (or_intror H2)). lia. }
      subst y. f_equal. apply IH; auto.
      * intros w Hw. apply Hpos. right; auto.
      * intros w. pose proof (Heq w) as Hw. cbn [In] in Hw. pose proof (Hpos x (or_introl eq_refl)) as Hp. split; intro Hin.
        -- destruct (proj1 Hw (or_intror Hin)) as [<-|]; auto. pose proof (Hx _ Hin). lia.
        -- destruct (proj2 Hw (or_intror Hin)) as [<-|]; auto. pose proof (Hy _ Hin). lia.
Qed.
