(** The terms of a document for every analyzer (C60). *)
From Verif Require Import Base M_String M_Text S_Text L_Text L_Text2 L_Text3 L_Text4 M_Docs S_Docs L_Docs7.
Open Scope Z_scope.

Lemma lower_case_nil (b : bool) (doc : list Z) : doc <> [] -> (if b then to_lower doc else doc) <> [].
Proof. intro H. destruct b; [|exact H]. destruct doc; [congruence|]. cbn. discriminate. Qed.
Lemma cleaned_nil (p : Z -> bool) (s : list Z) : s <> [] -> replace_and_dedup p s <> [].
Proof.
  intro H. unfold replace_and_dedup. destruct s as [|c r]; [congruence|]. cbn. intro E.
  rewrite Bool.andb_false_r in E. discriminate.
Qed.

Lemma at_sep_app_l (p : Z -> bool) (a b : list Z) i : (i < length a)%nat -> at_sep p (a ++ b) i <-> at_sep p a i.
Proof. intro H. unfold at_sep. now rewrite nth_error_app1 by exact H. Qed.
Lemma padded_no_adjacent (p : Z -> bool) (s : list Z) : s <> [] -> no_adjacent p s ->
  no_adjacent p ((if begins_with p s then [] else [32]) ++ s ++ (if ends_with p s then [] else [32])).
Proof.
  intros Hs Ha.
  assert (H1 : no_adjacent p (s ++ (if ends_with p s then [] else [32]))).
  { destruct (ends_with p s) eqn:E; [now rewrite app_nil_r|]. intros i Hi Hj.
    destruct (Nat.lt_ge_cases (S i) (length s)) as [Hl|Hl].
    - apply (Ha i); [rewrite at_sep_app_l in Hi by lia; exact Hi|rewrite at_sep_app_l in Hj by lia; exact Hj].
    - assert (Hl' : length s = S i).
      { destruct Hj as (c & Hc & _). assert (S i < length (s ++ [32%Z]))%nat by (apply nth_error_Some; congruence).
        rewrite app_length in H. cbn in H. lia. }
      rewrite at_sep_app_l in Hi by lia. destruct Hi as (c & Hc & Hp). unfold ends_with in E.
      assert (Er : s = firstn i s ++ [c]).
      { rewrite <- (firstn_skipn i s) at 1. f_equal.
        apply nth_error_split in Hc. destruct Hc as (l1 & l2 & Es & El). subst i. rewrite Es in Hl' |- *.
        rewrite app_length in Hl'. cbn in Hl'. destruct l2; [|cbn in Hl'; lia].
        rewrite skipn_app, skipn_all, Nat.sub_diag. reflexivity. }
      rewrite Er, rev_app_distr in E. cbn in E. congruence. }
  destruct (begins_with p s) eqn:E; [exact H1|]. cbn [app]. intros i Hi Hj.
  destruct i as [|i].
  - destruct Hj as (c & Hc & Hp). destruct s as [|d r]; [congruence|]. cbn in Hc. cbn in E. congruence.
  - apply (H1 i); [destruct Hi as (c & ?)|destruct Hj as (c & ?)]; exists c; assumption.
Qed.

Section Terms.
  Variable re : list Z -> list Z -> nat -> option (nat * nat).

  Lemma word_ngram_terms (lower : bool) (doc : list Z) (mn mx : nat) : (1 <= mn)%nat -> (mn <= mx)%nat -> (1 < mx)%nat ->
    let s := replace_and_dedup is_punct (if lower then to_lower doc else doc) in (mx <= number_of_words is_space s)%nat ->
    exists out, (forall w, In w out <-> exists n, (mn <= n <= mx)%nat /\ spans is_space s n w) /\
      StronglySorted (ngram_before is_space s) out /\
      train_terms re (mkTcfg lower Word [] mn mx) doc = Ok (map (fun w => sub s (fst w) (snd w)) out).
  Proof.
    intros H1 H2 H3 s H4. destruct (ngram_word_spec is_space s mn mx H1 H2 H4) as (out & E & Hin & Hs).
    exists out. split; [exact Hin|]. split; [exact Hs|].
    rewrite same_terms_read by (right; left; reflexivity). unfold infer_terms, decorate, parse_func. cbn [tc_analyzer tc_regex tc_lower tc_min tc_max].
    assert (En : Nat.eqb mn 1 && Nat.eqb mx 1 = false).
    { destruct (Nat.eqb_spec mx 1); [lia|]. apply Bool.andb_false_r. }
    rewrite En. cbn [negb bind]. fold s. rewrite E. reflexivity.
  Qed.
  Lemma word_ngram_refused (lower : bool) (doc : list Z) (mn mx : nat) : (1 < mx)%nat ->
    let s := replace_and_dedup is_punct (if lower then to_lower doc else doc) in
    (mn < 1 \/ mx < mn \/ number_of_words is_space s < mx)%nat ->
    train_terms re (mkTcfg lower Word [] mn mx) doc = Throw InvalidArgument.
  Proof.
    intros H3 s H. rewrite same_terms_read by (right; left; reflexivity).
    unfold infer_terms, decorate, parse_func. cbn [tc_analyzer tc_regex tc_lower tc_min tc_max].
    assert (En : Nat.eqb mn 1 && Nat.eqb mx 1 = false).
    { destruct (Nat.eqb_spec mx 1); [lia|]. apply Bool.andb_false_r. }
    rewrite En. cbn [negb bind]. fold s. rewrite ngram_word_throws; [reflexivity|lia].
  Qed.
  Lemma char_ngram_terms (lower : bool) (doc : list Z) (pattern : list Z) (mn mx : nat) : (1 <= mn)%nat -> (mn <= mx)%nat ->
    let s := replace_and_dedup is_punct (if lower then to_lower doc else doc) in (mx <= length s)%nat ->
    exists out, (forall w, In w out <-> has_length s mn w) /\ StronglySorted (fun x y => (fst x < fst y)%nat) out /\
      train_terms re (mkTcfg lower Char pattern mn mx) doc = Ok (map (fun w => sub s (fst w) (snd w)) out).
  Proof.
    intros H1 H2 s H3. destruct (ngram_char_least s mn mx H1 H2 H3) as (out & E & Hin & Hs).
    exists out. split; [exact Hin|]. split; [exact Hs|].
    rewrite same_terms_read by (left; discriminate). unfold infer_terms, decorate, parse_func. cbn [tc_analyzer tc_regex tc_lower tc_min tc_max bind].
    fold s. rewrite E. reflexivity.
  Qed.
  Lemma char_ngram_refused (lower : bool) (doc : list Z) (pattern : list Z) (mn mx : nat) :
    let s := replace_and_dedup is_punct (if lower then to_lower doc else doc) in
    (mn < 1 \/ mx < mn \/ length s < mx)%nat -> train_terms re (mkTcfg lower Char pattern mn mx) doc = Throw InvalidArgument.
  Proof.
    intros s H. rewrite same_terms_read by (left; discriminate). unfold infer_terms, decorate, parse_func.
    cbn [tc_analyzer tc_regex tc_lower tc_min tc_max bind]. fold s. now rewrite (ngram_char_throws s mn mx H).
  Qed.
  Lemma charwb_terms (lower : bool) (doc : list Z) (pattern : list Z) (mn mx : nat) : (1 <= mn)%nat -> (mn <= mx)%nat -> doc <> [] ->
    let c := replace_and_dedup is_punct (if lower then to_lower doc else doc) in
    let s := (if begins_with is_space c then [] else [32]) ++ c ++ (if ends_with is_space c then [] else [32]) in
    exists ws, (forall w, In w ws <-> is_word is_space s w) /\ left_to_right ws /\
      train_terms re (mkTcfg lower Charwb pattern mn mx) doc =
        Ok (map (fun w => sub s (fst w) (snd w)) (flat_map (fun w => substrings mn (fst w - 1) (snd w + 1)) ws)).
  Proof.
    intros H1 H2 Hd c s. exists (parse is_space s). destruct (parse_words is_space s) as (Hw & Hl). split; [exact Hw|]. split; [exact Hl|].
    rewrite same_terms_read by (left; discriminate). unfold infer_terms, decorate, parse_func.
    cbn [tc_analyzer tc_regex tc_lower tc_min tc_max].
    assert (Hc : c <> []) by (apply cleaned_nil; apply lower_case_nil; exact Hd).
    fold c. pose proof (padding_ok is_space c Hc) as Ep. rewrite Ep. fold s in Ep |- *.
    destruct (padding_idempotent is_space c s eq_refl Ep) as (Hb & He & _).
    cbn [bind]. rewrite (ngram_charwb_ok is_space s mn mx H1 H2 Hb He); [reflexivity|].
    apply padded_no_adjacent; [exact Hc|]. apply drop_no_adjacent.
  Qed.
End Terms.
