(** Training and inference read the same terms; regular expressions; limits. *)
From Coq Require Import Reals Lra.
From Flocq Require Import Core.Core IEEE754.BinarySingleNaN.
From Verif Require Import Base L_List M_Estimator M_Stats S_Stats L_Estimator L_Stats L_Stats2 L_Stats3 M_String M_Text S_Text L_Text L_Text2 L_Text3
  M_Grain M_Scale S_Scale L_Float L_Scale2 M_Encoders L_Encoders M_Docs S_Docs L_Docs L_Docs2 L_Docs3 L_Docs4 L_Docs5 L_Docs6.
Open Scope Z_scope.

(** *** Lower case commutes with everything. *)
Lemma lower_space c : is_space (lower_char c) = is_space c.
Proof.
  unfold lower_char. destruct ((65 <=? c) && (c <=? 90)) eqn:E; [|reflexivity]. unfold is_space.
  destruct (Z.leb_spec 65 c), (Z.leb_spec c 90); try discriminate. lia.
Qed.
Lemma lower_punct c : is_punct (lower_char c) = is_punct c.
Proof.
  unfold lower_char. destruct ((65 <=? c) && (c <=? 90)) eqn:E; [|reflexivity]. unfold is_punct.
  destruct (Z.leb_spec 65 c), (Z.leb_spec c 90); try discriminate. lia.
Qed.
Lemma lower_replace s : replace_chars is_punct (to_lower s) = to_lower (replace_chars is_punct s).
Proof.
  unfold replace_chars, to_lower. rewrite !map_map. apply map_ext. intro c. rewrite lower_punct. destruct (is_punct c); reflexivity.
Qed.
Lemma lower_drop s : forall b, drop_duplicate_spaces b (to_lower s) = to_lower (drop_duplicate_spaces b s).
Proof.
  induction s as [|c s IH]; intro b; [reflexivity|]. cbn [to_lower map drop_duplicate_spaces]. cbv zeta. rewrite lower_space.
  change (map lower_char s) with (to_lower s). rewrite IH. destruct (is_space c && b); reflexivity.
Qed.
Lemma lower_dedup s : replace_and_dedup is_punct (to_lower s) = to_lower (replace_and_dedup is_punct s).
Proof. unfold replace_and_dedup. rewrite lower_replace. apply lower_drop. Qed.
Lemma lower_padding s : string_padding is_space (to_lower s) = rmap to_lower (string_padding is_space s).
Proof.
  unfold string_padding, to_lower. rewrite !nth_error_map, map_length. destruct (nth_error s 0) as [c|]; [|reflexivity].
  destruct (nth_error s (length s - 1)) as [d|]; [|reflexivity]. cbn [option_map bind rmap]. rewrite !lower_space.
  destruct (is_space c), (is_space d); cbn [negb andb]; rewrite ?map_app; reflexivity.
Qed.
Lemma lower_parse_loop s : forall sk l r, parse_loop is_space sk l r (to_lower s) = parse_loop is_space sk l r s.
Proof.
  induction s as [|c s IH]; intros sk l r; [reflexivity|]. cbn [to_lower map parse_loop]. rewrite lower_space.
  change (map lower_char s) with (to_lower s). rewrite !IH. reflexivity.
Qed.
Lemma lower_parse s : parse is_space (to_lower s) = parse is_space s.
Proof. apply lower_parse_loop. Qed.
Lemma lower_pairs s : forall pos, sep_pairs is_space pos (to_lower s) = sep_pairs is_space pos s.
Proof.
  induction s as [|c s IH]; intros pos; [reflexivity|]. cbn [to_lower map sep_pairs]. rewrite lower_space.
  change (map lower_char s) with (to_lower s). rewrite IH. reflexivity.
Qed.
Lemma lower_sub s b e : sub (to_lower s) b e = to_lower (sub s b e).
Proof. unfold sub, to_lower. rewrite skipn_map, firstn_map. reflexivity. Qed.

Lemma lower_parse_func re c s : tc_analyzer c <> Word \/ tc_regex c = [] -> parse_func re c (to_lower s) = parse_func re c s.
Proof.
  intro H. unfold parse_func. destruct (tc_analyzer c).
  - destruct H as [H| ->]; [congruence|]. destruct (Nat.eqb (tc_min c) 1 && Nat.eqb (tc_max c) 1); [rewrite lower_parse; reflexivity|].
    unfold parse_ngram_word. rewrite lower_parse. reflexivity.
  - unfold parse_ngram_char. unfold to_lower. rewrite map_length. reflexivity.
  - unfold parse_ngram_charwb. rewrite lower_pairs. reflexivity.
Qed.
Theorem same_terms_read re c doc : tc_analyzer c <> Word \/ tc_regex c = [] \/ tc_lower c = false ->
  train_terms re c doc = infer_terms re c doc.
Proof.
  intro H. unfold train_terms, infer_terms. destruct (tc_lower c) eqn:El.
  - assert (H' : tc_analyzer c <> Word \/ tc_regex c = []) by (destruct H as [H|[H|H]]; auto; discriminate).
    assert (Hd : decorate c doc = rmap to_lower (train_clean c doc)).
    { unfold decorate, train_clean. rewrite El. cbv zeta. destruct (tc_analyzer c).
      - destruct H' as [H'| ->]; [congruence|]. destruct (negb _); [rewrite lower_dedup|]; reflexivity.
      - rewrite lower_dedup. reflexivity.
      - rewrite lower_dedup, lower_padding. reflexivity. }
    rewrite Hd. destruct (train_clean c doc) as [s| |]; cbn [rmap bind]; try reflexivity. rewrite lower_parse_func by exact H'.
    destruct (parse_func re c s) as [rs| |]; cbn [bind]; try reflexivity. f_equal. apply map_ext. intro r.
    unfold term_at. rewrite lower_sub. reflexivity.
  - assert (Hd : decorate c doc = train_clean c doc) by (unfold decorate, train_clean; rewrite El; reflexivity).
    rewrite Hd. reflexivity.
Qed.

(** With a regular expression the terms differ: an expression that matches capital letters only. *)
Lemma regex_lower (re : list Z -> list Z -> nat -> option (nat * nat)) (pattern : list Z) : pattern <> [] ->
  re pattern [65] 0%nat = Some (0%nat, 1%nat) -> re pattern [65] 1%nat = None -> re pattern [97] 0%nat = None ->
  let c := mkTcfg true Word pattern 1 1 in
  train_terms re c [65] = Ok [[97]] /\ infer_terms re c [65] = Ok [].
Proof.
  intros Hp H1 H2 H3. cbv zeta. unfold train_terms, infer_terms, train_clean, decorate, parse_func. cbn [tc_analyzer tc_regex tc_lower tc_min tc_max].
  destruct pattern as [|x pattern]; [congruence|]. cbn [bind]. unfold parse_regex. change (to_lower [65]) with [97]. cbn [length Nat.add regex_loop].
  rewrite H1, H3. cbn [regex_loop]. rewrite H2. split; reflexivity.
Qed.

(** *** Regular expressions *)
Section Regex.
  Variable re : list Z -> list Z -> nat -> option (nat * nat).
  Hypothesis Hre : engine_ok re.
  Variables pattern text : list Z.

  Lemma regex_loop_ok : (forall start b e, re pattern text start = Some (b, e) -> (b < e)%nat) ->
    forall fuel start, (length text < start + fuel)%nat -> (start <= length text)%nat ->
    exists l, regex_loop re fuel pattern text start = Ok l /\ matches re pattern text start l.
  Proof using Hre.
    intros Hne. induction fuel as [|fuel IH]; intros start H1 H2; [lia|]. cbn [regex_loop].
    destruct (re pattern text start) as [(b, e)|] eqn:E; [|exists []; split; [reflexivity|constructor; exact E]].
    pose proof (Hne _ _ _ E). destruct (Hre _ _ _ _ _ E) as (A & B & C).
    destruct (IH e) as (l & -> & Hl); [lia|lia|]. exists ((b, e) :: l). split; [reflexivity|]. econstructor; eassumption.
  Qed.
  Lemma matches_sorted start l : matches re pattern text start l -> (forall s b e, re pattern text s = Some (b, e) -> (b < e)%nat) ->
    StronglySorted (fun x y : nat * nat => (snd x <= fst y)%nat) l /\ Forall (fun w => (start <= fst w /\ fst w < snd w /\ snd w <= length text)%nat) l.
  Proof using Hre.
    intros H Hne. induction H as [start E|start b e l E H IH]; [split; constructor|]. destruct IH as (S1 & S2).
    destruct (Hre _ _ _ _ _ E) as (A & B & C). pose proof (Hne _ _ _ E). split.
    - constructor; [exact S1|]. eapply Forall_impl; [|exact S2]. cbn. intros w Hw. lia.
    - constructor; [cbn; lia|]. eapply Forall_impl; [|exact S2]. cbn. intros w Hw. lia.
  Qed.
  Lemma matches_fun start l l' : matches re pattern text start l -> matches re pattern text start l' -> l = l'.
  Proof using Type.
    intro H. revert l'. induction H as [start E|start b e l E H IH]; intros l' H'; inversion H'; subst; try congruence.
    rewrite E in H0. injection H0 as <- <-. f_equal. auto.
  Qed.
  Theorem regex_tokens : text <> [] -> (forall start b e, re pattern text start = Some (b, e) -> (b < e)%nat) ->
    exists l, parse_regex re pattern text = Ok l /\ matches re pattern text 0 l /\
      StronglySorted (fun x y : nat * nat => (snd x <= fst y)%nat) l /\
      Forall (fun w => (fst w < snd w /\ snd w <= length text)%nat) l.
  Proof using Hre.
    intros Ht Hne. destruct (regex_loop_ok Hne (length text + 1) 0) as (l & E & Hm); [lia|lia|]. exists l.
    split; [unfold parse_regex; destruct text; [congruence|exact E]|]. split; [exact Hm|].
    destruct (matches_sorted _ _ Hm Hne) as (S1 & S2). split; [exact S1|]. eapply Forall_impl; [|exact S2]. cbn. intros w Hw. lia.
  Qed.
  (** An expression with an empty match where the last one ended: the loop does not end. *)
  Lemma regex_loop_endless fuel p : re pattern text p = Some (p, p) -> regex_loop re fuel pattern text p = UB.
  Proof using Type. intro H. induction fuel as [|fuel IH]; cbn [regex_loop]; rewrite H; [reflexivity|]. rewrite IH. reflexivity. Qed.
  Lemma regex_endless p l : text <> [] -> steps re pattern text 0 l p -> re pattern text p = Some (p, p) ->
    parse_regex re pattern text = UB.
  Proof using Type.
    intros Ht Hs Hp. unfold parse_regex. destruct text as [|x tx] eqn:E; [congruence|]. rewrite <- E in *. clear Ht E x tx.
    generalize (length text + 1)%nat. induction Hs as [start|start b e l q Hr Hs IH]; intro fuel; [apply regex_loop_endless, Hp|].
    destruct fuel as [|fuel]; cbn [regex_loop]; rewrite Hr; [reflexivity|]. rewrite IH by exact Hp. reflexivity.
  Qed.
End Regex.
