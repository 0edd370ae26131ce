(** Character n-grams, trimming, de-duplication, padding. *)
From Verif Require Import Base L_List M_String M_Text S_Text L_Text L_Text2.

Lemma find_seq (size o mn mx : nat) : (mn <= mx)%nat ->
  find (fun n => Nat.ltb (o + n) size) (seq mn (mx + 1 - mn)) = if Nat.ltb (o + mn) size then Some mn else None.
Proof.
  intro H. destruct (Nat.ltb_spec (o + mn) size) as [E|E].
  - destruct (mx + 1 - mn)%nat as [|k] eqn:Ek; [lia|]. cbn [seq find]. apply Nat.ltb_lt in E. rewrite E. reflexivity.
  - destruct (find _ _) as [n|] eqn:F; [|reflexivity]. apply find_some in F. destruct F as (F1 & F2).
    apply in_seq in F1. apply Nat.ltb_lt in F2. lia.
Qed.

Lemma flat_map_nil {A B} (f : A -> list B) l : (forall x, In x l -> f x = []) -> flat_map f l = [].
Proof. induction l as [|x l IH]; intro H; [reflexivity|]. cbn. rewrite (H x (or_introl eq_refl)). apply IH. intros; apply H; cbn; auto. Qed.
Lemma flat_map_single {A B} (f : A -> list B) (g : A -> B) l : (forall x, In x l -> f x = [g x]) -> flat_map f l = map g l.
Proof. induction l as [|x l IH]; intro H; [reflexivity|]. cbn. rewrite (H x (or_introl eq_refl)). cbn. f_equal. apply IH. intros; apply H; cbn; auto. Qed.

Lemma seq_from b n : seq b n = map (fun o => (b + o)%nat) (seq 0 n).
Proof.
  induction b as [|b IH]; [rewrite map_id; reflexivity|]. rewrite <- seq_shift, IH, map_map. apply map_ext. intro; lia.
Qed.

Lemma char_helper_spec b e mn mx : (b <= e)%nat -> (1 <= mn)%nat -> (mn <= mx)%nat -> char_helper b e mn mx = substrings mn b e.
Proof.
  intros Hbe H1 H2. unfold char_helper, substrings. cbv zeta.
  set (f := fun offset : nat => _).
  assert (Hk : (e - b + 1 = (e + 1 - b - mn) + (e - b + 1 - (e + 1 - b - mn)))%nat) by lia.
  rewrite Hk, seq_app, flat_map_app. cbn [Nat.add].
  rewrite (flat_map_single f (fun o => (b + o, b + (o + mn))%nat) (seq 0 _)), (flat_map_nil f), app_nil_r.
  - rewrite (seq_from b), map_map. apply map_ext. intro o. f_equal. lia.
  - intros o Ho. apply in_seq in Ho. unfold f. rewrite find_seq by auto. destruct (Nat.ltb_spec (o + mn) (e - b + 1)); [lia|reflexivity].
  - intros o Ho. apply in_seq in Ho. unfold f. rewrite find_seq by auto. destruct (Nat.ltb_spec (o + mn) (e - b + 1)); [reflexivity|lia].
Qed.

Lemma substrings_in n b e w : (b <= e)%nat -> In w (substrings n b e) <-> (fst w + n = snd w /\ b <= fst w /\ snd w <= e)%nat.
Proof.
  intro H. unfold substrings. rewrite in_map_iff. split.
  - intros (i & <- & Hi). apply in_seq in Hi. cbn. lia.
  - destruct w as (x, y). cbn. intros (H1 & H2 & H3). exists x. split; [f_equal; lia|]. apply in_seq. lia.
Qed.
Lemma substrings_sorted n b e : StronglySorted (fun x y : nat * nat => (fst x < fst y)%nat) (substrings n b e).
Proof. unfold substrings. apply sorted_map with (R := fun a b : nat => (a < b)%nat); [cbn; auto|apply increasing_seq]. Qed.

Lemma ngram_char_ok s mn mx : (1 <= mn)%nat -> (mn <= mx)%nat -> (mx <= length s)%nat ->
  parse_ngram_char s mn mx = Ok (substrings mn 0 (length s)).
Proof.
  intros H1 H2 H3. unfold parse_ngram_char. destruct (Nat.ltb_spec mn 1); [lia|]. destruct (Nat.ltb_spec mx mn); [lia|].
  destruct (Nat.ltb_spec (length s) mx); [lia|]. cbn [orb]. rewrite char_helper_spec by lia. reflexivity.
Qed.
Lemma ngram_char_least s mn mx : (1 <= mn)%nat -> (mn <= mx)%nat -> (mx <= length s)%nat ->
  exists out, parse_ngram_char s mn mx = Ok out /\ (forall w, In w out <-> has_length s mn w) /\
    StronglySorted (fun x y : nat * nat => (fst x < fst y)%nat) out.
Proof.
  intros H1 H2 H3. rewrite ngram_char_ok by auto. eexists. split; [reflexivity|]. split; [|apply substrings_sorted].
  intro w. rewrite substrings_in by lia. unfold has_length. lia.
Qed.
Lemma ngram_char_lengths s mn mx : (1 <= mn)%nat -> (mn < mx)%nat -> (mx <= length s)%nat ->
  exists out, parse_ngram_char s mn mx = Ok out /\
    forall n w, (mn < n <= mx)%nat -> has_length s n w -> ~ In w out.
Proof.
  intros H1 H2 H3. destruct (ngram_char_least s mn mx) as (out & E & Hin & _); try lia. exists out. split; [exact E|].
  intros n w Hn Hl Hw. apply Hin in Hw. unfold has_length in *. lia.
Qed.
Lemma ngram_char_throws s mn mx : (mn < 1 \/ mx < mn \/ length s < mx)%nat -> parse_ngram_char s mn mx = Throw InvalidArgument.
Proof.
  intro H. unfold parse_ngram_char. destruct (Nat.ltb_spec mn 1); [reflexivity|]. destruct (Nat.ltb_spec mx mn); [reflexivity|].
  destruct (Nat.ltb_spec (length s) mx); [reflexivity|]. lia.
Qed.

(** Character n-grams within words. *)
Fixpoint adj {A B} (f : A -> A -> B) (x : A) (l : list A) : list B :=
  match l with [] => [] | y :: r => f x y :: adj f y r end.
Lemma mapM_adj {A B} (f : A -> A -> B) : forall (l : list A) (x : A),
  mapM (fun i => do a <- idx (x :: l) i; do b <- idx (x :: l) (i + 1); Ok (f a b)) (seq 0 (length l)) = Ok (adj f x l).
Proof.
  intros l x. pose (d := x).
  rewrite (mapM_ok _ (fun i => f (nth i (x :: l) d) (nth (i + 1) (x :: l) d))).
  - f_equal. clearbody d. revert x. induction l as [|y l IH]; intro x; [reflexivity|].
    cbn [length seq map adj]. f_equal.
    rewrite <- seq_shift, map_map. rewrite <- IH. apply map_ext. intro i.
      replace (S i + 1)%nat with (S (i + 1)) by lia. reflexivity.
  - intros i Hi. apply in_seq in Hi. unfold idx.
    rewrite (nth_error_nth' (x :: l) d) by (cbn [length]; lia). cbn [bind].
    rewrite (nth_error_nth' (x :: l) d) by (cbn [length]; lia). reflexivity.
Qed.

Lemma no_adjacent_tail p c r : no_adjacent p (c :: r) -> no_adjacent p r /\ (p c = true -> begins_with p r = false).
Proof.
  intro H. split.
  - intros i (x & Hx & Hp) (y & Hy & Hq). apply (H (S i)); [exists x; auto|exists y; auto].
  - intro Hc. destruct r as [|d r]; [reflexivity|]. cbn. destruct (p d) eqn:E; [|reflexivity]. exfalso.
    apply (H 0%nat); [exists c|exists d]; auto.
Qed.
Lemma ends_with_cons q x l : ends_with q (x :: l) = match l with [] => q x | _ => ends_with q l end.
Proof.
  unfold ends_with. cbn [rev]. destruct l as [|y l]; [reflexivity|]. cbn [rev].
  rewrite <- app_assoc. destruct (rev l); reflexivity.
Qed.
Lemma ends_with_app q a x l : ends_with q (a ++ x :: l) = ends_with q (x :: l).
Proof. induction a as [|y a IH]; [reflexivity|]. cbn [app]. rewrite ends_with_cons, <- IH. destruct a; reflexivity. Qed.

Lemma parse_pairs p : forall (s : list Z) (pos q : nat), (q < pos)%nat -> (s = [] -> pos = S q) -> (s <> [] -> ends_with p s = true) ->
  (pos = S q -> begins_with p s = false) -> no_adjacent p s ->
  parse_loop p (Nat.eqb (S q) pos) (S q) pos s = adj (fun a b => (snd a, fst b)) (q, S q) (sep_pairs p pos s).
Proof.
  induction s as [|c r IH]; intros pos q Hq Hnil Hend Hbeg Hadj; cbn [parse_loop sep_pairs].
  - rewrite (Hnil eq_refl), Nat.eqb_refl. reflexivity.
  - destruct (no_adjacent_tail _ _ _ Hadj) as (Hadj' & Hnext).
    pose proof (Hend ltac:(discriminate)) as He. rewrite ends_with_cons in He.
    destruct (Nat.eqb_spec (S q) pos) as [E|E]; destruct (p c) eqn:Ep.
    + specialize (Hbeg (eq_sym E)). cbn in Hbeg. congruence.
    + subst pos. specialize (IH (S (S q)) q). replace (Nat.eqb (S q) (S (S q))) with false in IH by (symmetry; apply Nat.eqb_neq; lia).
      apply IH; auto; try lia. * intros ->. congruence. * intros H. destruct r; congruence.
    + cbn [adj snd fst]. f_equal. specialize (IH (S pos) pos). rewrite Nat.eqb_refl in IH. apply IH; auto; try lia.
      intros H. destruct r; congruence.
    + specialize (IH (S pos) q). replace (Nat.eqb (S q) (S pos)) with false in IH by (symmetry; apply Nat.eqb_neq; lia).
      apply IH; auto; try lia. * intros ->. congruence. * intros H. destruct r; congruence.
Qed.

Lemma sep_pairs_in p : forall (s : list Z) (pos : nat) w, In w (sep_pairs p pos s) -> snd w = S (fst w) /\ (pos <= fst w)%nat.
Proof.
  induction s as [|c r IH]; intros pos w H; cbn [sep_pairs] in H; [destruct H|].
  destruct (p c); [destruct H as [<-|H]; [cbn; lia|]|]; apply IH in H; cbn; lia.
Qed.
Lemma sep_pairs_adj p (f : nat * nat -> nat * nat -> list (nat * nat)) (g : nat * nat -> list (nat * nat)) :
  (forall q x, (q < x)%nat -> f (q, S q) (x, S x) = g (S q, x)) ->
  forall (s : list Z) (q pos : nat), (q < pos)%nat ->
  concat (adj f (q, S q) (sep_pairs p pos s)) = flat_map g (adj (fun a b => (snd a, fst b)) (q, S q) (sep_pairs p pos s)).
Proof.
  intros H s. induction s as [|c r IH]; intros q pos Hq; cbn [sep_pairs]; [reflexivity|].
  destruct (p c).
  - cbn [adj concat flat_map snd fst]. rewrite H by lia. f_equal. apply IH. lia.
  - apply IH. lia.
Qed.

Lemma ngram_charwb_ok p s mn mx : (1 <= mn)%nat -> (mn <= mx)%nat ->
  begins_with p s = true -> ends_with p s = true -> no_adjacent p s ->
  parse_ngram_charwb p s mn mx = Ok (flat_map (fun w => substrings mn (fst w - 1) (snd w + 1)) (parse p s)).
Proof.
  intros H1 H2 Hb He Hadj. unfold parse_ngram_charwb. cbv zeta.
  destruct (Nat.ltb_spec mn 1); [lia|]. destruct (Nat.ltb_spec mx mn); [lia|]. cbn [orb].
  destruct s as [|c r]; [discriminate|]. cbn in Hb. unfold parse. cbn [sep_pairs parse_loop]. rewrite Hb.
  cbn [length]. replace (S (length (sep_pairs p 1 r)) - 1)%nat with (length (sep_pairs p 1 r)) by lia.
  rewrite (mapM_adj (fun a b => char_helper (fst a) (snd b) mn mx)). cbn [rmap bind]. f_equal.
  destruct (no_adjacent_tail _ _ _ Hadj) as (Hadj' & Hnext).
  pose proof (parse_pairs p r 1 0) as Hp. cbn [Nat.eqb] in Hp. rewrite Hp; auto; try lia.
  - apply sep_pairs_adj; [|lia]. intros q x Hqx. cbn [fst snd]. rewrite char_helper_spec by lia. f_equal; lia.
  - intros Hr. rewrite ends_with_cons in He. destruct r; congruence.
Qed.
Lemma ngram_charwb_undefined p s mn mx : (1 <= mn)%nat -> (mn <= mx)%nat -> forallb (fun c => negb (p c)) s = true ->
  parse_ngram_charwb p s mn mx = UB.
Proof.
  intros H1 H2 Hs. unfold parse_ngram_charwb. cbv zeta.
  destruct (Nat.ltb_spec mn 1); [lia|]. destruct (Nat.ltb_spec mx mn); [lia|]. cbn [orb].
  assert (E : sep_pairs p 0 s = []); [|rewrite E; reflexivity].
  generalize 0%nat. induction s as [|c r IH]; intro pos; [reflexivity|]. cbn in Hs |- *.
  apply andb_true_iff in Hs. destruct Hs as (Hc & Hr). destruct (p c); [discriminate|]. auto.
Qed.

(** Trimming. *)
Section Trim.
  Variable p : Z -> bool.
  Lemma trim_left_spec s : exists pre, s = pre ++ trim_left p s /\ forallb p pre = true /\ begins_with p (trim_left p s) = false.
  Proof.
    induction s as [|c r (pre & E & Hp & Hb)]; cbn [trim_left]; [exists []; auto|].
    destruct (p c) eqn:Ep; cbn [negb].
    - exists (c :: pre). cbn. rewrite Ep. repeat split; auto. f_equal; auto.
    - exists []. cbn. auto.
  Qed.
  Lemma trim_left_app pre t : forallb p pre = true -> begins_with p t = false -> trim_left p (pre ++ t) = t.
  Proof.
    induction pre as [|c pre IH]; intros H Ht; cbn in *.
    - destruct t as [|c t]; [reflexivity|]. cbn in *. rewrite Ht. reflexivity.
    - apply andb_true_iff in H. destruct H as (Hc & H). rewrite Hc. cbn. auto.
  Qed.
  Lemma forallb_rev (l : list Z) : forallb p (rev l) = forallb p l.
  Proof. induction l as [|x l IH]; [reflexivity|]. cbn. rewrite forallb_app, IH. cbn. destruct (p x), (forallb p l); reflexivity. Qed.
  Lemma trim_right_app t post : forallb p post = true -> ends_with p t = false -> trim_right p (t ++ post) = t.
  Proof.
    intros H Ht. unfold trim_right. rewrite rev_app_distr, trim_left_app, rev_involutive; auto. rewrite forallb_rev; auto.
  Qed.
  Lemma trim_right_spec s : exists post, s = trim_right p s ++ post /\ forallb p post = true /\ ends_with p (trim_right p s) = false.
  Proof.
    unfold trim_right. destruct (trim_left_spec (rev s)) as (pre & E & Hp & Hb). exists (rev pre). repeat split.
    - rewrite <- rev_app_distr, <- E, rev_involutive. reflexivity.
    - rewrite forallb_rev; auto.
    - unfold ends_with. rewrite rev_involutive. auto.
  Qed.
  Lemma trimmed_all s : forallb p s = true -> trim p s = [].
  Proof. intro H. unfold trim. rewrite <- (app_nil_r s), trim_left_app; auto. Qed.
  Lemma trim_spec s t : trimmed p s t <-> t = trim p s.
  Proof.
    split.
    - intros (pre & post & -> & H1 & H2 & H3 & H4). destruct t as [|c t].
      + cbn [app]. symmetry. apply trimmed_all. rewrite forallb_app, H1, H2. reflexivity.
      + unfold trim. rewrite trim_left_app; auto. rewrite trim_right_app; auto.
    - intros ->. unfold trim. destruct (trim_left_spec s) as (pre & E & Hp & Hb).
      destruct (trim_right_spec (trim_left p s)) as (post & E' & Hp' & He). exists pre, post. repeat split; auto.
      + rewrite <- E'. exact E.
      + rewrite E' in Hb. destruct (trim_right p (trim_left p s)); [reflexivity|]. exact Hb.
  Qed.
  Lemma trim_idempotent s : trim p (trim p s) = trim p s.
  Proof.
    symmetry. apply trim_spec. destruct (proj2 (trim_spec s (trim p s)) eq_refl) as (_ & _ & _ & _ & _ & H3 & H4).
    exists [], []. rewrite app_nil_r. auto.
  Qed.
  Lemma trim_left_only s t : (exists pre, s = pre ++ t /\ forallb p pre = true /\ begins_with p t = false) <-> t = trim_left p s.
  Proof.
    split; [intros (pre & -> & H1 & H2); rewrite trim_left_app; auto|]. intros ->. apply trim_left_spec.
  Qed.
  Lemma trim_right_only s t : (exists post, s = t ++ post /\ forallb p post = true /\ ends_with p t = false) <-> t = trim_right p s.
  Proof.
    split; [intros (pre & -> & H1 & H2); rewrite trim_right_app; auto|]. intros ->. apply trim_right_spec.
  Qed.
End Trim.

(** De-duplication. *)
Fixpoint words_of (q : Z -> bool) (cur s : list Z) : list (list Z) :=
  match s with
  | [] => match cur with [] => [] | _ => [cur] end
  | c :: r => if q c then match cur with [] => words_of q [] r | _ => cur :: words_of q [] r end
              else words_of q (cur ++ [c]) r
  end.
Lemma sub_snoc (t : list Z) l r c rest : skipn r t = c :: rest -> (l <= r)%nat -> sub t l (S r) = sub t l r ++ [c].
Proof.
  intros H Hl. unfold sub. replace (S r - l)%nat with (r - l + 1)%nat by lia.
  rewrite <- (firstn_skipn (r - l) (skipn l t)) at 1.
  assert (Hlen : (r < length t)%nat) by (apply (skipn_cons t r c rest); auto).
  rewrite firstn_app, firstn_firstn, firstn_length, skipn_length.
  replace (Nat.min (r - l + 1) (r - l)) with (r - l)%nat by lia. f_equal.
  replace (r - l + 1 - Nat.min (r - l) (length t - l))%nat with 1%nat by lia.
  rewrite skipn_skipn. replace (r - l + l)%nat with r by lia. rewrite H. reflexivity.
Qed.
Lemma parse_words_of p (t : list Z) : forall (s : list Z) (skipping : bool) (left right : nat), s = skipn right t -> (left <= right <= length t)%nat ->
  (if skipping then left = right else (left < right)%nat) ->
  map (fun w => sub t (fst w) (snd w)) (parse_loop p skipping left right s) = words_of p (sub t left right) s.
Proof.
  assert (Hz : forall l, sub t l l = []) by (intro l; unfold sub; rewrite Nat.sub_diag; reflexivity).
  assert (Hnz : forall l r, (l < r <= length t)%nat -> sub t l r <> []).
  { intros l r H E. apply (f_equal (@length Z)) in E. unfold sub in E. rewrite firstn_length, skipn_length in E. cbn in E. lia. }
  induction s as [|c r IH]; intros skipping left right Hs Hlr Hsk; cbn [parse_loop words_of].
  - destruct (Nat.eqb_spec left right) as [->|E]; [rewrite Hz; reflexivity|]. cbn [map fst snd].
    destruct (sub t left right) eqn:E'; [|reflexivity]. exfalso. apply (Hnz left right); auto. lia.
  - symmetry in Hs. destruct (skipn_cons _ _ _ _ Hs) as (_ & Hr & Hlt).
    destruct skipping; destruct (p c) eqn:Ep.
    + subst right. rewrite Hz, (IH true (S left) (S left)), Hz; auto; lia.
    + subst right. rewrite (IH false left (S left)); auto; try lia. rewrite (sub_snoc t left left c r); auto.
    + cbn [map fst snd]. rewrite (IH true (S right) (S right)), Hz; auto; try lia.
      destruct (sub t left right) eqn:E'; [|reflexivity]. exfalso. apply (Hnz left right); auto. lia.
    + rewrite (IH false left (S right)); auto; try lia. rewrite (sub_snoc t left right c r); auto; lia.
Qed.
Lemma tokens_words_of p s : tokens p s = words_of p [] s.
Proof. unfold tokens, parse. rewrite (parse_words_of p s s true 0 0); auto. lia. Qed.

Section Dedup.
  Variable p : Z -> bool.
  Notation q := (fun c => p c || is_space c).

  Lemma words_of_drop : forall (s : list Z) (prev : bool) (cur : list Z), (prev = true -> cur = []) ->
    words_of is_space cur (drop_duplicate_spaces prev s) = words_of is_space cur s.
  Proof.
    induction s as [|c r IH]; intros prev cur H; [reflexivity|]. cbn [drop_duplicate_spaces]. cbv zeta.
    destruct (is_space c) eqn:Ec; cbn [andb].
    - destruct prev.
      + rewrite (H eq_refl). cbn [words_of]. rewrite Ec. apply IH. auto.
      + cbn [words_of]. rewrite Ec. rewrite (IH true []) by auto. reflexivity.
    - cbn [words_of]. rewrite Ec. apply IH. discriminate.
  Qed.
  Lemma words_of_replace : forall (s cur : list Z), words_of is_space cur (replace_chars p s) = words_of q cur s.
  Proof.
    induction s as [|c r IH]; intro cur; [reflexivity|]. cbn [replace_chars map words_of].
    fold (replace_chars p r). destruct (p c) eqn:Ep; cbn [orb].
    - replace (is_space 32) with true by reflexivity. destruct cur; [apply IH|]. f_equal. apply IH.
    - destruct (is_space c); [|apply IH]. destruct cur; [apply IH|]. f_equal. apply IH.
  Qed.
  Lemma dedup_tokens s : tokens is_space (replace_and_dedup p s) = tokens q s.
  Proof.
    rewrite !tokens_words_of. unfold replace_and_dedup. rewrite words_of_drop by discriminate. apply words_of_replace.
  Qed.

  Lemma drop_no_adjacent : forall (s : list Z) (prev : bool),
    no_adjacent is_space (drop_duplicate_spaces prev s) /\ (prev = true -> begins_with is_space (drop_duplicate_spaces prev s) = false).
  Proof.
    induction s as [|c r IH]; intro prev; cbn [drop_duplicate_spaces]; cbv zeta.
    - split; [|reflexivity]. intros i (x & Hx & _). destruct i; discriminate.
    - destruct (is_space c) eqn:Ec; cbn [andb].
      + destruct prev; [split; [apply IH|intros _; apply IH; reflexivity]|]. split; [|discriminate].
        destruct (IH true) as (H1 & H2). specialize (H2 eq_refl).
        intros [|i] (x & Hx & Hs) (y & Hy & Hs'); cbn in Hx, Hy.
        * destruct (drop_duplicate_spaces true r); [discriminate|]. cbn in *. congruence.
        * apply (H1 i); [exists x|exists y]; auto.
      + destruct (IH false) as (H1 & _). split; [|intros _; cbn; auto].
        intros [|i] (x & Hx & Hs) (y & Hy & Hs'); cbn in Hx, Hy; [congruence|]. apply (H1 i); [exists x|exists y]; auto.
  Qed.
  Lemma drop_begins s : begins_with is_space (drop_duplicate_spaces false s) = begins_with is_space s.
  Proof. destruct s as [|c r]; [reflexivity|]. cbn [drop_duplicate_spaces]. cbv zeta. rewrite andb_false_r. reflexivity. Qed.
  Lemma drop_ends : forall (s : list Z) x,
    ends_with is_space (x :: drop_duplicate_spaces (is_space x) s) = ends_with is_space (x :: s).
  Proof.
    induction s as [|c r IH]; intro x; [reflexivity|]. cbn [drop_duplicate_spaces]. cbv zeta.
    destruct (is_space c && is_space x) eqn:E.
    - apply andb_true_iff in E. destruct E as (Ec & Ex). specialize (IH c). rewrite Ec in *.
      rewrite (ends_with_cons _ x (c :: r)), <- IH, !ends_with_cons. destruct (drop_duplicate_spaces true r); congruence.
    - rewrite !(ends_with_cons _ x). apply IH.
  Qed.
  Lemma replace_begins s : begins_with is_space (replace_chars p s) = begins_with q s.
  Proof. destruct s as [|c r]; [reflexivity|]. cbn. destruct (p c); reflexivity. Qed.
  Lemma replace_ends s : ends_with is_space (replace_chars p s) = ends_with q s.
  Proof. unfold ends_with, replace_chars. rewrite <- map_rev. apply replace_begins. Qed.
  Lemma dedup_begins s : begins_with is_space (replace_and_dedup p s) = begins_with q s.
  Proof. unfold replace_and_dedup. rewrite drop_begins. apply replace_begins. Qed.
  Lemma dedup_ends s : ends_with is_space (replace_and_dedup p s) = ends_with q s.
  Proof.
    rewrite <- replace_ends. unfold replace_and_dedup. destruct (replace_chars p s) as [|c r]; [reflexivity|].
    cbn [drop_duplicate_spaces]. cbv zeta. rewrite andb_false_r. apply drop_ends.
  Qed.
  Lemma drop_In : forall (s : list Z) prev c, In c (drop_duplicate_spaces prev s) -> In c s.
  Proof.
    induction s as [|x r IH]; intros prev c H; [exact H|]. cbn [drop_duplicate_spaces] in H. cbv zeta in H.
    destruct (is_space x && prev); [right; eauto|]. destruct H as [H|H]; [left; auto|right; eauto].
  Qed.
  Lemma dedup_blanks s : (forall c, In c s -> p c = false -> is_space c = true -> c = 32) ->
    forall c, In c (replace_and_dedup p s) -> is_space c = true -> c = 32.
  Proof.
    intros H c Hc Hs. apply drop_In in Hc. unfold replace_chars in Hc. apply in_map_iff in Hc. destruct Hc as (x & E & Hx).
    destruct (p x) eqn:Ep; [auto|]. subst x. auto.
  Qed.
  Lemma drop_id : forall s : list Z, no_adjacent is_space s -> forall prev, (prev = true -> begins_with is_space s = false) ->
    drop_duplicate_spaces prev s = s.
  Proof.
    induction s as [|c r IH]; intros H prev Hp; [reflexivity|]. cbn [drop_duplicate_spaces]. cbv zeta.
    destruct (no_adjacent_tail _ _ _ H) as (H1 & H2).
    destruct (is_space c) eqn:Ec; cbn [andb].
    - destruct prev; [specialize (Hp eq_refl); cbn in Hp; congruence|]. f_equal. apply IH; auto.
    - f_equal. apply IH; auto.
  Qed.
  Lemma dedup_idempotent s : replace_and_dedup p (replace_and_dedup p s) = replace_and_dedup p s.
  Proof.
    unfold replace_and_dedup at 1.
    assert (E : replace_chars p (replace_and_dedup p s) = replace_and_dedup p s).
    { unfold replace_chars at 1. rewrite <- (map_id (replace_and_dedup p s)) at 2. apply map_ext_in. intros c Hc.
      apply drop_In in Hc. unfold replace_chars in Hc. apply in_map_iff in Hc. destruct Hc as (x & E & Hx).
      destruct (p c) eqn:Ep; [|reflexivity]. destruct (p x) eqn:Ex; congruence. }
    rewrite E. apply drop_id; [apply drop_no_adjacent|discriminate].
  Qed.

  Lemma begins_nth s : begins_with p s = match nth_error s 0 with Some c => p c | None => false end.
  Proof. destruct s; reflexivity. Qed.
  Lemma ends_nth s : s <> [] -> exists c, nth_error s (length s - 1) = Some c /\ ends_with p s = p c.
  Proof.
    intro H. destruct (rev s) as [|c r] eqn:E.
    - apply (f_equal (@rev Z)) in E. rewrite rev_involutive in E. contradiction.
    - exists c. unfold ends_with. rewrite E. split; [|reflexivity].
      assert (Es : s = rev r ++ [c]) by (rewrite <- (rev_involutive s), E; reflexivity).
      rewrite Es, app_length. cbn [length]. rewrite nth_error_app2 by lia.
      replace (length (rev r) + 1 - 1 - length (rev r))%nat with 0%nat by lia. reflexivity.
  Qed.
  Lemma padding_ok s : s <> [] ->
    string_padding p s = Ok ((if begins_with p s then [] else [32]) ++ s ++ (if ends_with p s then [] else [32])).
  Proof.
    intro H. unfold string_padding. destruct (ends_nth s H) as (c & E1 & E2). rewrite E1, E2. destruct s as [|d s]; [congruence|].
    cbn [nth_error bind begins_with]. destruct (p d), (p c); cbn [negb andb app]; rewrite ?app_nil_r; reflexivity.
  Qed.
  Lemma padding_idempotent s t : p 32 = true -> string_padding p s = Ok t ->
    begins_with p t = true /\ ends_with p t = true /\ string_padding p t = Ok t.
  Proof.
    intros H32 H. destruct s as [|c s]; [discriminate|]. rewrite padding_ok in H by discriminate.
    apply (f_equal (fun r => match r with Ok x => x | _ => [] end)) in H.
    assert (Hb : begins_with p t = true).
    { rewrite <- H. cbn [begins_with]. destruct (p c) eqn:E; [exact E|exact H32]. }
    assert (He : ends_with p t = true).
    { rewrite <- H. destruct (ends_with p (c :: s)) eqn:E.
      - rewrite app_nil_r, ends_with_app. auto.
      - rewrite app_assoc, ends_with_app. rewrite ends_with_cons. auto. }
    repeat split; auto. rewrite padding_ok, Hb, He; [rewrite app_nil_r; reflexivity|]. intros ->. discriminate.
  Qed.
End Dedup.

Lemma lower_idempotent s : to_lower (to_lower s) = to_lower s.
Proof. unfold to_lower. rewrite map_map. apply map_ext. intro c. unfold lower_char. destruct (Z.leb_spec 65 c), (Z.leb_spec c 90); cbn [andb]; repeat match goal with |- context [?a <=? ?b] => destruct (Z.leb_spec a b) end; cbn [andb]; lia. Qed.
Lemma upper_idempotent s : to_upper (to_upper s) = to_upper s.
Proof. unfold to_upper. rewrite map_map. apply map_ext. intro c. unfold upper_char. destruct (Z.leb_spec 97 c), (Z.leb_spec c 122); cbn [andb]; repeat match goal with |- context [?a <=? ?b] => destruct (Z.leb_spec a b) end; cbn [andb]; lia. Qed.
