(** C55, C56, C60, C61, C62: document statistics, count vectors, terms, regular expressions, tf-idf vectors. *)
From Coq Require Import Reals.
From Flocq Require Import Core.Core IEEE754.BinarySingleNaN.
From Verif Require Import Base M_Estimator M_Stats S_Stats L_Stats M_Scale S_Scale M_Encoders M_String M_Text S_Text L_Text M_Grain M_Docs S_Docs
  L_Docs4 L_Docs6 L_Docs7 L_Docs8 L_Docs10 L_Docs11 L_Docs12.
Open Scope Z_scope.

(** C55: training keeps exactly the selected terms, each with the number of documents that contain it, indexed in
    alphabetic order after the vocabulary; for every hash order and every correct std::nth_element. *)
Theorem C55_document_statistics : forall (re : list Z -> list Z -> nat -> option (nat * nat)) (nthe : list Z -> nat -> list Z)
    (perm : list (list Z * Z) -> list (list Z * Z)),
  nth_element_ok nthe -> (forall h, Permutation (perm h) h) -> forall d : dcfg, dcfg_ok d = true -> is_finite (dc_min d) = true ->
  is_finite (dc_max d) = true ->
  let vocabulary := match dc_vocabulary d with Some v => v | None => [] end in
  forall mx bs corpus, proper_training mx bs -> documents_ok (items mx bs) -> Z.of_nat (length (items mx bs)) < 2 ^ 32 ->
  NoDup (map fst vocabulary) -> mapM (train_terms re (dc_text d)) (items mx bs) = Ok corpus ->
  let sel := selected corpus (dc_min d) (dc_max d) (dc_topk d) in
  ((exists t, sel t) -> exists s, train_docs re nthe perm d mx bs = Ok (Some s) /\ ds_total s = Z.of_nat (length (items mx bs)) /\
     NoDup (map fst (ds_terms s)) /\
     (forall t c i, In (t, (c, i)) (ds_terms s) <-> sel t /\ c = documents_with corpus t /\ index_of vocabulary sel t i) /\
     (Permutation (map snd vocabulary) (map Z.of_nat (seq 0 (length vocabulary))) ->
      Z.of_nat (length vocabulary + length (ds_terms s)) <= 2 ^ 32 -> NoDup (map (fun e => snd (snd e)) (ds_terms s)))) /\
  ((forall t, ~ sel t) -> train_docs re nthe perm d mx bs = Throw InvalidArgument).
Proof. exact docs_trained. Qed.
Print Assumptions C55_document_statistics.

(** C55: with a limit, as many terms are selected as the limit says, or all of them if there are fewer. *)
Theorem C55_limit : forall corpus mn mx k n,
  number_of (candidate corpus mn mx) n -> number_of (selected corpus mn mx (Some k)) (Nat.min k n).
Proof. exact limit_exact. Qed.
Print Assumptions C55_limit.

(** C55: a document that cannot be parsed stops the training with its error. *)
Theorem C55_bad_document : forall re nthe perm d, dcfg_ok d = true -> forall mx bs e, proper_training mx bs ->
  mapM (train_terms re (dc_text d)) (items mx bs) = Throw e -> train_docs re nthe perm d mx bs = Throw e.
Proof. exact docs_fail. Qed.
Print Assumptions C55_bad_document.

(** ... in particular a single document with fewer words than the longest n-gram asked for stops it, although the terms of
    every other document could be counted: the statement "statistics are given for every corpus" is false. *)
Theorem C55_short_document_refuted : forall re nthe perm d mx bs doc, dcfg_ok d = true -> tc_analyzer (dc_text d) = Word ->
  tc_regex (dc_text d) = [] -> (1 < tc_max (dc_text d))%nat -> proper_training mx bs -> In doc (items mx bs) ->
  (number_of_words is_space (replace_and_dedup is_punct doc) < tc_max (dc_text d))%nat ->
  train_docs re nthe perm d mx bs = Throw InvalidArgument.
Proof. exact short_document. Qed.
Print Assumptions C55_short_document_refuted.

(** "b a", "b c b", "C" lower-cased: b and c are in two documents each, a in one.  The limit 1 keeps b, which comes before c;
    with the vocabulary c -> 0 the others follow as a -> 1, b -> 2. *)
Example C55_case : let re := fun _ _ _ => None in let cfg := fun k v => mkDcfg (mkTcfg true Word [] 1 1) v k fzero fone in
  let docs := [[98; 32; 97]; [98; 32; 99; 32; 98]; [67]] in
  nth_element_ok descending /\ dcfg_ok (cfg (Some 2%nat) None) = true /\ proper_training 5 [docs] /\ documents_ok (items 5 [docs]) /\
  mapM (train_terms re (mkTcfg true Word [] 1 1)) docs = Ok [[[98]; [97]]; [[98]; [99]; [98]]; [[99]]] /\
  train_docs re descending (fun h => h) (cfg (Some 2%nat) None) 5 [docs] = Ok (Some (mkStats [([98], (2, 0)); ([99], (2, 1))] 3)) /\
  train_docs re descending (fun h => h) (cfg (Some 1%nat) None) 5 [docs] = Ok (Some (mkStats [([98], (2, 0))] 3)) /\
  train_docs re descending (fun h => h) (cfg None (Some [([99], 0)])) 5 [docs] =
    Ok (Some (mkStats [([97], (1, 1)); ([98], (2, 2)); ([99], (2, 0))] 3)).
Proof.
  cbv zeta. split; [exact descending_ok|]. split; [reflexivity|]. split; [split; [lia|repeat constructor; discriminate]|]. split; [unfold documents_ok; vm_compute; repeat constructor|].
  repeat split; vm_compute; reflexivity.
Qed.

(** A vocabulary that leaves a gap gives two terms the same index: "the kept terms are indexed densely" is false then. *)
Theorem C55_vocabulary_refuted : exists (re : list Z -> list Z -> nat -> option (nat * nat)) d docs s, dcfg_ok d = true /\
  train_docs re descending (fun h => h) d 5 [docs] = Ok (Some s) /\ ~ NoDup (map (fun e => snd (snd e)) (ds_terms s)).
Proof.
  exists (fun _ _ _ => None), (mkDcfg (mkTcfg true Word [] 1 1) (Some [([97], 1)]) None fzero fone), [[97; 32; 98]].
  eexists. split; [reflexivity|]. split; [vm_compute; reflexivity|]. intro N. inversion N; subst. apply H1. left. reflexivity.
Qed.
Print Assumptions C55_vocabulary_refuted.

(** C56: the count vector: at the index of each known term of the document the number of its occurrences (as a single
    precision number; 1 in binary mode), nothing else, indexes increasing.  A document without a known term throws. *)
Theorem C56_count_vector : forall (re : list Z -> list Z -> nat -> option (nat * nat)) (ln : binary_float 53 1024 -> binary_float 53 1024)
    (s : dstats) (binary : bool) (c : tcfg) (t : tfidf),
  cv_make s binary c = Ok t -> NoDup (map fst (ds_terms s)) -> NoDup (map (fun e => snd (snd e)) (ds_terms s)) ->
  forall doc terms, bytes_ok doc = true -> infer_terms re c doc = Ok terms ->
  (binary = false -> forall u, In u (map fst (ds_terms s)) -> occ str_eqb u terms <= 2 ^ 32 - 256) ->
  ((exists u, In u terms /\ In u (map fst (ds_terms s))) ->
    exists v, cv_execute re ln t doc = Ok v /\ sp_elements v = Z.of_nat (length (ds_terms s)) /\
      StronglySorted Z.lt (map snd (sp_values v)) /\
      forall x i, In (x, i) (sp_values v) <->
        exists u n, In u terms /\ In (u, (n, i)) (ds_terms s) /\ IZR x = if binary then 1%R else r32 (IZR (occ str_eqb u terms))) /\
  ((forall u, In u terms -> ~ In u (map fst (ds_terms s))) -> cv_execute re ln t doc = Throw InvalidArgument).
Proof. exact count_vector. Qed.
Print Assumptions C56_count_vector.

(** C56: up to 2^24 occurrences the single precision number is the number itself. *)
Theorem C56_exact : forall n : Z, 0 <= n <= 2 ^ 24 -> r32 (IZR n) = IZR n.
Proof. intros n H. apply r32_exact. lia. Qed.
Print Assumptions C56_exact.

(** ... beyond that it is not: a document with 2^24 + 1 occurrences is counted as 2^24. *)
Theorem C56_long_document_refuted : forall re ln, exists (s : dstats) (t : tfidf) (doc : list Z) (v : sparse Z),
  cv_make s false (mkTcfg false Word [] 1 1) = Ok t /\
  infer_terms re (mkTcfg false Word [] 1 1) doc = Ok (repeat [97] (Z.to_nat (2 ^ 24 + 1))) /\
  ds_terms s = [([97], (1, 0))] /\
  cv_execute re ln t doc = Ok v /\ In (2 ^ 24, 0) (sp_values v) /\ ~ In (2 ^ 24 + 1, 0) (sp_values v).
Proof. exact long_document. Qed.
Print Assumptions C56_long_document_refuted.

(** What training gives meets the hypotheses of C56 and C62 (no vocabulary or a dense one). *)
Theorem C56_trained : forall re nthe perm, nth_element_ok nthe -> (forall h, Permutation (perm h) h) ->
  forall d, dcfg_ok d = true -> is_finite (dc_min d) = true -> is_finite (dc_max d) = true ->
  let vocabulary := match dc_vocabulary d with Some v => v | None => [] end in
  forall mx bs corpus s, proper_training mx bs -> documents_ok (items mx bs) -> Z.of_nat (length (items mx bs)) < 2 ^ 32 ->
  NoDup (map fst vocabulary) -> Permutation (map snd vocabulary) (map Z.of_nat (seq 0 (length vocabulary))) ->
  mapM (train_terms re (dc_text d)) (items mx bs) = Ok corpus -> train_docs re nthe perm d mx bs = Ok (Some s) ->
  Z.of_nat (length vocabulary + length (ds_terms s)) <= 2 ^ 32 ->
  NoDup (map fst (ds_terms s)) /\ NoDup (map (fun e => snd (snd e)) (ds_terms s)) /\
  (forall u df i, In (u, (df, i)) (ds_terms s) -> 1 <= df <= ds_total s) /\ ds_total s = Z.of_nat (length (items mx bs)).
Proof. intros. eapply trained_stats; eassumption. Qed.
Print Assumptions C56_trained.

(** "b z B b" with the statistics b -> 0, c -> 1; "z" alone throws. *)
Example C56_case : let re := fun _ _ _ => None in let s := mkStats [([98], (2, 0)); ([99], (2, 1))] 3 in let c := mkTcfg true Word [] 1 1 in
  exists t, cv_make s false c = Ok t /\ infer_terms re c [98; 32; 122; 32; 66; 32; 98] = Ok [[98]; [122]; [98]; [98]] /\
    cv_execute re (fun x => x) t [98; 32; 122; 32; 66; 32; 98] = Ok (mkSparse 2 [(3, 0)]) /\
    cv_execute re (fun x => x) t [122] = Throw InvalidArgument.
Proof. eexists. repeat split; vm_compute; reflexivity. Qed.

(** C60: a document gives the same terms in training and in inference, unless a regular expression meets lower-casing. *)
Theorem C60_same_terms : forall (re : list Z -> list Z -> nat -> option (nat * nat)) (c : tcfg) (doc : list Z),
  tc_analyzer c <> Word \/ tc_regex c = [] \/ tc_lower c = false -> train_terms re c doc = infer_terms re c doc.
Proof. exact same_terms_read. Qed.
Print Assumptions C60_same_terms.

(** C60: single words: the maximal segments without white space, lower-cased if asked for. *)
Theorem C60_words : forall (re : list Z -> list Z -> nat -> option (nat * nat)) (lower : bool) (doc : list Z),
  exists ws, (forall w, In w ws <-> is_word is_space doc w) /\ left_to_right ws /\
    train_terms re (mkTcfg lower Word [] 1 1) doc = Ok (map (fun w => let x := sub doc (fst w) (snd w) in if lower then to_lower x else x) ws).
Proof.
  intros re lower doc. exists (parse is_space doc). destruct (parse_words is_space doc) as (H1 & H2). split; [exact H1|]. split; [exact H2|]. reflexivity.
Qed.
Print Assumptions C60_words.

(** C60: word n-grams: of the cleaned text (C54_dedup with punctuation), for every n of the range, exactly the substrings spanned by n
    consecutive words; a document with fewer words is refused. *)
Theorem C60_word_ngrams : forall (re : list Z -> list Z -> nat -> option (nat * nat)) (lower : bool) (doc : list Z) (mn mx : nat),
  (1 <= mn)%nat -> (mn <= mx)%nat -> (1 < mx)%nat ->
  let s := replace_and_dedup is_punct (if lower then to_lower doc else doc) in
  ((mx <= number_of_words is_space s)%nat ->
   exists out, (forall w, In w out <-> exists n, (mn <= n <= mx)%nat /\ spans is_space s n w) /\
     StronglySorted (ngram_before is_space s) out /\
     train_terms re (mkTcfg lower Word [] mn mx) doc = Ok (map (fun w => sub s (fst w) (snd w)) out)) /\
  ((number_of_words is_space s < mx)%nat -> train_terms re (mkTcfg lower Word [] mn mx) doc = Throw InvalidArgument).
Proof.
  intros re lower doc mn mx H1 H2 H3 s. split; [now apply word_ngram_terms|]. intro H4. apply word_ngram_refused; [exact H3|]. right. right. exact H4.
Qed.
Print Assumptions C60_word_ngrams.
(** C60: character n-grams of the cleaned text.  Only those of the least length are terms (C53_lengths_refuted). *)
Theorem C60_char_ngrams : forall (re : list Z -> list Z -> nat -> option (nat * nat)) (lower : bool) (doc pattern : list Z) (mn mx : nat),
  (1 <= mn)%nat -> (mn <= mx)%nat ->
  let s := replace_and_dedup is_punct (if lower then to_lower doc else doc) in
  ((mx <= length s)%nat ->
   exists out, (forall w, In w out <-> has_length s mn w) /\ StronglySorted (fun x y => (fst x < fst y)%nat) out /\
     train_terms re (mkTcfg lower Char pattern mn mx) doc = Ok (map (fun w => sub s (fst w) (snd w)) out)) /\
  ((length s < mx)%nat -> train_terms re (mkTcfg lower Char pattern mn mx) doc = Throw InvalidArgument).
Proof.
  intros re lower doc pattern mn mx H1 H2 s. split; [now apply char_ngram_terms|]. intro H4. apply char_ngram_refused. right. right. exact H4.
Qed.
Print Assumptions C60_char_ngrams.
(** C60: character n-grams within words: the cleaned text is padded with blanks; each word in turn with its two neighbours, the
    substrings of the least length from left to right. *)
Theorem C60_char_ngrams_within_words : forall (re : list Z -> list Z -> nat -> option (nat * nat)) (lower : bool) (doc pattern : list Z) (mn mx : nat),
  (1 <= mn)%nat -> (mn <= mx)%nat -> doc <> [] ->
  let c := replace_and_dedup is_punct (if lower then to_lower doc else doc) in
  let s := (if begins_with is_space c then [] else [32]) ++ c ++ (if ends_with is_space c then [] else [32]) in
  exists ws, (forall w, In w ws <-> is_word is_space s w) /\ left_to_right ws /\
    train_terms re (mkTcfg lower Charwb pattern mn mx) doc =
      Ok (map (fun w => sub s (fst w) (snd w)) (flat_map (fun w => substrings mn (fst w - 1) (snd w + 1)) ws)).
Proof. exact charwb_terms. Qed.
Print Assumptions C60_char_ngrams_within_words.

(** With a regular expression the training matches the document and lower-cases the matches, the inference lower-cases the
    document and matches that: an expression for upper-case letters trains on terms that no document then has. *)
Theorem C60_regex_lower_refuted : forall (re : list Z -> list Z -> nat -> option (nat * nat)) (pattern : list Z), pattern <> [] ->
  re pattern [65] 0%nat = Some (0%nat, 1%nat) -> re pattern [65] 1%nat = None -> re pattern [97] 0%nat = None ->
  let c := mkTcfg true Word pattern 1 1 in train_terms re c [65] = Ok [[97]] /\ infer_terms re c [65] = Ok [].
Proof. exact regex_lower. Qed.
Print Assumptions C60_regex_lower_refuted.

(** "Ab, cD" as words and as 2-character terms. *)
Example C60_case : let re := fun _ _ _ => None in let doc := [65; 98; 44; 32; 99; 68] in
  train_terms re (mkTcfg true Word [] 1 1) doc = Ok [[97; 98; 44]; [99; 100]] /\
  train_terms re (mkTcfg true Word [] 1 2) doc = Ok [[97; 98]; [99; 100]; [97; 98; 32; 99; 100]] /\
  infer_terms re (mkTcfg true Word [] 1 2) doc = Ok [[97; 98]; [99; 100]; [97; 98; 32; 99; 100]] /\
  infer_terms re (mkTcfg true Char [] 2 2) doc = Ok [[97; 98]; [98; 32]; [32; 99]; [99; 100]] /\
  train_terms re (mkTcfg true Char [] 2 4) doc = Ok [[97; 98]; [98; 32]; [32; 99]; [99; 100]] /\
  train_terms re (mkTcfg true Charwb [] 3 3) doc = Ok [[32; 97; 98]; [97; 98; 32]; [32; 99; 100]; [99; 100; 32]].
Proof. repeat split; vm_compute; reflexivity. Qed.

(** C61: an expression that matches nothing empty gives the successive leftmost matches, from left to right, each starting at
    or after the end of the one before. *)
Theorem C61_regex_tokens : forall re : list Z -> list Z -> nat -> option (nat * nat), engine_ok re -> forall pattern text : list Z,
  text <> [] -> (forall start b e, re pattern text start = Some (b, e) -> (b < e)%nat) ->
  exists l, parse_regex re pattern text = Ok l /\ matches re pattern text 0 l /\
    StronglySorted (fun x y : nat * nat => (snd x <= fst y)%nat) l /\
    Forall (fun w => (fst w < snd w /\ snd w <= length text)%nat) l.
Proof. exact regex_tokens. Qed.
Print Assumptions C61_regex_tokens.

(** C61: "parsing ends for every expression" is false: an empty match where the last match ended is found again forever. *)
Theorem C61_endless_refuted : forall (re : list Z -> list Z -> nat -> option (nat * nat)) (pattern text : list Z) p l, text <> [] ->
  steps re pattern text 0 l p -> re pattern text p = Some (p, p) -> parse_regex re pattern text = UB.
Proof. intros re pattern text p l. exact (regex_endless re pattern text p l). Qed.
Print Assumptions C61_endless_refuted.

(** The engine for "a": the position of the next 97.  "a*" as an engine: an empty match at every other position. *)
Fixpoint next_a (text : list Z) (skip pos : nat) : option (nat * nat) :=
  match text with
  | [] => None
  | x :: r => match skip with
              | S k => next_a r k (S pos)
              | O => if x =? 97 then Some (pos, S pos) else next_a r 0 (S pos)
              end
  end.
Lemma next_a_ok : forall text skip pos b e, next_a text skip pos = Some (b, e) -> (pos + skip <= b /\ b < e /\ e <= pos + length text)%nat.
Proof.
  induction text as [|x text IH]; intros skip pos b e H; [discriminate|]. cbn [next_a length] in *. destruct skip as [|k].
  - destruct (x =? 97); [injection H as <- <-; lia|]. apply IH in H. lia.
  - apply IH in H. lia.
Qed.
Example C61_case : let re := fun (_ text : list Z) start => next_a text start 0 in
  engine_ok re /\ (forall p text start b e, re p text start = Some (b, e) -> (b < e)%nat) /\
  parse_regex re [97] [98; 97; 97; 99; 97] = Ok [(1, 2); (2, 3); (4, 5)]%nat /\
  (let star := fun (_ text : list Z) start => if nth start text 0 =? 97 then Some (start, S start) else Some (start, start) in
   parse_regex star [97; 42] [97; 98] = UB).
Proof.
  cbv zeta. split; [|split; [|split; vm_compute; reflexivity]].
  - intros p text start b e H. apply next_a_ok in H. lia.
  - intros p text start b e H. apply next_a_ok in H. lia.
Qed.

(** C62: the tf-idf vector: for each known term of the document its weight divided by the norm of the weights of all of them
    (in some order of adding), at the index of the term; normalized components lie in [0, 1].  Without a known term: throws. *)
Theorem C62_tfidf_vector : forall (re : list Z -> list Z -> nat -> option (nat * nat)) (ln : binary_float 53 1024 -> binary_float 53 1024),
  log_ok ln -> forall (s : dstats) (nrm : norm) (binary use_idf smooth sublinear : bool) (c : tcfg) (t : tfidf),
  tfidf_make s nrm binary use_idf smooth sublinear c = Ok t ->
  NoDup (map fst (ds_terms s)) -> NoDup (map (fun e => snd (snd e)) (ds_terms s)) ->
  (forall u df i, In (u, (df, i)) (ds_terms s) -> 1 <= df <= ds_total s) -> ds_total s < 2 ^ 32 - 1 ->
  forall doc terms, bytes_ok doc = true -> infer_terms re c doc = Ok terms -> Z.of_nat (length terms) <= 2 ^ 24 ->
  ((exists u, In u terms /\ In u (map fst (ds_terms s))) ->
    exists v us ws nv, tf_execute re ln t doc = Ok v /\ sp_elements v = Z.of_nat (length (ds_terms s)) /\
      StronglySorted Z.lt (map snd (sp_values v)) /\
      NoDup us /\ (forall u, In u us <-> In u terms /\ In u (map fst (ds_terms s))) /\
      norm_is nrm ws nv /\
      Forall2 (fun u w => exists df i x, In (u, (df, i)) (ds_terms s) /\
                 tfidf_weight ln binary sublinear use_idf smooth (occ str_eqb u terms) df (ds_total s) w /\
                 In (x, i) (sp_values v) /\ equals x (r32 (w / nv)) /\ (nrm <> NoNorm -> within 0 1 x)) us ws /\
      (forall x i, In (x, i) (sp_values v) -> exists u df, In u us /\ In (u, (df, i)) (ds_terms s))) /\
  ((forall u, In u terms -> ~ In u (map fst (ds_terms s))) -> tf_execute re ln t doc = Throw InvalidArgument).
Proof. exact tfidf_vector. Qed.
Print Assumptions C62_tfidf_vector.

(** "b z B b c" without idf, norm L1: weights 3 and 1, so 0.75 and 0.25. *)
Example C62_case : let re := fun _ _ _ => None in let s := mkStats [([98], (2, 0)); ([99], (2, 1))] 3 in let c := mkTcfg true Word [] 1 1 in
  let ln := fun _ => f64 0 in let doc := [98; 32; 122; 32; 66; 32; 98; 32; 99] in
  log_ok ln /\ (forall u df i, In (u, (df, i)) (ds_terms s) -> 1 <= df <= ds_total s) /\
  infer_terms re c doc = Ok [[98]; [122]; [98]; [98]; [99]] /\
  exists t, tfidf_make s L1 false false false false c = Ok t /\
    rmap (fun v => map (fun p => (B2SF (fst p), snd p)) (sp_values v)) (tf_execute re ln t doc) =
      Ok [(SpecFloat.S754_finite false 12582912 (-24), 0); (SpecFloat.S754_finite false 8388608 (-25), 1)].
Proof.
  cbv zeta. split; [|split; [|split; [vm_compute; reflexivity|]]].
  - intros x _ _. split; [reflexivity|]. cbn [f64]. change (B2R (f64 0)) with 0%R. split; [apply Rle_refl|]. apply (IZR_le 0 1024). lia.
  - intros u df i [E|[E|[]]]; injection E as <- <- <-; cbn; lia.
  - eexists. split; [cbv [tfidf_make ds_terms]; reflexivity|]. vm_compute. reflexivity.
Qed.
