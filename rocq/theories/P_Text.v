(** C51-C54: tokenizing, n-grams, clean-up. *)
From Coq Require Import String.
From Verif Require Import Base M_String M_Text M_Date S_Text L_Text L_Text2 L_Text3 L_Text4.

(** C51: parsing reports exactly the maximal separator-free non-empty segments, from left to right. *)
Theorem C51_words : forall (p : Z -> bool) (s : list Z),
  (forall w, In w (parse p s) <-> is_word p s w) /\ left_to_right (parse p s).
Proof. exact parse_words. Qed.
Print Assumptions C51_words.

(** ... and nothing else satisfies that description. *)
Theorem C51_only : forall (p : Z -> bool) (s : list Z) (l : list (nat * nat)),
  (forall w, In w l <-> is_word p s w) -> left_to_right l -> l = parse p s.
Proof.
  intros p s l H Hs. destruct (parse_words p s) as (H' & Hs'). apply sorted_lt_unique; auto.
  - intros (b, e) Hw. apply H in Hw. apply Hw.
  - intro w. rewrite H, H'. reflexivity.
Qed.
Print Assumptions C51_only.

(** " ab  c" *)
Example C51_case : parse is_space [32; 97; 98; 32; 32; 99] = [(1, 3); (5, 6)]%nat /\ parse is_space [32; 32] = [].
Proof. split; reflexivity. Qed.

(** C52: for every n in the range, exactly the substrings spanned by n consecutive words: by n, then from left to right. *)
Theorem C52_word_ngrams : forall (p : Z -> bool) (s : list Z) (mn mx : nat),
  (1 <= mn)%nat -> (mn <= mx)%nat -> (mx <= number_of_words p s)%nat ->
  exists out, parse_ngram_word p s mn mx = Ok out /\
    (forall w, In w out <-> exists n, (mn <= n <= mx)%nat /\ spans p s n w) /\
    StronglySorted (ngram_before p s) out.
Proof. exact ngram_word_spec. Qed.
Print Assumptions C52_word_ngrams.

(** C52: an empty or inverted range, one that starts at 0, one that exceeds the number of words, or a text without words. *)
Theorem C52_invalid : forall (p : Z -> bool) (s : list Z) (mn mx : nat),
  (mn < 1 \/ mx < mn \/ number_of_words p s < mx \/ number_of_words p s = 0)%nat ->
  parse_ngram_word p s mn mx = Throw InvalidArgument.
Proof. exact ngram_word_throws. Qed.
Print Assumptions C52_invalid.

(** "a bc  d" with 1..2: "a", "bc", "d", "a bc", "bc  d". *)
Example C52_case : let s := [97; 32; 98; 99; 32; 32; 100] in
  number_of_words is_space s = 3%nat /\
  parse_ngram_word is_space s 1 2 = Ok [(0, 1); (2, 4); (6, 7); (0, 4); (2, 7)]%nat /\
  spans is_space s 2 (2, 7)%nat /\ parse_ngram_word is_space s 1 4 = Throw InvalidArgument.
Proof. cbv zeta. repeat split; try reflexivity; cbn; lia. Qed.

(** C53.  Full statement: "In w out <-> exists n in [mn, mx] with has_length s n w".  It holds when mn = mx; otherwise only
    the substrings of the least length are reported (next theorem), which refutes it. *)
Theorem C53_char_ngrams_partial : forall (s : list Z) (mn mx : nat), (1 <= mn)%nat -> mn = mx -> (mx <= length s)%nat ->
  exists out, parse_ngram_char s mn mx = Ok out /\
    (forall w, In w out <-> exists n, (mn <= n <= mx)%nat /\ has_length s n w) /\
    StronglySorted (fun x y => (fst x < fst y)%nat) out.
Proof.
  intros s mn mx H1 <- H2. destruct (ngram_char_least s mn mn H1 (le_n _) H2) as (out & E & Hin & Hs). exists out.
  split; [exact E|]. split; [|exact Hs]. intro w. rewrite Hin. split.
  - intro H. exists mn. auto.
  - intros (n & Hn & H). replace mn with n by lia. exact H.
Qed.
Print Assumptions C53_char_ngrams_partial.

Theorem C53_least_length : forall (s : list Z) (mn mx : nat), (1 <= mn)%nat -> (mn <= mx)%nat -> (mx <= length s)%nat ->
  exists out, parse_ngram_char s mn mx = Ok out /\ (forall w, In w out <-> has_length s mn w) /\
    StronglySorted (fun x y => (fst x < fst y)%nat) out.
Proof. exact ngram_char_least. Qed.
Print Assumptions C53_least_length.

(** C53 fails for every range of more than one length: no longer substring is ever reported. *)
Theorem C53_lengths_refuted : forall (s : list Z) (mn mx : nat), (1 <= mn)%nat -> (mn < mx)%nat -> (mx <= length s)%nat ->
  exists out, parse_ngram_char s mn mx = Ok out /\ forall n w, (mn < n <= mx)%nat -> has_length s n w -> ~ In w out.
Proof. exact ngram_char_lengths. Qed.
Print Assumptions C53_lengths_refuted.

Theorem C53_invalid : forall (s : list Z) (mn mx : nat), (mn < 1 \/ mx < mn \/ length s < mx)%nat ->
  parse_ngram_char s mn mx = Throw InvalidArgument.
Proof. exact ngram_char_throws. Qed.
Print Assumptions C53_invalid.

(** C53, character n-grams within words: of a padded text with single separators (what the callers pass), for each word in
    turn, the substrings of the least length of the word with its two neighbouring separators. *)
Theorem C53_within_words : forall (p : Z -> bool) (s : list Z) (mn mx : nat), (1 <= mn)%nat -> (mn <= mx)%nat ->
  begins_with p s = true -> ends_with p s = true -> no_adjacent p s ->
  parse_ngram_charwb p s mn mx = Ok (flat_map (fun w => substrings mn (fst w - 1) (snd w + 1)) (parse p s)).
Proof. exact ngram_charwb_ok. Qed.
Print Assumptions C53_within_words.

(** A text without any separator is undefined behaviour. *)
Theorem C53_within_words_unpadded_refuted : forall (p : Z -> bool) (s : list Z) (mn mx : nat), (1 <= mn)%nat -> (mn <= mx)%nat ->
  forallb (fun c => negb (p c)) s = true -> parse_ngram_charwb p s mn mx = UB.
Proof. exact ngram_charwb_undefined. Qed.
Print Assumptions C53_within_words_unpadded_refuted.

(** "abc": 2..2, and 1..2 reports no substring of two characters; " jumpy fox " within words as in the documentation. *)
Example C53_case :
  parse_ngram_char [97; 98; 99] 2 2 = Ok [(0, 2); (1, 3)]%nat /\
  parse_ngram_char [97; 98; 99] 1 2 = Ok [(0, 1); (1, 2); (2, 3)]%nat /\
  let s := [32; 106; 117; 109; 112; 121; 32; 102; 111; 120; 32] in
  begins_with is_space s = true /\ ends_with is_space s = true /\
  parse_ngram_charwb is_space s 5 5 = Ok [(0, 5); (1, 6); (2, 7); (6, 11)]%nat.
Proof. repeat split. Qed.

(** C54: trimming. *)
Theorem C54_trim : forall (p : Z -> bool) (s t : list Z), trimmed p s t <-> t = trim p s.
Proof. exact trim_spec. Qed.
Print Assumptions C54_trim.
Theorem C54_trim_left : forall (p : Z -> bool) (s t : list Z),
  (exists pre, s = pre ++ t /\ forallb p pre = true /\ begins_with p t = false) <-> t = trim_left p s.
Proof. exact trim_left_only. Qed.
Print Assumptions C54_trim_left.
Theorem C54_trim_right : forall (p : Z -> bool) (s t : list Z),
  (exists post, s = t ++ post /\ forallb p post = true /\ ends_with p t = false) <-> t = trim_right p s.
Proof. exact trim_right_only. Qed.
Print Assumptions C54_trim_right.
Theorem C54_trim_idempotent : forall (p : Z -> bool) (s : list Z), trim p (trim p s) = trim p s.
Proof. exact trim_idempotent. Qed.
Print Assumptions C54_trim_idempotent.

(** C54: de-duplication.  The separators are the characters matched by p and the white space.  The words stay as they are, a
    run of separators becomes a single white space, at the ends too. *)
Theorem C54_dedup : forall (p : Z -> bool) (s : list Z),
  let sep := fun c => p c || is_space c in let t := replace_and_dedup p s in
  tokens is_space t = tokens sep s /\ no_adjacent is_space t /\
  begins_with is_space t = begins_with sep s /\ ends_with is_space t = ends_with sep s /\
  ((forall c, In c s -> p c = false -> is_space c = true -> c = 32) -> forall c, In c t -> is_space c = true -> c = 32).
Proof.
  intros p s sep t. split; [apply dedup_tokens|]. split; [apply drop_no_adjacent|]. split; [apply dedup_begins|].
  split; [apply dedup_ends|]. apply dedup_blanks.
Qed.
Print Assumptions C54_dedup.

(** The one white space is a blank only if the run starts with one: "a<tab>.b" keeps its tab. *)
Theorem C54_blank_refuted : exists s c, In c (replace_and_dedup is_punct s) /\ is_space c = true /\ c <> 32.
Proof. exists [97; 9; 46; 98], 9. split; [cbn; auto|]. split; [reflexivity|discriminate]. Qed.
Print Assumptions C54_blank_refuted.

Theorem C54_dedup_idempotent : forall (p : Z -> bool) (s : list Z),
  replace_and_dedup p (replace_and_dedup p s) = replace_and_dedup p s.
Proof. exact dedup_idempotent. Qed.
Print Assumptions C54_dedup_idempotent.

(** Padding adds one blank on each side that lacks a separator; the empty text is refused. *)
Theorem C54_padding : forall (p : Z -> bool) (s : list Z), s <> [] ->
  string_padding p s = Ok ((if begins_with p s then [] else [32]) ++ s ++ (if ends_with p s then [] else [32])).
Proof. exact padding_ok. Qed.
Print Assumptions C54_padding.
Theorem C54_padding_twice : forall (p : Z -> bool) (s t : list Z), p 32 = true -> string_padding p s = Ok t ->
  begins_with p t = true /\ ends_with p t = true /\ string_padding p t = Ok t.
Proof. exact padding_idempotent. Qed.
Print Assumptions C54_padding_twice.
Theorem C54_padding_empty : forall (p : Z -> bool), string_padding p [] = Throw OutOfRange.
Proof. reflexivity. Qed.
Print Assumptions C54_padding_empty.

(** Letter by letter: the alphabets are mapped to each other and every other character stays. *)
Theorem C54_letter_case :
  to_lower (chars "ABCDEFGHIJKLMNOPQRSTUVWXYZ") = chars "abcdefghijklmnopqrstuvwxyz" /\
  to_upper (chars "abcdefghijklmnopqrstuvwxyz") = chars "ABCDEFGHIJKLMNOPQRSTUVWXYZ" /\
  (forall c, ~ In c (chars "ABCDEFGHIJKLMNOPQRSTUVWXYZ") -> to_lower [c] = [c]) /\
  (forall c, ~ In c (chars "abcdefghijklmnopqrstuvwxyz") -> to_upper [c] = [c]) /\
  (forall a b, to_lower (a ++ b) = to_lower a ++ to_lower b /\ to_upper (a ++ b) = to_upper a ++ to_upper b) /\
  forall s : list Z, to_lower (to_lower s) = to_lower s /\ to_upper (to_upper s) = to_upper s /\
  length (to_lower s) = length s /\ length (to_upper s) = length s.
Proof. exact letter_case. Qed.
Print Assumptions C54_letter_case.

(** "  a b " trimmed; "a, b.. c!" cleaned: "a b c "; "Ab" padded and lowered. *)
Example C54_case :
  trim is_space [32; 32; 97; 32; 98; 32] = [97; 32; 98] /\
  replace_and_dedup is_punct [97; 44; 32; 98; 46; 46; 32; 99; 33] = [97; 32; 98; 32; 99; 32] /\
  string_padding is_space [97; 98] = Ok [32; 97; 98; 32] /\ to_lower [65; 98] = [97; 98].
Proof. repeat split. Qed.
