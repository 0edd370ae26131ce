(** What the string routines are to do, in terms of positions in the string. *)
From Verif Require Import Base M_String M_Text.

(** [at_sep p s i]: position i of s holds a separator. *)
Definition at_sep (p : Z -> bool) (s : list Z) (i : nat) : Prop := exists c, nth_error s i = Some c /\ p c = true.
Definition at_word (p : Z -> bool) (s : list Z) (i : nat) : Prop := exists c, nth_error s i = Some c /\ p c = false.

(** [b, e) is a word: not empty, free of separators, and bounded on both sides by a separator or an end of the string. *)
Definition is_word (p : Z -> bool) (s : list Z) (w : nat * nat) : Prop :=
  let (b, e) := w in
  (b < e <= length s)%nat /\
  (forall i, (b <= i < e)%nat -> at_word p s i) /\
  (b = 0%nat \/ at_sep p s (b - 1)) /\
  (e = length s \/ at_sep p s e).

(** Ranges in text order, no two overlapping. *)
Definition left_to_right (l : list (nat * nat)) : Prop := StronglySorted (fun a b : nat * nat => (snd a < fst b)%nat) l.

(** A position where a word begins, and how many begin in [b, e). *)
Definition starts_word (p : Z -> bool) (s : list Z) (i : nat) : bool :=
  match nth_error s i with
  | Some c => negb (p c) && match i with O => true | S j => match nth_error s j with Some d => p d | None => true end end
  | None => false
  end.
Definition ends_word (p : Z -> bool) (s : list Z) (e : nat) : bool :=
  match e with
  | O => false
  | S j => match nth_error s j with
           | Some c => negb (p c) && match nth_error s e with Some d => p d | None => true end
           | None => false
           end
  end.
Definition words_in (p : Z -> bool) (s : list Z) (b e : nat) : nat := length (filter (starts_word p s) (seq b (e - b))).
Definition number_of_words (p : Z -> bool) (s : list Z) : nat := words_in p s 0 (length s).

(** [b, e) is spanned by n consecutive words. *)
Definition spans (p : Z -> bool) (s : list Z) (n : nat) (w : nat * nat) : Prop :=
  let (b, e) := w in
  (b < e <= length s)%nat /\ starts_word p s b = true /\ ends_word p s e = true /\ words_in p s b e = n.

(** The order of n-grams: fewer words first, then from left to right. *)
Definition ngram_before (p : Z -> bool) (s : list Z) (x y : nat * nat) : Prop :=
  (words_in p s (fst x) (snd x) < words_in p s (fst y) (snd y))%nat \/
  words_in p s (fst x) (snd x) = words_in p s (fst y) (snd y) /\ (fst x < fst y)%nat.

(** The substring [b, e) has n characters. *)
Definition has_length (s : list Z) (n : nat) (w : nat * nat) : Prop := (fst w + n = snd w)%nat /\ (snd w <= length s)%nat.

(** The words of a string, as strings. *)
Definition tokens (p : Z -> bool) (s : list Z) : list (list Z) := map (fun w => sub s (fst w) (snd w)) (parse p s).

(** No two neighbouring characters are separators. *)
Definition no_adjacent (p : Z -> bool) (s : list Z) : Prop := forall i, at_sep p s i -> ~ at_sep p s (S i).
Definition begins_with (q : Z -> bool) (s : list Z) : bool := match s with [] => false | c :: _ => q c end.
Definition ends_with (q : Z -> bool) (s : list Z) : bool := begins_with q (rev s).

(** The substrings of n characters of [b, e), from left to right. *)
Definition substrings (n b e : nat) : list (nat * nat) := map (fun i => (i, i + n)%nat) (seq b (e + 1 - b - n)).

(** t is s without its leading and trailing characters that satisfy p. *)
Definition trimmed (p : Z -> bool) (s t : list Z) : Prop :=
  exists pre post, s = pre ++ t ++ post /\ forallb p pre = true /\ forallb p post = true /\
    begins_with p t = false /\ ends_with p t = false.
