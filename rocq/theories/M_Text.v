(** Model of src/Strings.h.  A [char] is a Z in [0,256); an iterator into a string is its position (a nat); a callback that is
    handed the range [b, e) is modelled by the list of the pairs (b, e) it is called with, in call order.  The character
    classes are those of the C locale.  Simplification: bytes above 127 are in no class (the C++ passes a possibly negative
    [char] to isspace/ispunct/tolower; the standard leaves that undefined, the usual C libraries answer "no").
    Simplification: sums of size_t are those of nat (no wrap; the C++ would wrap only for n-gram bounds near 2^64). *)
From Verif Require Import Base M_String.

(** std::ispunct, std::tolower, std::toupper in the C locale; [is_space] is in M_String. *)
Definition is_punct (c : Z) : bool :=
  ((33 <=? c) && (c <=? 47)) || ((58 <=? c) && (c <=? 64)) || ((91 <=? c) && (c <=? 96)) || ((123 <=? c) && (c <=? 126)).
Definition lower_char (c : Z) : Z := if (65 <=? c) && (c <=? 90) then c + 32 else c.
Definition upper_char (c : Z) : Z := if (97 <=? c) && (c <=? 122) then c - 32 else c.

(** std::string(begin + b, begin + e). *)
Definition sub (s : list Z) (b e : nat) : list Z := firstn (e - b) (skipn b s).
(** vector::operator[] *)
Definition idx {A} (v : list A) (i : nat) : res A := match nth_error v i with Some x => Ok x | None => UB end.

(** Strings.h:283-287, 289-293 [ToLower], [ToUpper]. *)
Definition to_lower (s : list Z) : list Z := map lower_char s.
Definition to_upper (s : list Z) : list Z := map upper_char s.

Section Predicate.
  Variable p : Z -> bool.

  (** Strings.h:295-303 [TrimLeft]: erase [begin, find_if(not p)). *)
  Fixpoint trim_left (s : list Z) : list Z :=
    match s with
    | [] => []
    | c :: r => if negb (p c) then s else trim_left r
    end.
  (** Strings.h:305-311 [TrimRight]: the search runs over the reversed string and erases [base, end). *)
  Definition trim_right (s : list Z) : list Z := rev (trim_left (rev s)).
  (** Strings.h:313-317 [Trim]. *)
  Definition trim (s : list Z) : list Z := trim_right (trim_left s).

  (** Strings.h:200-228 [Details::Parse].  The suffix [s] starts at position [right].  [skipping] is true inside the
      two loops that move [left] past separators (there right = left). *)
  Fixpoint parse_loop (skipping : bool) (left right : nat) (s : list Z) : list (nat * nat) :=
    match s with
    | [] => if Nat.eqb left right then [] else [(left, right)]
    | c :: r =>
        if skipping then
          if p c then parse_loop true (S right) (S right) r
          else parse_loop false right (S right) r
        else
          if p c then (left, right) :: parse_loop true (S right) (S right) r
          else parse_loop false left (S right) r
    end.
  Definition parse (s : list Z) : list (nat * nat) := parse_loop true 0 0 s.

  (** Strings.h:376-408 [ParseNgramWord]. *)
  Definition parse_ngram_word (s : list Z) (mn mx : nat) : res (list (nat * nat)) :=
    let words := parse s in
    if Nat.eqb (length words) 0 then Throw InvalidArgument
    else if Nat.ltb mn 1 || Nat.ltb mx mn || Nat.ltb (length words) mx then Throw InvalidArgument
    else rmap (@concat _)
      (mapM (fun n => mapM (fun i => do a <- idx words i; do b <- idx words (i + n - 1); Ok (fst a, snd b))
                           (seq 0 (length words - n + 1)))
            (seq mn (mx + 1 - mn))).

  (** Strings.h:166-184 [Details::StringPadding]; at() throws std::out_of_range on an empty string. *)
  Definition string_padding (s : list Z) : res (list Z) :=
    do first <- match nth_error s 0 with Some c => Ok (p c) | None => Throw OutOfRange end;
    do last <- match nth_error s (length s - 1) with Some c => Ok (p c) | None => Throw OutOfRange end;
    Ok (if negb first && negb last then [32] ++ s ++ [32]
        else if negb first then [32] ++ s
        else if negb last then s ++ [32]
        else s).

  (** Strings.h:249-280 [Details::ReplaceAndDeDuplicate]: std::transform, then std::remove_if with the flag [prev]
      (the flag is captured by reference, so copies of the closure share it; remove_if goes from left to right, once). *)
  Definition replace_chars (s : list Z) : list Z := map (fun c => if p c then 32 else c) s.
  Fixpoint drop_duplicate_spaces (prev : bool) (s : list Z) : list Z :=
    match s with
    | [] => []
    | c :: r =>
        let dup := is_space c && prev in
        let rest := drop_duplicate_spaces (is_space c) r in
        if dup then rest else c :: rest
    end.
  Definition replace_and_dedup (s : list Z) : list Z := drop_duplicate_spaces false (replace_chars s).
End Predicate.

(** Strings.h:186-198, 230-247 [IteratorVectorGenerator], [ParseNgramCharHelper] on the range [b, e): the vector holds the
    e - b + 1 positions b..e. *)
Definition char_helper (b e : nat) (mn mx : nat) : list (nat * nat) :=
  let size := (e - b + 1)%nat in
  flat_map (fun offset =>
      match find (fun n => Nat.ltb (offset + n) size) (seq mn (mx + 1 - mn)) with
      | Some n => [(b + offset, b + (offset + n))%nat]     (* callback; break *)
      | None => []
      end)
    (seq 0 size).

(** Strings.h:410-420 [ParseNgramChar]. *)
Definition parse_ngram_char (s : list Z) (mn mx : nat) : res (list (nat * nat)) :=
  if Nat.ltb mn 1 || Nat.ltb mx mn || Nat.ltb (length s) mx then Throw InvalidArgument
  else Ok (char_helper 0 (length s) mn mx).

(** Strings.h:423-465 [ParseNgramCharwb].  [sep_pairs] are the pairs (space, next position). *)
Fixpoint sep_pairs (p : Z -> bool) (pos : nat) (s : list Z) : list (nat * nat) :=
  match s with
  | [] => []
  | c :: r => if p c then (pos, S pos) :: sep_pairs p (S pos) r else sep_pairs p (S pos) r
  end.
(** With no pair at all, size() - 1 wraps to SIZE_MAX and the first access is out of bounds: [seq 0 SIZE_MAX] is not
    computed, the first iteration is undefined behaviour. *)
Definition parse_ngram_charwb (p : Z -> bool) (s : list Z) (mn mx : nat) : res (list (nat * nat)) :=
  let v := sep_pairs p 0 s in
  if Nat.ltb mn 1 || Nat.ltb mx mn then Throw InvalidArgument
  else match v with
       | [] => UB
       | _ => rmap (@concat _)
                (mapM (fun i => do a <- idx v i; do b <- idx v (i + 1); Ok (char_helper (fst a) (snd b) mn mx))
                      (seq 0 (length v - 1)))
       end.
