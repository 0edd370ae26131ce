(** What document statistics and count vectors are to be. *)
From Coq Require Import Reals.
From Flocq Require Import Core.Core IEEE754.BinarySingleNaN.
From Verif Require Import Base S_Stats S_Scale M_Grain M_Docs.

(** The number of things with a property. *)
Definition number_of {T} (P : T -> Prop) (n : nat) : Prop :=
  exists l, NoDup l /\ (forall x, In x l <-> P x) /\ length l = n.

Section Corpus.
  (** The corpus: the terms of each document. *)
  Variable corpus : list (list (list Z)).

  Definition occurs (t : list Z) : Prop := exists d, In d corpus /\ In t d.
  (** How many documents contain the term. *)
  Definition documents_with (t : list Z) : Z := Z.of_nat (length (filter (fun d => existsb (str_eqb t) d) corpus)).

  (** The share of the documents, computed in single precision, lies between the bounds. *)
  Definition share (t : list Z) : R := r32 (r32 (IZR (documents_with t)) / r32 (IZR (Z.of_nat (length corpus))))%R.
  Definition frequent (mn mx : binary_float 24 128) (t : list Z) : Prop := (B2R mn <= share t <= B2R mx)%R.

  (** The order in which a limit keeps terms: more documents first, then the alphabetic order. *)
  Definition better (u t : list Z) : Prop :=
    documents_with t < documents_with u \/ documents_with t = documents_with u /\ str_lt u t = true.
  Definition candidate (mn mx : binary_float 24 128) (t : list Z) : Prop := occurs t /\ frequent mn mx t.
  Definition selected (mn mx : binary_float 24 128) (topk : option nat) (t : list Z) : Prop :=
    candidate mn mx t /\
    match topk with
    | None => True
    | Some k => exists n, number_of (fun u => candidate mn mx u /\ better u t) n /\ (n < k)%nat
    end.
End Corpus.

(** The index of a term: that of the vocabulary if it has one, else the position among the other selected terms in
    alphabetic order, after as many as the vocabulary has. *)
Definition index_of (vocabulary : list (list Z * Z)) (sel : list Z -> Prop) (t : list Z) (i : Z) : Prop :=
  In (t, i) vocabulary \/
  ~ In t (map fst vocabulary) /\
  exists n, number_of (fun u => sel u /\ ~ In u (map fst vocabulary) /\ str_lt u t = true) n /\
            i = (Z.of_nat (length vocabulary) + Z.of_nat n) mod 2 ^ 32.

(** std::nth_element with std::greater: a rearrangement with nothing smaller before position i and nothing greater after. *)
Definition nth_element_ok (nthe : list Z -> nat -> list Z) : Prop :=
  forall l i, (i < length l)%nat ->
    Permutation (nthe l i) l /\
    forall j, (j < length l)%nat ->
      ((j < i)%nat -> nth i (nthe l i) 0 <= nth j (nthe l i) 0) /\ ((i < j)%nat -> nth j (nthe l i) 0 <= nth i (nthe l i) 0).

(** A document: bytes. *)
Definition documents_ok (docs : list (list Z)) : Prop := Forall (fun d => bytes_ok d = true) docs.

(** The successive matches of a pattern: each is searched from the end of the one before. *)
Inductive matches (re : list Z -> list Z -> nat -> option (nat * nat)) (pattern text : list Z) : nat -> list (nat * nat) -> Prop :=
| matches_end start : re pattern text start = None -> matches re pattern text start []
| matches_next start b e l : re pattern text start = Some (b, e) -> matches re pattern text e l ->
    matches re pattern text start ((b, e) :: l).
(** A regular expression engine: a match lies within the text, at or after the start. *)
Definition engine_ok (re : list Z -> list Z -> nat -> option (nat * nat)) : Prop :=
  forall pattern text start b e, re pattern text start = Some (b, e) -> (start <= b /\ b <= e /\ e <= length text)%nat.
(** [l] is the start of the successive matches; the last one ends at [last]. *)
Inductive steps (re : list Z -> list Z -> nat -> option (nat * nat)) (pattern text : list Z) : nat -> list (nat * nat) -> nat -> Prop :=
| steps_none start : steps re pattern text start [] start
| steps_next start b e l last : re pattern text start = Some (b, e) -> steps re pattern text e l last ->
    steps re pattern text start ((b, e) :: l) last.

(** What is asked of std::log: finite and between 0 and 1024 for finite numbers from 1 (2^1024 is less than e^1024). *)
Definition log_ok (ln : binary_float 53 1024 -> binary_float 53 1024) : Prop :=
  forall x, is_finite x = true -> (1 <= B2R x)%R -> is_finite (ln x) = true /\ (0 <= B2R (ln x) <= 1024)%R.

(** The weight of a term with [n] occurrences in the document and [df] documents of [total] in the corpus. *)
Definition tfidf_weight (ln : binary_float 53 1024 -> binary_float 53 1024) (binary sublinear use_idf smooth : bool) (n df total : Z)
    (w : R) : Prop :=
  exists tf idf : R,
    (if binary then tf = 1%R
     else if sublinear then exists x, equals x (IZR n) /\ tf = r64 (1 + B2R (ln x)) else tf = IZR n) /\
    (if use_idf then exists q, equals q (r64 (IZR (1 + total) / IZR (if smooth then 1 + df else df))) /\ idf = r64 (1 + B2R (ln q))
     else idf = 1%R) /\
    w = r32 (r64 (tf * idf)).
(** The norm of the weights, added one after the other in single precision. *)
Definition rounded_sum (ws : list R) : R := fold_left (fun a w => r32 (a + w)) ws 0%R.
Definition norm_is (n : norm) (ws : list R) (nv : R) : Prop :=
  match n with
  | L1 => nv = rounded_sum ws
  | L2 => nv = r32 (sqrt (rounded_sum (map (fun w => r32 (w * w)) ws)))
  | NoNorm => nv = 1%R
  end.
