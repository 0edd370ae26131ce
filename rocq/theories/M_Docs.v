(** Model of Components/DocumentStatisticsEstimator.{h,cpp}, TfidfVectorizerFeaturizer.{h,cpp}, CountVectorizerFeaturizer.{h,cpp}
    and of Strings.h [ParseRegex].  Strings are lists of characters; iterator ranges are pairs of positions. *)
From Flocq Require Import Core.Core IEEE754.BinarySingleNaN.
From Verif Require Import Base M_Estimator M_Stats M_Scale M_Encoders M_String M_Text M_Grain.

(** std::string: operator== and operator< (characters compared as unsigned char). *)
Definition str_eqb : list Z -> list Z -> bool := M_Grain.list_eqb Z.eqb.
Definition str_lt : list Z -> list Z -> bool := lex_lt Z.ltb.

(** DocumentStatisticsEstimator.cpp:17-42 [IterRangeComp]: by length, then by the first different character, compared as
    (signed) char. *)
Fixpoint chars_lt (a b : list Z) : bool :=
  match a, b with
  | x :: a', y :: b' => if to_s 1 y <? to_s 1 x then false else if to_s 1 x <? to_s 1 y then true else chars_lt a' b'
  | _, _ => false
  end.
Definition range_lt (a b : list Z) : bool :=
  if Nat.ltb (length a) (length b) then true
  else if Nat.ltb (length b) (length a) then false
  else chars_lt a b.

(** std::set::insert for the comparison [lt]; the set is kept in iteration order. *)
Fixpoint set_insert {A} (lt : A -> A -> bool) (x : A) (l : list A) : list A :=
  match l with
  | [] => [x]
  | y :: r => if lt x y then x :: l else if lt y x then y :: set_insert lt x r else l
  end.
(** TfidfVectorizerFeaturizer.cpp:139-147: std::map find / increment / insert 1. *)
Fixpoint count_insert {A} (lt : A -> A -> bool) (x : A) (l : list (A * Z)) : list (A * Z) :=
  match l with
  | [] => [(x, 1)]
  | (y, c) :: r => if lt x y then (x, 1) :: l else if lt y x then (y, c) :: count_insert lt x r else (y, u32 (c + 1)) :: r
  end.

(** DocumentStatisticsEstimator.h:29-33 *)
Inductive analyzer := Word | Char | Charwb.

Section Docs.
  (** RE2: [re pattern text start] is the leftmost match at or after [start]. *)
  Variable re : list Z -> list Z -> nat -> option (nat * nat).

  (** Strings.h:357-374 [ParseRegex].  At most length + 1 matches can be told apart; when the loop goes on beyond them it goes
      on forever (an empty match is found again and again), which is undefined behaviour in C++. *)
  Fixpoint regex_loop (fuel : nat) (pattern text : list Z) (start : nat) : res (list (nat * nat)) :=
    match re pattern text start with
    | None => Ok []
    | Some (b, e) => match fuel with
                     | O => UB
                     | S f => rmap (cons (b, e)) (regex_loop f pattern text e)
                     end
    end.
  Definition parse_regex (pattern text : list Z) : res (list (nat * nat)) :=
    match text with
    | [] => Throw InvalidArgument
    | _ => regex_loop (length text + 1) pattern text 0
    end.

  (** The settings that training and inference share. *)
  Record tcfg := mkTcfg { tc_lower : bool; tc_analyzer : analyzer; tc_regex : list Z; tc_min : nat; tc_max : nat }.

  (** DocumentStatisticsEstimator.cpp:374-424 [DocumentParseFuncGenerator] *)
  Definition parse_func (c : tcfg) (s : list Z) : res (list (nat * nat)) :=
    match tc_analyzer c with
    | Word => match tc_regex c with
              | [] => if Nat.eqb (tc_min c) 1 && Nat.eqb (tc_max c) 1 then Ok (parse is_space s)
                      else parse_ngram_word is_space s (tc_min c) (tc_max c)
              | r => parse_regex r s
              end
    | Char => parse_ngram_char s (tc_min c) (tc_max c)
    | Charwb => parse_ngram_charwb is_space s (tc_min c) (tc_max c)
    end.

  (** DocumentStatisticsEstimator.h:297-314 (training) *)
  Definition train_clean (c : tcfg) (s : list Z) : res (list Z) :=
    match tc_analyzer c with
    | Word => match tc_regex c with
              | [] => if negb (Nat.eqb (tc_min c) 1 && Nat.eqb (tc_max c) 1) then Ok (replace_and_dedup is_punct s) else Ok s
              | _ => Ok s
              end
    | Char => Ok (replace_and_dedup is_punct s)
    | Charwb => string_padding is_space (replace_and_dedup is_punct s)
    end.
  (** DocumentStatisticsEstimator.cpp:426-446 [DocumentDecorator] (inference) *)
  Definition decorate (c : tcfg) (input : list Z) : res (list Z) :=
    let s := if tc_lower c then to_lower input else input in
    match tc_analyzer c with
    | Word => match tc_regex c with
              | [] => if negb (Nat.eqb (tc_min c) 1 && Nat.eqb (tc_max c) 1) then Ok (replace_and_dedup is_punct s) else Ok s
              | _ => Ok s
              end
    | Char => Ok (replace_and_dedup is_punct s)
    | Charwb => string_padding is_space (replace_and_dedup is_punct s)
    end.

  (** The terms of a document in training: DocumentStatisticsEstimator.h:316-321 with the key functions of .cpp:192-220 (the
      decorator, [ToLower] or none, is applied to each term: TfidfVectorizerFeaturizer.h:347), and in inference:
      TfidfVectorizerFeaturizer.cpp:135-139. *)
  Definition term_at (s : list Z) (r : nat * nat) : list Z := sub s (fst r) (snd r).
  Definition train_terms (c : tcfg) (doc : list Z) : res (list (list Z)) :=
    do s <- train_clean c doc; do rs <- parse_func c s;
    Ok (map (fun r => if tc_lower c then to_lower (term_at s r) else term_at s r) rs).
  Definition infer_terms (c : tcfg) (doc : list Z) : res (list (list Z)) :=
    do s <- decorate c doc; do rs <- parse_func c s; Ok (map (term_at s) rs).

  (** DocumentStatisticsEstimator.h:292-339 and .cpp:192-220 [fit].  State: the term counts and the number of documents.  The
      count update is that of the histogram (find, insert 0, += 1). *)
  Definition doc_fit (c : tcfg) (st : list (list Z * Z) * Z) (doc : list Z) : res (list (list Z * Z) * Z) :=
    do terms <- train_terms c doc;
    let documents := fold_left (fun acc t => set_insert (if tc_lower c then str_lt else range_lt) t acc) terms [] in
    do counts <- foldM (hist_fit str_eqb) (fst st) documents;
    Ok (counts, u32 (snd st + 1)).

  (** DocumentStatisticsEstimator.cpp:224-329 [PruneTermFreqMap].  [nthe] is std::nth_element with std::greater: it rearranges
      the vector. *)
  Variable nthe : list Z -> nat -> list Z.
  Definition df_keep (mn mx : float32) (total : float32) (c : Z) : bool :=
    let freq := fdiv (of_int c) total in negb (Bltb freq mn || Bltb mx freq).
  Definition fone : float32 := of_int 1.
  Definition prune_df (mn mx : float32) (total : Z) (h : list (list Z * Z)) : list (list Z * Z) :=
    if Bltb fzero mn || Bltb mx fone then filter (fun e => df_keep mn mx (of_int total) (snd e)) h else h.
  Definition prune_top (k : nat) (h : list (list Z * Z)) : list (list Z * Z) :=
    if Nat.eqb (length h) 0 || Nat.leb (length h) k then h
    else
      let v := nthe (map snd h) (k - 1) in
      let target := nth (k - 1) v 0 in
      let remaining := length (filter (Z.eqb target) (firstn k v)) in
      let kept := filter (fun e => negb (snd e <? target)) h in
      let candidates := s_sort str_lt (map fst (filter (fun e => snd e =? target) kept)) in
      let erased := skipn remaining candidates in
      filter (fun e => negb (existsb (str_eqb (fst e)) erased)) kept.
  Definition prune (mn mx : float32) (total : Z) (topk : option nat) (h : list (list Z * Z)) : list (list Z * Z) :=
    let h' := prune_df mn mx total h in
    match topk with None => h' | Some k => prune_top k h' end.

  (** DocumentStatisticsEstimator.cpp:333-349 [MergeTwoMapsWithSameKeys] with 49-61: (term, (count, index)). *)
  Definition merge (freq index : list (list Z * Z)) : res (list (list Z * (Z * Z))) :=
    mapM (fun e => match m_find str_eqb index (fst e) with
                   | None => Throw InvalidArgument
                   | Some i => if snd e =? 0 then Throw InvalidArgument else Ok (fst e, (snd e, i))
                   end) freq.

  (** The statistics: the map and the number of documents (.cpp:72-91: both must not be empty / 0). *)
  Record dstats := mkStats { ds_terms : list (list Z * (Z * Z)); ds_total : Z }.
  (** DocumentStatisticsEstimator.cpp:351-367.  [perm] is the iteration order of the hash map. *)
  Definition doc_complete (perm : list (list Z * Z) -> list (list Z * Z)) (mn mx : float32) (topk : option nat)
      (existing : list (list Z * Z)) (st : list (list Z * Z) * Z) : res dstats :=
    let pruned := prune mn mx (snd st) topk (perm (fst st)) in
    let index := create_index_map str_eqb str_lt pruned existing in
    do m <- merge pruned index;
    match m with
    | [] => Throw InvalidArgument
    | _ => if snd st =? 0 then Throw InvalidArgument else Ok (mkStats m (snd st))
    end.

  (** DocumentStatisticsEstimator.cpp:105-190: the checks of the constructor.  [None] stands for "no vocabulary"/"no limit". *)
  Record dcfg := mkDcfg { dc_text : tcfg; dc_vocabulary : option (list (list Z * Z)); dc_topk : option nat;
                          dc_min : float32; dc_max : float32 }.
  Definition dcfg_ok (d : dcfg) : bool :=
    negb (match dc_vocabulary d with Some [] => true | _ => false end) &&
    negb (match dc_topk d with Some O => true | _ => false end) &&
    negb (Bltb (dc_min d) fzero || Bltb fone (dc_min d)) &&
    negb (Bltb (dc_max d) fzero || Bltb fone (dc_max d)) &&
    negb (Nat.eqb (tc_min (dc_text d)) 0) && negb (Nat.eqb (tc_max (dc_text d)) 0) &&
    negb (Bltb (dc_max d) (dc_min d)) && negb (Nat.ltb (tc_max (dc_text d)) (tc_min (dc_text d))).
  Definition doc_policy (perm : list (list Z * Z) -> list (list Z * Z)) (d : dcfg)
    : policy (list (list Z * Z) * Z) (list Z) dstats :=
    simple_policy ([], 0) (doc_fit (dc_text d))
      (doc_complete perm (dc_min d) (dc_max d) (dc_topk d) (match dc_vocabulary d with Some v => v | None => [] end)).
  Definition train_docs perm (d : dcfg) (mx : nat) (batches : list (list (list Z))) : res (option dstats) :=
    if dcfg_ok d then trained (doc_policy perm d) mx batches else Throw InvalidArgument.

  (** TfidfVectorizerFeaturizer.h:40-44, TfidfVectorizerFeaturizer.cpp:18-57 and .h:183-228 (the transformer is made from the
      statistics: both maps have the keys of the statistics). *)
  Inductive norm := L1 | L2 | NoNorm.
  Record tfidf := mkTfidf { tf_labels : list (list Z * Z); tf_freq : list (list Z * Z); tf_total : Z; tf_norm : norm;
                            tf_binary : bool; tf_use_idf : bool; tf_smooth : bool; tf_sublinear : bool; tf_text : tcfg }.
  Definition tfidf_make (s : dstats) (n : norm) (binary use_idf smooth sublinear : bool) (c : tcfg) : res tfidf :=
    match ds_terms s with
    | [] => Throw InvalidArgument
    | _ => Ok (mkTfidf (map (fun e => (fst e, snd (snd e))) (ds_terms s)) (map (fun e => (fst e, fst (snd e))) (ds_terms s))
                       (ds_total s) n binary use_idf smooth sublinear c)
    end.

  (** TfidfVectorizerFeaturizer.cpp:131-230 [execute_impl].  [ln] is std::log on double. *)
  Variable ln : binary_float 53 1024 -> binary_float 53 1024.
  Definition f64 (z : Z) : binary_float 53 1024 := of_int z.
  (** 160-190: the weight of a term that occurs [n] times; at() throws if the term has no document frequency. *)
  Definition weight (t : tfidf) (term : list Z) (n : Z) : res float32 :=
    let tf := if tf_binary t then f64 1 else if negb (tf_sublinear t) then f64 n else fadd (f64 1) (ln (f64 n)) in
    do idf <- (if negb (tf_use_idf t) then Ok (f64 1)
               else match m_find str_eqb (tf_freq t) term with
                    | None => Throw OutOfRange
                    | Some df => let num := f64 (u32 (1 + tf_total t)) in
                                 let den := if tf_smooth t then fadd (f64 1) (f64 df) else fadd (f64 0) (f64 df) in
                                 Ok (fadd (f64 1) (ln (fdiv num den)))
                    end);
    Ok (convert (fmul tf idf)).
  (** 150-202: (index, weight) of the known terms in the order of the map. *)
  Fixpoint tf_results (t : tfidf) (counts : list (list Z * Z)) : res (list (Z * float32)) :=
    match counts with
    | [] => Ok []
    | (term, n) :: r => match m_find str_eqb (tf_labels t) term with
                        | None => tf_results t r
                        | Some i => do w <- weight t term n; do rest <- tf_results t r; Ok ((i, w) :: rest)
                        end
    end.
  (** 193-216: the norm. *)
  Definition tf_norm_of (t : tfidf) (results : list (Z * float32)) : float32 :=
    match tf_norm t with
    | L1 => fold_left (fun a r => fadd a (snd r)) results fzero
    | L2 => fsqrt (fold_left (fun a r => fadd a (fmul (snd r) (snd r))) results fzero)
    | NoNorm => fone
    end.
  Definition tf_counts (terms : list (list Z)) : list (list Z * Z) := fold_left (fun m x => count_insert range_lt x m) terms [].
  Definition tf_execute (t : tfidf) (doc : list Z) : res (sparse float32) :=
    do terms <- infer_terms (tf_text t) doc;
    do results <- tf_results t (tf_counts terms);
    let nv := tf_norm_of t results in
    let values := map (fun r => (fdiv (snd r) nv, fst r)) results in
    sparse_make (Z.of_nat (length (tf_labels t))) (s_sort (fun a b => snd a <? snd b) values).

  (** CountVectorizerFeaturizer.h:150-165 (no norm, no idf), CountVectorizerFeaturizer.cpp:43-57: each value is cast to
      uint32_t, undefined if it is NaN or out of range. *)
  Definition to_u32 (x : float32) : res Z :=
    if is_finite x && (0 <=? Btrunc x) && (Btrunc x <? 4294967296) then Ok (Btrunc x) else UB.
  Definition cv_make (s : dstats) (binary : bool) (c : tcfg) : res tfidf := tfidf_make s NoNorm binary false false false c.
  Definition cv_execute (t : tfidf) (doc : list Z) : res (sparse Z) :=
    do v <- tf_execute t doc;
    do values <- mapM (fun p => do n <- to_u32 (fst p); Ok (n, snd p)) (sp_values v);
    sparse_make (sp_elements v) values.
End Docs.
