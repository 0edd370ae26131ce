(** C71, C72: memory handed over by the C interface, and arguments read from the caller's memory. *)
From Coq Require Import String.
From Verif Require Import Base M_Date S_Date M_TimeText S_TimeText L_TimeText3 L_TimeText4 M_Mem S_Mem L_Mem L_Mem2 L_Mem3 L_Mem4 L_Args.
Open Scope string_scope. Open Scope list_scope. Open Scope Z_scope.

(* ---------------------------------------------------------------- C71: results ------------------------------------------------- *)

(** A string: the caller sees it, zero-terminated (null if empty); giving it back frees it and nothing else; if memory runs out the
    call returns false, or an exception leaves it, and nothing is lost. *)
Theorem C71_string : forall place what s, allocator place ->
  handed_over place what (out_string place s) destroy_string (fun h p => string_or_null h p s) /\
  ends place what (out_string place s) /\ leaks_nothing place what (out_string place s).
Proof. intros place what s H. exact (string_given place H what s). Qed.
Theorem C71_numbers : forall place what l, allocator place ->
  handed_over place what (out_numbers place l) (fun o => destroy_numbers (fst o) (snd o)) (shows_numbers l) /\
  ends place what (out_numbers place l) /\ leaks_nothing place what (out_numbers place l).
Proof. intros place what l H. exact (numbers_given place H what l). Qed.
Theorem C71_matrix : forall place what m, allocator place ->
  (proper_matrix m ->
   handed_over place what (out_matrix place m) (fun o => let '(c, r, a) := o in destroy_matrix c r (Some a)) (shows_matrix m)) /\
  ends place what (out_matrix place m) /\ leaks_nothing place what (out_matrix place m).
Proof. intros place what m H. exact (matrix_given place H what m). Qed.
Theorem C71_saved_bytes : forall place what l, allocator place ->
  (l <> [] -> handed_over place what (out_bytes place l) (fun o => destroy_bytes (Some (fst o)) (snd o)) (shows_bytes l)) /\
  ends place what (out_bytes place l) /\ leaks_nothing place what (out_bytes place l).
Proof. intros place what l H. exact (bytes_given place H what l). Qed.
Theorem C71_countries : forall place what l, allocator place ->
  handed_over place what (out_countries place l) (fun o => destroy_countries (fst o) (snd o)) (shows_countries l) /\
  ends place what (out_countries place l) /\ leaks_nothing place what (out_countries place l).
Proof. intros place what l H. exact (countries_given place H what l). Qed.
(** A sparse vector with some values. *)
Theorem C71_sparse : forall place what n vs, allocator place ->
  (n <> 0 -> vs <> [] ->
   handed_over place what (out_sparse place n vs) (fun o => let '(e, c, a, b) := o in destroy_sparse e c (Some a) (Some b)) (shows_sparse n vs)) /\
  ends place what (out_sparse place n vs) /\ leaks_nothing place what (out_sparse place n vs).
Proof. intros place what n vs H. exact (conj (sparse_given place H what n vs) (sparse_safe place H what n vs)). Qed.
(** These lose memory when an allocation fails (see below), but never crash and never touch what is the caller's. *)
Theorem C71_time : forall place what t, allocator place ->
  handed_over place what (out_time place t) (fun c => destroy_time (Some c)) (shows_time t) /\ ends place what (out_time place t).
Proof. intros place what t H. exact (time_given place H what t). Qed.
Theorem C71_strings : forall place what l, allocator place ->
  handed_over place what (out_strings place l) (fun o => destroy_strings (fst o) (snd o)) (shows_strings l) /\
  ends place what (out_strings place l).
Proof. intros place what l H. exact (strings_given place H what l). Qed.
Theorem C71_rows : forall place what l, allocator place ->
  handed_over place what (out_rows place l) (fun o => let '(p, q, n) := o in destroy_rows p q n) (shows_rows l) /\
  ends place what (out_rows place l).
Proof. intros place what l H. exact (rows_given place H what l). Qed.
Theorem C71_grains : forall place what l, allocator place ->
  ((forall x, In x l -> fst x <> [] /\ proper_matrix (snd x)) ->
   handed_over place what (out_lags place l) (fun o => destroy_lags (fst o) (snd o)) (shows_lags l)) /\
  ends place what (out_lags place l).
Proof. intros place what l H. exact (lags_given place H what l). Qed.

(** A concrete allocator: the next address; one that has no answer at its n-th call; one that has none from then on. *)
Definition next_free (live : list Z) : Z := 1 + fold_right Z.max 0 live.
Definition plenty (t : nat) (live : list Z) : option Z := Some (next_free live).
Definition one_fails (n t : nat) (live : list Z) : option Z := if Nat.eqb t n then None else Some (next_free live).
Definition all_fail (n t : nat) (live : list Z) : option Z := if Nat.leb n t then None else Some (next_free live).
Lemma next_free_new (live : list Z) : ~ In (next_free live) live.
Proof.
  assert (G : forall a, In a live -> a <= fold_right Z.max 0 live).
  { induction live as [|x live IH]; intros a; [intros []|]. cbn [fold_right]. intros [->|H]; [lia|]. specialize (IH a H). lia. }
  intros H. specialize (G _ H). unfold next_free in G. lia.
Qed.
Theorem C71_allocators : allocator plenty /\ generous plenty /\ (forall n, allocator (one_fails n)) /\ (forall n, allocator (all_fail n)).
Proof.
  split; [|split; [|split]].
  - intros t live a E. injection E as <-. apply next_free_new.
  - intros t live E. discriminate E.
  - intros n t live a E. unfold one_fails in E. destruct (Nat.eqb t n); [discriminate E|]. injection E as <-. apply next_free_new.
  - intros n t live a E. unfold all_fail in E. destruct (Nat.leb n t); [discriminate E|]. injection E as <-. apply next_free_new.
Qed.

Definition oom : list Z := chars "std::bad_alloc".
Definition the_caller's : heap := [(100, [Num 7; Num 8]); (50, [Ptr (Some 100)])].
Definition start : mem := mkMem the_caller's 0.
Definition two_grains : list (list (list Z) * matrix) :=
  [([chars "a"; chars "bc"], mkMatrix 1 2 [5; 6]); ([[]], mkMatrix 2 1 [7; 8])].
Example C71_grains_case : (forall x, In x two_grains -> fst x <> [] /\ proper_matrix (snd x)) /\ well (m_heap start) /\
  exists w o w2, api plenty oom (out_lags plenty two_grains) start = (w, Returned o) /\
    length (m_heap w) = 14%nat /\ api plenty oom (destroy_lags (fst o) (snd o)) w = (w2, Returned tt) /\ m_heap w2 = the_caller's.
Proof.
  split.
  - intros x [<-|[<-|[]]]; (split; [discriminate|]); (split; [discriminate|split; [discriminate|reflexivity]]).
  - split; [repeat constructor; cbn; intuition discriminate|].
    do 3 eexists. split; [vm_compute; reflexivity|]. split; [reflexivity|]. split; vm_compute; reflexivity.
Qed.
Example C71_countries_case : exists w o w2, api plenty oom (out_countries plenty [chars "Spain"; chars "Peru"]) start = (w, Returned o) /\
  snd o = 2%nat /\ length (m_heap w) = 5%nat /\ api plenty oom (destroy_countries (fst o) (snd o)) w = (w2, Returned tt) /\ m_heap w2 = the_caller's.
Proof. do 3 eexists. split; [vm_compute; reflexivity|]. split; [reflexivity|]. split; [reflexivity|]. split; vm_compute; reflexivity. Qed.
Example C71_countries_no_memory : forall n, (n < 4)%nat ->
  exists w e, api (one_fails n) oom (out_countries (one_fails n) [chars "Spain"; chars "Peru"]) start = (w, Refused e) /\ m_heap w = (e, map Num oom) :: the_caller's.
Proof. intros [|[|[|[|n]]]] H; [..|lia]; do 2 eexists; split; vm_compute; reflexivity. Qed.

(** Memory is lost when an allocation fails: the labels of a time point, arrays of strings, rows of numbers, grains with matrices. *)
Definition leaky {O} (out : (nat -> list Z -> option Z) -> act O) : Prop :=
  exists n w e, well (m_heap start) /\ api (one_fails n) oom (out (one_fails n)) start = (w, Refused e) /\
                exists a b, In (a, b) (m_heap w) /\ a <> e /\ ~ In a (map fst the_caller's).
Definition new_year : time_fields :=
  mkFields 2020 1 1 0 0 0 0 0 3 1 1 0 1 1 1 2020 (chars "January") (chars "am") (chars "Wednesday") (chars "New Year's Day") 1.
Theorem C71_leaks_refuted :
  leaky (fun place => out_time place new_year) /\ leaky (fun place => out_strings place [chars "a"; chars "b"]) /\
  leaky (fun place => out_rows place [[1]; [2]]) /\ leaky (fun place => out_lags place two_grains).
Proof.
  assert (W : well (m_heap start)) by (repeat constructor; cbn; intuition discriminate).
  split; [|split; [|split]].
  - exists 1%nat. do 2 eexists. split; [exact W|]. split; [vm_compute; reflexivity|]. exists 101, (map Num (chars "January") ++ [Num 0]).
    split; [vm_compute; auto|]. split; [discriminate|cbn; intuition discriminate].
  - exists 2%nat. do 2 eexists. split; [exact W|]. split; [vm_compute; reflexivity|]. exists 102, [Num 97; Num 0].
    split; [vm_compute; auto|]. split; [discriminate|cbn; intuition discriminate].
  - exists 3%nat. do 2 eexists. split; [exact W|]. split; [vm_compute; reflexivity|]. exists 103, [Num 1].
    split; [vm_compute; auto|]. split; [discriminate|cbn; intuition discriminate].
  - exists 1%nat. do 2 eexists. split; [exact W|]. split; [vm_compute; reflexivity|]. exists 101, [Junk; Junk].
    split; [vm_compute; auto|]. split; [discriminate|cbn; intuition discriminate].
Qed.
(** A sparse vector without values (no term of the document is known) has two arrays that can never be given back. *)
Theorem C71_empty_vector_refuted : forall n,
  (exists w a b, api plenty oom (out_sparse plenty n []) start = (w, Returned (n, 0%nat, a, b)) /\ m_heap w = (b, []) :: (a, []) :: the_caller's) /\
  forall place what a b w w2 r, allocator place -> api place what (destroy_sparse n 0 (Some a) (Some b)) w = (w2, r) ->
    r <> Returned tt /\ incl (m_heap w) (m_heap w2).
Proof.
  intros n. split; [do 3 eexists; split; vm_compute; reflexivity|].
  intros place what a b w w2 r Hp E.
  assert (G : match new_array place (length what) w with
              | (w2, Done e) => (mkMem (set_block (m_heap w2) e (map Num what)) (m_time w2), Refused e)
              | (w2, OutOfMemory) => (w2, Escaped)
              | (w2, _) => (w2, Crashed) end = (w2, r)).
  { unfold api, destroy_sparse, require, thn in E. destruct (negb (n =? 0)); exact E. }
  unfold new_array in G. destruct (place (m_time w) (map fst (m_heap w))) as [e|]; injection G as <- <-.
  - split; [discriminate|]. cbn [m_heap set_block]. rewrite Z.eqb_refl. intros x Hx. right. exact Hx.
  - split; [discriminate|]. intros x Hx. exact Hx.
Qed.
(** With no memory for the error an exception leaves the function. *)
Theorem C71_escapes_refuted : exists w, api (all_fail 0) oom (out_string (all_fail 0) (chars "x")) start = (w, Escaped).
Proof. eexists. vm_compute. reflexivity. Qed.
(** Giving back strings of which one is null: false, but the strings before it are gone; a second try is undefined. *)
Definition with_null : heap := [(2, [Ptr (Some 1); Ptr None]); (1, [Num 65; Num 0])].
Theorem C71_half_destroyed_refuted : exists w e w2,
  api plenty oom (destroy_countries (Some 2) 2) (mkMem with_null 0) = (w, Refused e) /\ ~ In 1 (map fst (m_heap w)) /\
  api plenty oom (destroy_countries (Some 2) 2) w = (w2, Crashed).
Proof. do 3 eexists. split; [vm_compute; reflexivity|]. split; [cbn; intuition discriminate|vm_compute; reflexivity]. Qed.

(* ---------------------------------------------------------------- C72: arguments ----------------------------------------------- *)

Theorem C72_numbers : forall w p l, well (m_heap w) -> l <> [] ->
  (numbers_at (m_heap w) p l -> reads (in_numbers p (length l)) w l).
Proof. exact in_numbers_reads. Qed.
Theorem C72_numbers_or_missing : forall w,  well (m_heap w) ->
  (forall p x, number_or_missing (m_heap w) p x -> reads (in_number_or_null p) w x) /\
  (forall p l, l <> [] -> pointers_at number_or_missing (m_heap w) p l -> reads (in_numbers_or_null p (length l)) w l).
Proof. intros w H. split; [intros p x; exact (number_or_null_reads w p x H)|intros p l; exact (in_numbers_or_null_reads w p l H)]. Qed.
Theorem C72_texts : forall w, well (m_heap w) ->
  (forall p x, text_or_missing (m_heap w) p x -> reads (in_text_or_null p) w x) /\
  (forall p l, l <> [] -> pointers_at text_or_missing (m_heap w) p l -> reads (in_texts p (length l)) w l).
Proof. intros w H. split; [intros p x; exact (text_or_null_reads w p x H)|intros p l; exact (in_texts_reads w p l H)]. Qed.
Theorem C72_names : forall w p l, well (m_heap w) -> l <> [] ->
  pointers_at text_at (m_heap w) p l -> reads (in_names p (length l)) w l.
Proof. exact in_names_reads. Qed.
Theorem C72_grains : forall w names sizes numbers l, well (m_heap w) -> l <> [] -> (forall x, In x l -> fst x <> []) ->
  grains_at (m_heap w) names sizes numbers l -> reads (in_grains names sizes numbers (length l)) w l.
Proof. exact in_grains_reads. Qed.
Theorem C72_matrices : forall w cols rows data l, well (m_heap w) -> l <> [] -> (forall m, In m l -> proper_matrix m) ->
  matrices_at (m_heap w) cols rows data l -> reads (in_matrices cols rows data (length l)) w l.
Proof. exact in_matrices_reads. Qed.
(** Rows of matrices: only if there are as many matrices in every row as there are rows. *)
Theorem C72_matrix_rows_square : forall w cols rows data l, well (m_heap w) -> l <> [] ->
  (forall ms, In ms l -> length ms = length l /\ forall m, In m ms -> proper_matrix m) ->
  matrix_rows_at (m_heap w) cols rows data l -> reads (in_matrix_rows cols rows data (length l)) w l.
Proof. exact in_matrix_rows_reads. Qed.
(** A point in time given as seconds, or as the text the library writes for it. *)
Theorem C72_dates : forall (places : nat) rounding w, well (m_heap w) ->
  (forall t, in_i64 (t * 10 ^ Z.of_nat places) = true ->
     reads (in_date_time (10 ^ Z.of_nat places) (time_from_string places rounding) (Posix t)) w (t * 10 ^ Z.of_nat places)) /\
  (forall c p size t y m d, (1 <= places <= 16)%nat -> nearest places rounding -> calendar c ->
     c (day_number (10 ^ Z.of_nat places) t) = (y, m, d) -> 0 <= y <= 9999 ->
     - 2 ^ 63 <= 86400 * 10 ^ Z.of_nat places * day_number (10 ^ Z.of_nat places) t -> t < 2 ^ 63 ->
     text_at (m_heap w) p (time_to_string places t) ->
     reads (in_date_time (10 ^ Z.of_nat places) (time_from_string places rounding) (IsoText p size)) w
           (t / 10 ^ Z.of_nat places * 10 ^ Z.of_nat places)).
Proof.
  intros places rounding w Hw. split.
  - intros t Ht. unfold reads, in_date_time. rewrite Ht. reflexivity.
  - intros c p size t y m d H1 H2 H3 H4 H5 H6 H7 H8. unfold reads, in_date_time.
    rewrite (thn_done _ _ w _ (text_reads w p _ Hw H8)), (round_trip c places rounding t y m d H1 H2 H3 H4 H5 H6 H7). reflexivity.
Qed.
(** Whatever is passed, nothing is written. *)
Theorem C72_nothing_written : forall p q r n,
  reads_only (in_numbers p n) /\ reads_only (in_number_or_null p) /\ reads_only (in_numbers_or_null p n) /\
  reads_only (in_text_or_null p) /\ reads_only (in_texts p n) /\ reads_only (in_names p n) /\ reads_only (in_grains p q r n) /\
  reads_only (in_matrices p q r n) /\ reads_only (in_matrix_rows p q r n) /\
  forall ticks from_text d, reads_only (in_date_time ticks from_text d).
Proof.
  intros p q r n. split; [apply only_numbers|]. split; [apply only_number_or_null|]. split; [apply only_numbers_or_null|].
  split; [apply only_text_or_null|]. split; [apply only_texts|]. split; [apply only_names|]. split; [apply only_grains|].
  split; [apply only_matrices|]. split; [apply only_matrix_rows|]. exact only_date_time.
Qed.
(** Null arrays and a count of zero are refused. *)
Theorem C72_refused : forall p q r n,
  (p = None \/ n = 0%nat -> refuses (in_numbers p n) /\ refuses (in_numbers_or_null p n) /\ refuses (in_texts p n) /\ refuses (in_names p n)) /\
  (p = None \/ q = None \/ n = 0%nat -> refuses (in_grains p q r n)) /\
  (p = None \/ q = None \/ r = None \/ n = 0%nat -> refuses (in_matrices p q r n) /\ refuses (in_matrix_rows p q r n)).
Proof.
  intros p q r n. split; [|split].
  - intros H. destruct p as [a|]; [destruct H as [H| ->]; [discriminate H|]|]; repeat split; intros w; reflexivity.
  - intros H w. destruct p as [a|]; [|reflexivity]. destruct q as [b|]; [|reflexivity]. destruct H as [H|[H| ->]]; [discriminate H|discriminate H|reflexivity].
  - intros H. destruct p as [a|]; [|split; intros w; reflexivity]. destruct q as [b|]; [|split; intros w; reflexivity].
    destruct r as [c|]; [|split; intros w; reflexivity].
    destruct H as [H|[H|[H| ->]]]; [discriminate H|discriminate H|discriminate H|split; intros w; reflexivity].
Qed.

Definition two_rows : list (list (list Z) * Z) := [([chars "a"; chars "b"], 5); ([chars "cd"], 6)].
Definition caller_grains : heap :=
  [(1, [Ptr (Some 2); Ptr (Some 3)]); (2, [Ptr (Some 4); Ptr (Some 5)]); (3, [Ptr (Some 6)]); (4, [Num 97; Num 0]); (5, [Num 98; Num 0; Num 9]);
   (6, [Num 99; Num 100; Num 0]); (7, [Num 2; Num 1]); (8, [Num 5; Num 6])].
Example C72_grains_case : well caller_grains /\ two_rows <> [] /\ (forall x, In x two_rows -> fst x <> []) /\
  grains_at caller_grains (Some 1) (Some 7) (Some 8) two_rows.
Proof.
  assert (A : forall a l, In (a, l) caller_grains -> cells_at caller_grains (Some a) l).
  { intros a l H. exists []. rewrite app_nil_r. exists a. split; [reflexivity|exact H]. }
  split; [repeat constructor; cbn; intuition discriminate|]. split; [discriminate|]. split; [intros x [<-|[<-|[]]]; discriminate|].
  split; [|split; apply A; vm_compute; auto 9].
  exists [Some 2; Some 3]. split; [apply A; vm_compute; auto 9|]. split; [|split; [|exact I]].
  - exists [Some 4; Some 5]. split; [apply A; vm_compute; auto 9|]. split; [|split; [|exact I]].
    + split; [cbn; intuition discriminate|]. apply A; vm_compute; auto 9.
    + split; [cbn; intuition discriminate|]. exists [Num 9]. exists 5. split; [reflexivity|vm_compute; auto 9].
  - exists [Some 6]. split; [apply A; vm_compute; auto 9|]. split; [|exact I].
    split; [cbn; intuition discriminate|]. apply A; vm_compute; auto 9.
Qed.
Definition pivot_input : list (list matrix) := [[mkMatrix 1 2 [1; 2]; mkMatrix 1 1 [3]]; [mkMatrix 2 1 [4; 5]; mkMatrix 1 1 [6]]].
Definition caller_pivot : heap :=
  [(1, [Ptr (Some 11); Ptr (Some 12)]); (2, [Ptr (Some 21); Ptr (Some 22)]); (3, [Ptr (Some 31); Ptr (Some 32)]);
   (11, [Num 2; Num 1]); (12, [Num 1; Num 1]); (21, [Num 1; Num 1]); (22, [Num 2; Num 1]);
   (31, [Ptr (Some 41); Ptr (Some 42)]); (32, [Ptr (Some 43); Ptr (Some 44)]);
   (41, [Num 1; Num 2]); (42, [Num 3]); (43, [Num 4; Num 5]); (44, [Num 6])].
Example C72_matrix_rows_case : well caller_pivot /\
  (forall ms, In ms pivot_input -> length ms = length pivot_input /\ forall m, In m ms -> proper_matrix m) /\
  matrix_rows_at caller_pivot (Some 1) (Some 2) (Some 3) pivot_input.
Proof.
  assert (A : forall a l, In (a, l) caller_pivot -> cells_at caller_pivot (Some a) l).
  { intros a l H. exists []. rewrite app_nil_r. exists a. split; [reflexivity|exact H]. }
  split; [repeat constructor; cbn; intuition discriminate|]. split.
  { intros ms [<-|[<-|[]]]; (split; [reflexivity|]); intros m [<-|[<-|[]]]; (split; [discriminate|split; [discriminate|reflexivity]]). }
  exists [(Some 11, Some 21, Some 31); (Some 12, Some 22, Some 32)].
  split; [apply A; vm_compute; auto 20|]. split; [apply A; vm_compute; auto 20|]. split; [apply A; vm_compute; auto 20|].
  split; [|split; [|exact I]]; (split; [apply A; vm_compute; auto 20|split; [apply A; vm_compute; auto 20|]]).
  - exists [Some 41; Some 42]. split; [apply A; vm_compute; auto 20|]. split; [|split; [|exact I]]; apply A; vm_compute; auto 20.
  - exists [Some 43; Some 44]. split; [apply A; vm_compute; auto 20|]. split; [|split; [|exact I]]; apply A; vm_compute; auto 20.
Qed.
(** Two rows of one matrix each: the code reads past the end of the arrays. *)
Definition narrow_input : list (list matrix) := [[mkMatrix 1 1 [1]]; [mkMatrix 1 1 [2]]].
Definition caller_narrow : heap :=
  [(1, [Ptr (Some 11); Ptr (Some 12)]); (2, [Ptr (Some 21); Ptr (Some 22)]); (3, [Ptr (Some 31); Ptr (Some 32)]);
   (11, [Num 1]); (12, [Num 1]); (21, [Num 1]); (22, [Num 1]); (31, [Ptr (Some 41)]); (32, [Ptr (Some 43)]); (41, [Num 1]); (43, [Num 2])].
Theorem C72_matrix_rows_refuted : well caller_narrow /\ (forall ms, In ms narrow_input -> forall m, In m ms -> proper_matrix m) /\
  matrix_rows_at caller_narrow (Some 1) (Some 2) (Some 3) narrow_input /\
  in_matrix_rows (Some 1) (Some 2) (Some 3) (length narrow_input) (mkMem caller_narrow 0) = (mkMem caller_narrow 0, Undefined).
Proof.
  assert (A : forall a l, In (a, l) caller_narrow -> cells_at caller_narrow (Some a) l).
  { intros a l H. exists []. rewrite app_nil_r. exists a. split; [reflexivity|exact H]. }
  split; [repeat constructor; cbn; intuition discriminate|]. split.
  { intros ms [<-|[<-|[]]] m [<-|[]]; (split; [discriminate|split; [discriminate|reflexivity]]). }
  split; [|vm_compute; reflexivity].
  exists [(Some 11, Some 21, Some 31); (Some 12, Some 22, Some 32)].
  split; [apply A; vm_compute; auto 20|]. split; [apply A; vm_compute; auto 20|]. split; [apply A; vm_compute; auto 20|].
  split; [|split; [|exact I]]; (split; [apply A; vm_compute; auto 20|split; [apply A; vm_compute; auto 20|]]).
  - exists [Some 41]. split; [apply A; vm_compute; auto 20|]. split; [|exact I]; apply A; vm_compute; auto 20.
  - exists [Some 43]. split; [apply A; vm_compute; auto 20|]. split; [|exact I]; apply A; vm_compute; auto 20.
Qed.
(** A name of a grain that is null is not refused: undefined behaviour. *)
Theorem C72_null_name_refuted : forall a b w, find_block (m_heap w) a = Some [Ptr (Some b); Ptr None] -> find_block (m_heap w) b = Some [Num 65; Num 0] ->
  in_names (Some a) 2 w = (w, Undefined).
Proof.
  intros a b w H1 H2. cbn [in_names Nat.eqb negb require thn times]. unfold thn, load_ptr, thn, load, in_text, require, done.
  rewrite H1. cbn [nth_error]. rewrite H2. cbn [until_zero Z.eqb]. rewrite H1. reflexivity.
Qed.
(** Seconds that do not fit the clock, and a null text: undefined behaviour.  The length of the text is ignored. *)
Theorem C72_date_refuted : forall from_text w,
  in_date_time (10 ^ 9) from_text (Posix 9223372037) w = (w, Undefined) /\
  in_date_time (10 ^ 9) from_text (IsoText None 0) w = (w, Undefined) /\
  forall p n k, in_date_time (10 ^ 9) from_text (IsoText p n) w = in_date_time (10 ^ 9) from_text (IsoText p k) w.
Proof. intros from_text w. split; [vm_compute; reflexivity|]. split; [reflexivity|]. intros p n k. reflexivity. Qed.

Print Assumptions C71_grains.
Print Assumptions C71_countries.
Print Assumptions C71_empty_vector_refuted.
Print Assumptions C72_grains.
Print Assumptions C72_dates.
Print Assumptions C72_matrix_rows_refuted.
