(** Model of how the C interface hands values over: the memory that the functions under src/SharedLibrary allocate for results, the
    functions that give it back, and how arrays passed by the caller are read.  Cited are the instances in
    src/SharedLibrary/GeneratedCode; the code generator repeats the same text for every other featurizer with a result of that kind.
    Finding the transformer behind a handle and executing it is in M_CApi; here a function starts from the result of the execution.
    Every [new] may fail (std::bad_alloc). *)
From Verif Require Import Base M_Date.
Open Scope Z_scope.

(** A place in memory: not yet written, a number (also characters, sizes, the bits of a floating point number), or a pointer. *)
Inductive cell := Junk | Num (z : Z) | Ptr (p : option Z).
(** Allocated arrays by address; a pointer is null ([None]) or the address of an array. *)
Notation heap := (list (Z * list cell)).

Fixpoint find_block (h : heap) (a : Z) : option (list cell) :=
  match h with [] => None | (k, b) :: r => if k =? a then Some b else find_block r a end.
Fixpoint free_block (h : heap) (a : Z) : heap :=
  match h with [] => [] | (k, b) :: r => if k =? a then r else (k, b) :: free_block r a end.
Fixpoint set_block (h : heap) (a : Z) (b : list cell) : heap :=
  match h with [] => [] | (k, x) :: r => if k =? a then (k, b) :: r else (k, x) :: set_block r a b end.
Fixpoint set_cell (b : list cell) (i : nat) (c : cell) : option (list cell) :=
  match b, i with
  | [], _ => None
  | _ :: r, O => Some (c :: r)
  | x :: r, S j => match set_cell r j c with None => None | Some s => Some (x :: s) end
  end.

(** How a piece of code ends. *)
Inductive mres (A : Type) := Done (a : A) | Failed (e : exn) | OutOfMemory | Undefined.
Arguments Done {A}. Arguments Failed {A}. Arguments OutOfMemory {A}. Arguments Undefined {A}.
(** How an exported function ends: true; false, with the error; an exception leaves it; undefined. *)
Inductive outcome (A : Type) := Returned (a : A) | Refused (error : Z) | Escaped | Crashed.
Arguments Returned {A}. Arguments Refused {A}. Arguments Escaped {A}. Arguments Crashed {A}.

(** A matrix result, row by row (RowMajMatrix): src/Traits.h. *)
Record matrix := mkMatrix { m_rows : nat; m_cols : nat; m_data : list Z }.

Section Mem.
  (** The allocator's answer at its n-th call, given the addresses in use; [None]: std::bad_alloc. *)
  Variable place : nat -> list Z -> option Z.
  (** The text of an error. *)
  Variable what : list Z.

  Record mem := mkMem { m_heap : heap; m_time : nat }.
  Definition act (A : Type) : Type := mem -> mem * mres A.

  Definition done {A} (a : A) : act A := fun w => (w, Done a).
  Definition fail {A} (e : exn) : act A := fun w => (w, Failed e).
  Definition undefined {A} : act A := fun w => (w, Undefined).
  Definition thn {A B} (m : act A) (f : A -> act B) : act B := fun w =>
    match m w with
    | (w', Done a) => f a w'
    | (w', Failed e) => (w', Failed e)
    | (w', OutOfMemory) => (w', OutOfMemory)
    | (w', Undefined) => (w', Undefined)
    end.
  Notation "'let!' x := m 'in' f" := (thn m (fun x => f)) (at level 200, x pattern, m at level 100, f at level 200, right associativity).
  Definition require (b : bool) : act unit := if b then done tt else fail InvalidArgument.

  (** new T[n] *)
  Definition new_array (n : nat) : act Z := fun w =>
    match place (m_time w) (map fst (m_heap w)) with
    | None => (mkMem (m_heap w) (S (m_time w)), OutOfMemory)
    | Some a => (mkMem ((a, repeat Junk n) :: m_heap w) (S (m_time w)), Done a)
    end.
  (** delete [] p, where p is not null *)
  Definition delete_array (a : Z) : act unit := fun w =>
    match find_block (m_heap w) a with
    | None => (w, Undefined)
    | Some _ => (mkMem (free_block (m_heap w) a) (m_time w), Done tt)
    end.
  (** p[i] = c *)
  Definition store (a : Z) (i : nat) (c : cell) : act unit := fun w =>
    match find_block (m_heap w) a with
    | None => (w, Undefined)
    | Some b => match set_cell b i c with
                | None => (w, Undefined)
                | Some b' => (mkMem (set_block (m_heap w) a b') (m_time w), Done tt)
                end
    end.
  (** p[i] *)
  Definition load (a : Z) (i : nat) : act cell := fun w =>
    match find_block (m_heap w) a with
    | None => (w, Undefined)
    | Some b => match nth_error b i with
                | None | Some Junk => (w, Undefined)
                | Some c => (w, Done c)
                end
    end.
  Definition load_num (a : Z) (i : nat) : act Z := let! c := load a i in match c with Num z => done z | _ => undefined end.
  Definition load_ptr (a : Z) (i : nat) : act (option Z) := let! c := load a i in match c with Ptr p => done p | _ => undefined end.

  (** for(auto const & x : l) *p++ = x;   std::copy, memcpy *)
  Fixpoint fill (a : Z) (i : nat) (l : list cell) {struct l} : act unit :=
    match l with [] => done tt | c :: r => let! _ := store a i c in fill a (S i) r end.

  (** std::unique_ptr holding [a] while [body] runs; the caller of [guard] releases it when [body] ends normally. *)
  Definition guard {A} (a : Z) (body : act A) : act A := fun w =>
    match body w with
    | (w', Failed e) => match delete_array a w' with (w2, Done _) => (w2, Failed e) | (w2, _) => (w2, Undefined) end
    | (w', OutOfMemory) => match delete_array a w' with (w2, Done _) => (w2, OutOfMemory) | (w2, _) => (w2, Undefined) end
    | r => r
    end.

  (** The try block of every function; SharedLibrary_Common.cpp:80-85 [CreateErrorInfo].  The new error is one array here: the string
      and its entry in the pointer table (see M_CApi) are not kept apart.  If there is no memory for it, std::bad_alloc leaves the
      handler and the function. *)
  Definition api {A} (body : act A) (w : mem) : mem * outcome A :=
    match body w with
    | (w', Done a) => (w', Returned a)
    | (w', Undefined) => (w', Crashed)
    | (w', _) =>
        match new_array (length what) w' with
        | (w2, Done e) => (mkMem (set_block (m_heap w2) e (map Num what)) (m_time w2), Refused e)
        | (w2, OutOfMemory) => (w2, Escaped)
        | (w2, _) => (w2, Crashed)
        end
    end.

  (* ------------------------------------------------------------------ results ------------------------------------------------ *)

  (** SharedLibrary_StringFeaturizer.cpp:352-364, 443-446: a string *)
  Definition out_string (s : list Z) : act (option Z) :=
    match s with
    | [] => done None
    | _ => let! a := new_array (S (length s)) in
           let! _ := fill a 0 (map Num s) in
           let! _ := store a (length s) (Num 0) in
           done (Some a)
    end.
  Definition destroy_string (p : option Z) : act unit := match p with None => done tt | Some a => delete_array a end.

  (** SharedLibrary_DateTimeFeaturizer.cpp:362-426, 562-576: the fields of a time point; the structure itself is the caller's.
      [c_numbers]: the members that are numbers, in the order of the structure. *)
  Record c_time := mkCTime { c_numbers : list Z; c_month : option Z; c_am_pm : option Z; c_day : option Z; c_holiday : option Z }.
  Definition out_time (t : time_fields) : act c_time :=
    let numbers := [year t; month t; day t; hour t; minute t; second t; am_pm t; hour12 t; day_of_week t; day_of_quarter t;
                    day_of_year t; week_of_month t; quarter_of_year t; half_of_year t; week_iso t; year_iso t] in
    let! m := out_string (month_label t) in
    let! ap := out_string (am_pm_label t) in
    let! d := out_string (day_of_week_label t) in
    let! hn := out_string (holiday_name t) in
    done (mkCTime (numbers ++ [is_paid_time_off t]) m ap d hn).
  (** [p]: the argument; null is refused. *)
  Definition destroy_time (p : option c_time) : act unit :=
    match p with
    | None => fail InvalidArgument
    | Some c => let! _ := destroy_string (c_month c) in
                let! _ := destroy_string (c_am_pm c) in
                let! _ := destroy_string (c_day c) in
                destroy_string (c_holiday c)
    end.

  (** SharedLibrary_CountVectorizerFeaturizer.cpp:365-381, 483-492, SharedLibrary_TfidfVectorizerFeaturizer.cpp:341-500: a sparse
      vector; [vs]: pairs of value and index.  The result: numElements, numValues, values, indexes. *)
  Definition out_sparse (n : Z) (vs : list (Z * Z)) : act (Z * nat * Z * Z) :=
    let! a := new_array (length vs) in
    guard a (
      let! b := new_array (length vs) in
      guard b (
        let! _ := fill a 0 (map (fun p => Num (fst p)) vs) in
        let! _ := fill b 0 (map (fun p => Num (snd p)) vs) in
        done (n, length vs, a, b))).
  Definition destroy_sparse (n : Z) (k : nat) (values indexes : option Z) : act unit :=
    let! _ := require (negb (n =? 0)) in
    let! _ := require (negb (Nat.eqb k 0)) in
    match values with
    | None => fail InvalidArgument
    | Some a => match indexes with
                | None => fail InvalidArgument
                | Some b => let! _ := delete_array a in delete_array b
                end
    end.

  (** SharedLibrary_PCAFeaturizer.cpp:376-388, 483-488 (also the rolling windows, TruncatedSVD): a matrix.  The result: cols, rows,
      data.  Nothing can be thrown between the construction of the unique_ptr and its release. *)
  Definition out_matrix (m : matrix) : act (nat * nat * Z) :=
    let! a := new_array (length (m_data m)) in
    let! _ := fill a 0 (map Num (m_data m)) in
    done (m_cols m, m_rows m, a).
  Definition destroy_matrix (cols rows : nat) (p : option Z) : act unit :=
    match p with
    | None => require (Nat.eqb cols 0 && Nat.eqb rows 0)
    | Some a => let! _ := require (negb (Nat.eqb cols 0 || Nat.eqb rows 0)) in delete_array a
    end.

  (** SharedLibrary_L1NormalizeFeaturizer.cpp:372-390, 484-494, SharedLibrary_BackwardFillImputerFeaturizer.cpp:370-387, 459-470:
      numbers.  The result: array, count. *)
  Definition out_numbers (l : list Z) : act (option Z * nat) :=
    match l with
    | [] => done (None, O)
    | _ => let! a := new_array (length l) in let! _ := fill a 0 (map Num l) in done (Some a, length l)
    end.
  Definition consistent (p : option Z) (n : nat) : act unit :=
    require (Bool.eqb (match p with None => false | Some _ => true end) (negb (Nat.eqb n 0))).
  Definition destroy_numbers (p : option Z) (n : nat) : act unit :=
    let! _ := consistent p n in match p with None => done tt | Some a => delete_array a end.

  (** SharedLibrary_BackwardFillImputerFeaturizer.cpp:5225-5254, 5334-5355: strings *)
  Fixpoint put_strings (a : Z) (i : nat) (l : list (list Z)) {struct l} : act unit :=
    match l with
    | [] => done tt
    | s :: r => let! p := out_string s in let! _ := store a i (Ptr p) in put_strings a (S i) r
    end.
  Definition out_strings (l : list (list Z)) : act (option Z * nat) :=
    match l with
    | [] => done (None, O)
    | _ => let! a := new_array (length l) in let! _ := put_strings a 0 l in done (Some a, length l)
    end.
  Fixpoint free_strings (a : Z) (i n : nat) {struct n} : act unit :=
    match n with
    | O => done tt
    | S k => let! p := load_ptr a i in let! _ := destroy_string p in free_strings a (S i) k
    end.
  Definition destroy_strings (p : option Z) (n : nat) : act unit :=
    let! _ := consistent p n in
    match p with None => done tt | Some a => let! _ := free_strings a 0 n in delete_array a end.

  (** SharedLibrary_ForecastingPivotFeaturizer.cpp:447-489, 583-616: rows of numbers.  The result: the arrays, their sizes, count. *)
  Fixpoint put_rows (a b : Z) (i : nat) (l : list (list Z)) {struct l} : act unit :=
    match l with
    | [] => done tt
    | r :: rest =>
        let! _ := match r with
                  | [] => store a i (Ptr None)
                  | _ => let! c := new_array (length r) in
                         let! _ := store a i (Ptr (Some c)) in
                         fill c 0 (map Num r)
                  end in
        let! _ := store b i (Num (Z.of_nat (length r))) in
        put_rows a b (S i) rest
    end.
  Definition out_rows (l : list (list Z)) : act (option Z * option Z * nat) :=
    match l with
    | [] => done (None, None, O)
    | _ => let! a := new_array (length l) in
           let! b := new_array (length l) in
           let! _ := put_rows a b 0 l in
           done (Some a, Some b, length l)
    end.
  Definition same_nullness (p q : option Z) : act unit :=
    require (match p, q with None, None | Some _, Some _ => true | _, _ => false end).
  Fixpoint free_rows (a b : Z) (i n : nat) {struct n} : act unit :=
    match n with
    | O => done tt
    | S k => let! p := load_ptr a i in
             let! z := load_num b i in
             let! _ := consistent p (Z.to_nat z) in
             let! _ := match p with None => done tt | Some c => delete_array c end in
             free_rows a b (S i) k
    end.
  Definition destroy_rows (p q : option Z) (n : nat) : act unit :=
    let! _ := consistent p n in
    let! _ := same_nullness q p in
    match p, q with
    | Some a, Some b => let! _ := free_rows a b 0 n in let! _ := delete_array a in delete_array b
    | _, _ => done tt
    end.

  (** SharedLibrary_LagLeadOperatorFeaturizer.cpp:434-508 (Transform), 550-626 (Flush), 642-706: pairs of a grain and a matrix.  The
      result: the arrays of names, their sizes, the columns, the rows, the data, the number of pairs. *)
  Fixpoint put_names (a : Z) (i : nat) (l : list (list Z)) {struct l} : act unit :=
    match l with
    | [] => done tt
    | s :: r => let! c := new_array (S (length s)) in
                let! _ := store a i (Ptr (Some c)) in
                let! _ := fill c 0 (map Num s) in
                let! _ := store c (length s) (Num 0) in
                put_names a (S i) r
    end.
  Record lag_arrays := mkLag { g_names : Z; g_sizes : Z; g_cols : Z; g_rows : Z; g_data : Z }.
  Fixpoint put_lags (g : lag_arrays) (i : nat) (l : list (list (list Z) * matrix)) {struct l} : act unit :=
    match l with
    | [] => done tt
    | (names, m) :: r =>
        let! a := new_array (length names) in
        let! _ := store (g_names g) i (Ptr (Some a)) in
        let! _ := put_names a 0 names in
        let! _ := store (g_sizes g) i (Num (Z.of_nat (length names))) in
        let! x := out_matrix m in
        let! _ := store (g_data g) i (Ptr (Some (snd x))) in
        let! _ := store (g_cols g) i (Num (Z.of_nat (fst (fst x)))) in
        let! _ := store (g_rows g) i (Num (Z.of_nat (snd (fst x)))) in
        put_lags g (S i) r
    end.
  Definition out_lags (l : list (list (list Z) * matrix)) : act (option lag_arrays * nat) :=
    match l with
    | [] => done (None, O)
    | _ => let! a := new_array (length l) in
           let! b := new_array (length l) in
           let! c := new_array (length l) in
           let! d := new_array (length l) in
           let! e := new_array (length l) in
           let! _ := put_lags (mkLag a b c d e) 0 l in
           done (Some (mkLag a b c d e), length l)
    end.
  Fixpoint free_names (a : Z) (i n : nat) {struct n} : act unit :=
    match n with
    | O => done tt
    | S k => let! p := load_ptr a i in
             match p with
             | None => fail InvalidArgument
             | Some c => let! _ := delete_array c in free_names a (S i) k
             end
    end.
  Fixpoint free_lags (g : lag_arrays) (i n : nat) {struct n} : act unit :=
    match n with
    | O => done tt
    | S k => let! p := load_ptr (g_names g) i in
             let! s := load_num (g_sizes g) i in
             let! c := load_num (g_cols g) i in
             let! r := load_num (g_rows g) i in
             let! q := load_ptr (g_data g) i in
             let! _ := consistent p (Z.to_nat s) in
             let! _ := require (match q with
                                | None => (c =? 0) && (r =? 0)
                                | Some _ => negb ((c =? 0) || (r =? 0))
                                end) in
             let! _ := match p with None => done tt | Some a => let! _ := free_names a 0 (Z.to_nat s) in delete_array a end in
             let! _ := match q with None => done tt | Some a => delete_array a end in
             free_lags g (S i) k
    end.
  (** The five arrays are passed as one argument here: the checks that they are null together are left out. *)
  Definition destroy_lags (g : option lag_arrays) (n : nat) : act unit :=
    match g with
    | None => require (Nat.eqb n 0)
    | Some g => let! _ := require (negb (Nat.eqb n 0)) in
                let! _ := free_lags g 0 n in
                let! _ := delete_array (g_names g) in
                let! _ := delete_array (g_sizes g) in
                let! _ := delete_array (g_cols g) in
                let! _ := delete_array (g_rows g) in
                delete_array (g_data g)
    end.

  (** SharedLibrary_StringFeaturizer.cpp:299-330 [CreateTransformerSaveData], SharedLibrary_Common.cpp:58-76
      [DestroyTransformerSaveData] *)
  Definition out_bytes (l : list Z) : act (Z * nat) :=
    let! a := new_array (length l) in let! _ := fill a 0 (map Num l) in done (a, length l).
  Definition destroy_bytes (p : option Z) (n : nat) : act unit :=
    match p with
    | None => fail InvalidArgument
    | Some a => let! _ := require (negb (Nat.eqb n 0)) in delete_array a
    end.

  (** SharedLibrary_DateTimeFeaturizerCustom.cpp:70-139 [GetSupportedCountries]; [l]: the countries.  rawStringInfo holds the strings:
      its own memory (reserve) is [v], the strings in it are freed with it. *)
  Fixpoint with_texts {A} (l : list (list Z)) (k : list Z -> act A) {struct l} : act A :=
    match l with
    | [] => k []
    | s :: r => let! a := new_array (S (length s)) in
                guard a (let! _ := fill a 0 (map Num s ++ [Num 0]) in
                         with_texts r (fun addresses => k (a :: addresses)))
    end.
  Definition out_countries (l : list (list Z)) : act (option Z * nat) :=
    match l with
    | [] => done (None, O)
    | _ => let! v := new_array (length l) in
           let! x := guard v (with_texts l (fun addresses =>
                       let! p := new_array (length l) in
                       guard p (let! _ := fill p 0 (map (fun a => Ptr (Some a)) addresses) in
                                done (Some p, length l)))) in
           let! _ := delete_array v in
           done x
    end.
  (** 141-172 [DestroyStringBuffers] *)
  Definition destroy_countries (p : option Z) (n : nat) : act unit :=
    let! _ := consistent p n in
    match p with None => done tt | Some a => let! _ := free_names a 0 n in delete_array a end.

  (* ------------------------------------------------------------------ arguments ---------------------------------------------- *)

  (** std::string(p): the characters before the first zero. *)
  Fixpoint until_zero (b : list cell) : mres (list Z) :=
    match b with
    | [] => Undefined
    | Num z :: r => if z =? 0 then Done [] else match until_zero r with Done s => Done (z :: s) | _ => Undefined end
    | _ :: _ => Undefined
    end.
  Definition in_text (p : option Z) : act (list Z) := fun w =>
    match p with
    | None => (w, Undefined)
    | Some a => match find_block (m_heap w) a with None => (w, Undefined) | Some b => (w, until_zero b) end
    end.
  (** SharedLibrary_BackwardFillImputerFeaturizer.cpp:5223: a null pointer is a missing value *)
  Definition in_text_or_null (p : option Z) : act (option (list Z)) :=
    match p with None => done None | Some _ => let! s := in_text p in done (Some s) end.
  (** SharedLibrary_BackwardFillImputerFeaturizer.cpp:148, 368: [input != nullptr ? *input : CreateNullValue()] *)
  Definition in_number_or_null (p : option Z) : act (option Z) :=
    match p with None => done None | Some a => let! z := load_num a 0 in done (Some z) end.
  (** while(buffer.size() < n) { buffer.emplace_back(...p...); ++p; } *)
  Fixpoint times {A} (f : nat -> act A) (i n : nat) {struct n} : act (list A) :=
    match n with O => done [] | S k => let! x := f i in let! r := times f (S i) k in done (x :: r) end.

  (** SharedLibrary_L1NormalizeFeaturizer.cpp:357-369: numbers; the code keeps two pointers, here the numbers are read at once. *)
  Definition in_numbers (p : option Z) (n : nat) : act (list Z) :=
    match p with
    | None => fail InvalidArgument
    | Some a => let! _ := require (negb (Nat.eqb n 0)) in times (load_num a) 0 n
    end.
  (** SharedLibrary_BackwardFillImputerFeaturizer.cpp:166-176 [FitBuffer]: numbers, some missing *)
  Definition in_numbers_or_null (p : option Z) (n : nat) : act (list (option Z)) :=
    match p with
    | None => fail InvalidArgument
    | Some a => let! _ := require (negb (Nat.eqb n 0)) in
                times (fun i => let! q := load_ptr a i in in_number_or_null q) 0 n
    end.
  (** SharedLibrary_BackwardFillImputerFeaturizer.cpp:5023-5034 [FitBuffer]: strings, some missing *)
  Definition in_texts (p : option Z) (n : nat) : act (list (option (list Z))) :=
    match p with
    | None => fail InvalidArgument
    | Some a => let! _ := require (negb (Nat.eqb n 0)) in
                times (fun i => let! q := load_ptr a i in in_text_or_null q) 0 n
    end.
  (** SharedLibrary_LagLeadOperatorFeaturizer.cpp:143-153, 399-409: the names of a grain *)
  Definition in_names (p : option Z) (n : nat) : act (list (list Z)) :=
    match p with
    | None => fail InvalidArgument
    | Some a => let! _ := require (negb (Nat.eqb n 0)) in
                times (fun i => let! q := load_ptr a i in in_text q) 0 n
    end.
  (** SharedLibrary_LagLeadOperatorFeaturizer.cpp:179-232 [FitBuffer]: grains and numbers *)
  Definition in_grains (p q r : option Z) (n : nat) : act (list (list (list Z) * Z)) :=
    match p with
    | None => fail InvalidArgument
    | Some a =>
    match q with
    | None => fail InvalidArgument
    | Some b =>
        let! _ := require (negb (Nat.eqb n 0)) in
        let! grains := times (fun i =>
                         let! x := load_ptr a i in
                         match x with
                         | None => fail InvalidArgument
                         | Some c => let! k := load_num b i in
                                     let! _ := require (negb (k =? 0)) in
                                     times (fun j => let! y := load_ptr c j in in_text y) 0 (Z.to_nat k)
                         end) 0 n in
        match r with
        | None => fail InvalidArgument
        | Some c => let! numbers := times (load_num c) 0 n in done (combine grains numbers)
        end
    end
    end.
  (** SharedLibrary_ForecastingPivotFeaturizer.cpp:142-161, 408-426, SharedLibrary_PCAFeaturizer.cpp:170-189: matrices.  An Eigen::Map
      only keeps the pointer; here the data is read at once. *)
  Definition in_matrices (p q r : option Z) (n : nat) : act (list matrix) :=
    match p with None => fail InvalidArgument | Some cs =>
    match q with None => fail InvalidArgument | Some rs =>
    match r with None => fail InvalidArgument | Some vs =>
      let! _ := require (negb (Nat.eqb n 0)) in
      times (fun i =>
        let! c := load_num cs i in let! _ := require (negb (c =? 0)) in
        let! k := load_num rs i in let! _ := require (negb (k =? 0)) in
        let! v := load_ptr vs i in
        match v with
        | None => fail InvalidArgument
        | Some d => let! data := times (load_num d) 0 (Z.to_nat k * Z.to_nat c) in
                    done (mkMatrix (Z.to_nat k) (Z.to_nat c) data)
        end) 0 n
    end end end.
  (** SharedLibrary_ForecastingPivotFeaturizer.cpp:187-226 [FitBuffer]: rows of matrices; [input_items] is the number of rows and also
      taken for the number of matrices in every row. *)
  Definition in_matrix_rows (p q r : option Z) (n : nat) : act (list (list matrix)) :=
    match p with None => fail InvalidArgument | Some cs =>
    match q with None => fail InvalidArgument | Some rs =>
    match r with None => fail InvalidArgument | Some vs =>
      let! _ := require (negb (Nat.eqb n 0)) in
      times (fun i =>
        let! c := load_ptr cs i in let! k := load_ptr rs i in let! v := load_ptr vs i in
        in_matrices c k v n) 0 n
    end end end.

  (** SharedLibrary_Common.h:60-79, SharedLibrary_Common.cpp:87-95 [CreateDateTime]; [ticks]: ticks of the system clock in a second,
      [from_text]: Traits<time_point>::FromString.  [size] (cBufferElements) is not looked at. *)
  Inductive date_time := Posix (t : Z) | IsoText (p : option Z) (size : nat) | OtherType.
  Definition in_date_time (ticks : Z) (from_text : list Z -> res Z) (d : date_time) : act Z :=
    match d with
    | Posix t => if in_i64 (t * ticks) then done (t * ticks) else undefined
    | IsoText p _ => let! s := in_text p in
                     match from_text s with Ok z => done z | Throw e => fail e | UB => undefined end
    | OtherType => fail RuntimeError
    end.
End Mem.
