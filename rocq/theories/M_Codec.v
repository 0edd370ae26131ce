(** Model of the [Traits<T>::serialize]/[deserialize] family (src/Traits.h:344-1564).
    Types are described by [ty], values by [val]; [wt] is "v is a value of type t". *)
From Verif Require Import Base M_Archive.

Inductive ty :=
| TBool
| TUInt (w : nat)                 (* uint8/16/32/64_t, Traits.h:512-666 *)
| TSInt (w : nat)                 (* int8/16/32/64_t, Traits.h:378-510; also chrono::duration of such a rep (1294-1318) *)
| TFloat (w : nat)                (* float (4) and double (8), Traits.h:668-822: the bit pattern *)
| TString                         (* Traits.h:824-859 *)
| TArray (n : nat) (t : ty)       (* std::array, Traits.h:886-915 *)
| TVector (t : ty)                (* Traits.h:917-955 *)
| TMap (k v : ty)                 (* std::map, Traits.h:1063-1082 *)
| TUMap (k v : ty)                (* std::unordered_map, Traits.h:1084-1103 *)
| TUSet (k : ty)                  (* std::unordered_set, Traits.h:1105-1124 *)
| TColMaj (t : ty)                (* ColMajMatrix, Traits.h:1126-1170 *)
| TRowMaj (t : ty)                (* RowMajMatrix, Traits.h:1172-1216 *)
| TUnit | TPair (a b : ty)        (* std::tuple<a, b, c> is TPair a (TPair b (TPair c TUnit)), Traits.h:1218-1285 *)
| TOption (t : ty).               (* nonstd::optional, Traits.h:1502-1564 *)

(** Values.  [VMat r c l] is the matrix with [r] rows and [c] columns whose (i,j) entry is the (i*c+j)-th of [l].
    [VMap] and [VSet] list the entries in the container's iteration order; for the unordered containers this order is
    unspecified, so a theorem about all [VMap l] is a theorem about all iteration orders. *)
Inductive val :=
| VBool (b : bool)
| VInt (z : Z)
| VFloat (bits : Z)
| VStr (s : list Z)
| VList (l : list val)
| VMap (l : list (val * val))
| VSet (l : list val)
| VMat (r c : Z) (l : list val)
| VUnit
| VPair (a b : val)
| VOpt (o : option val).

(** Comparison of floating point bit patterns as [operator<] / [operator==] do it. *)
Definition f_nan (w : nat) (b : Z) : bool :=
  let m := b mod (two_pow8 w / 2) in
  (if Nat.eqb w 4 then 2139095040 else 9218868437227405312) <? m.
Definition f_key (w : nat) (b : Z) : Z :=
  let m := b mod (two_pow8 w / 2) in if two_pow8 w / 2 <=? b then - m else m.

(** [std::less] on key types (strings: unsigned characters, lexicographic; vectors and tuples lexicographic). *)
Fixpoint str_lt (a b : list Z) : bool :=
  match a, b with
  | [], [] => false
  | [], _ :: _ => true
  | _ :: _, [] => false
  | x :: a', y :: b' => (x <? y) || ((x =? y) && str_lt a' b')
  end.
Fixpoint str_eqb (a b : list Z) : bool :=
  match a, b with
  | [], [] => true
  | x :: a', y :: b' => (x =? y) && str_eqb a' b'
  | _, _ => false
  end.

Fixpoint list_lt {A} (lt : A -> A -> bool) (a b : list A) : bool :=
  match a, b with
  | [], [] => false
  | [], _ :: _ => true
  | _ :: _, [] => false
  | x :: a', y :: b' => lt x y || (negb (lt y x) && list_lt lt a' b')
  end.
Fixpoint list_eqb {A} (eqb : A -> A -> bool) (a b : list A) : bool :=
  match a, b with
  | [], [] => true
  | x :: a', y :: b' => eqb x y && list_eqb eqb a' b'
  | _, _ => false
  end.

Fixpoint key_lt (t : ty) (a b : val) : bool :=
  match t, a, b with
  | TBool, VBool x, VBool y => negb x && y
  | (TUInt _ | TSInt _), VInt x, VInt y => x <? y
  | TFloat w, VFloat x, VFloat y => negb (f_nan w x) && negb (f_nan w y) && (f_key w x <? f_key w y)
  | TString, VStr x, VStr y => str_lt x y
  | (TVector t' | TArray _ t'), VList x, VList y => list_lt (key_lt t') x y
  | TPair t1 t2, VPair a1 a2, VPair b1 b2 => key_lt t1 a1 b1 || (negb (key_lt t1 b1 a1) && key_lt t2 a2 b2)
  | TOption t', VOpt None, VOpt (Some _) => true
  | TOption t', VOpt (Some x), VOpt (Some y) => key_lt t' x y
  | _, _, _ => false
  end.
(** [Traits<T>::key_equal], the equality of the library's unordered maps (Traits.h:675-691: NaN equals NaN). *)
Fixpoint key_eq (t : ty) (a b : val) : bool :=
  match t, a, b with
  | TBool, VBool x, VBool y => Bool.eqb x y
  | (TUInt _ | TSInt _), VInt x, VInt y => x =? y
  | TFloat w, VFloat x, VFloat y =>
      (f_nan w x && f_nan w y) || (negb (f_nan w x) && negb (f_nan w y) && (f_key w x =? f_key w y))
  | TString, VStr x, VStr y => str_eqb x y
  | (TVector t' | TArray _ t'), VList x, VList y => list_eqb (key_eq t') x y
  | TUnit, VUnit, VUnit => true
  | TPair t1 t2, VPair a1 a2, VPair b1 b2 => key_eq t1 a1 b1 && key_eq t2 a2 b2
  | TOption t', VOpt None, VOpt None => true
  | TOption t', VOpt (Some x), VOpt (Some y) => key_eq t' x y
  | _, _, _ => false
  end.

(** Iteration order of [std::map]: every earlier key is less than every later one. *)
Fixpoint sorted_by {A} (lt : A -> A -> bool) (l : list A) : bool :=
  match l with
  | [] => true
  | x :: r => forallb (lt x) r && sorted_by lt r
  end.
(** Keys of an unordered container: pairwise not equal. *)
Fixpoint distinct_by {A} (eqb : A -> A -> bool) (l : list A) : bool :=
  match l with
  | [] => true
  | x :: r => forallb (fun y => negb (eqb x y)) r && distinct_by eqb r
  end.

Definition len32 {A} (l : list A) : bool := Z.of_nat (length l) <? 4294967296.

Fixpoint wt (t : ty) (v : val) : bool :=
  match t, v with
  | TBool, VBool _ => true
  | TUInt w, VInt z => fits_u w z
  | TSInt w, VInt z => fits_s w z && (1 <=? Z.of_nat w)
  | TFloat w, VFloat z => fits_u w z
  | TString, VStr s => bytes_ok s && len32 s
  | TArray n t', VList l => Nat.eqb (length l) n && forallb (wt t') l
  | TVector t', VList l => len32 l && forallb (wt t') l
  | TMap k x, VMap l => len32 l && forallb (fun p => wt k (fst p) && wt x (snd p)) l && sorted_by (key_lt k) (map fst l)
  | TUMap k x, VMap l => len32 l && forallb (fun p => wt k (fst p) && wt x (snd p)) l && distinct_by (key_eq k) (map fst l)
  | TUSet k, VSet l => len32 l && forallb (wt k) l && distinct_by (key_eq k) l
  | TColMaj t', VMat r c l
  | TRowMaj t', VMat r c l =>
      (0 <=? r) && (r <=? i64_max) && (0 <=? c) && (c <=? i64_max) && (Z.of_nat (length l) =? r * c) && forallb (wt t') l
  | TUnit, VUnit => true
  | TPair a b, VPair x y => wt a x && wt b y
  | TOption t', VOpt None => true
  | TOption t', VOpt (Some x) => wt t' x
  | _, _ => false
  end.

(** Element (i,j) of a matrix, and the two traversal orders. *)
Definition mat_at (c : Z) (l : list val) (i j : nat) : val := nth (i * Z.to_nat c + j) l VUnit.
Definition mat_colmajor (r c : Z) (l : list val) : list val :=
  flat_map (fun j => map (fun i => mat_at c l i j) (seq 0 (Z.to_nat r))) (seq 0 (Z.to_nat c)).
Definition mat_rowmajor (r c : Z) (l : list val) : list val :=
  flat_map (fun i => map (fun j => mat_at c l i j) (seq 0 (Z.to_nat c))) (seq 0 (Z.to_nat r)).
(** The matrix filled by [for(colId) for(rowId) result(rowId, colId) = next]. *)
Definition mat_of_colmajor (r c : Z) (ys : list val) : list val :=
  flat_map (fun i => map (fun j => nth (j * Z.to_nat r + i) ys VUnit) (seq 0 (Z.to_nat c))) (seq 0 (Z.to_nat r)).
Definition mat_of_rowmajor (r c : Z) (ys : list val) : list val :=
  flat_map (fun i => map (fun j => nth (i * Z.to_nat c + j) ys VUnit) (seq 0 (Z.to_nat c))) (seq 0 (Z.to_nat r)).

(** [Traits<T>::serialize].  Sizes are written as [static_cast<uint32_t>(size())]. *)
Fixpoint enc (t : ty) (v : val) : list Z :=
  match t, v with
  | TBool, VBool b => le_bytes 1 (if b then 1 else 0)                       (* 367-370 *)
  | (TUInt w | TSInt w), VInt z => le_bytes w z                             (* e.g. 394-397, 528-531 *)
  | TFloat w, VFloat z => le_bytes w z                                      (* e.g. 720-723 *)
  | TString, VStr s => le_bytes 4 (Z.of_nat (length s)) ++ s                (* 834-842 *)
  | TArray _ t', VList l => flat_map (enc t') l                             (* 896-903 *)
  | TVector t', VList l => le_bytes 4 (Z.of_nat (length l)) ++ flat_map (enc t') l       (* 928-937 *)
  | (TMap k x | TUMap k x), VMap l =>                                       (* 982-992 *)
      le_bytes 4 (Z.of_nat (length l)) ++ flat_map (fun p => enc k (fst p) ++ enc x (snd p)) l
  | TUSet k, VSet l => le_bytes 4 (Z.of_nat (length l)) ++ flat_map (enc k) l   (* 1034-1043 *)
  | TColMaj t', VMat r c l => le_bytes 8 r ++ le_bytes 8 c ++ flat_map (enc t') (mat_colmajor r c l)  (* 1137-1151 *)
  | TRowMaj t', VMat r c l => le_bytes 8 r ++ le_bytes 8 c ++ flat_map (enc t') (mat_rowmajor r c l)  (* 1183-1197 *)
  | TUnit, VUnit => []
  | TPair a b, VPair x y => enc a x ++ enc b y                              (* 1260-1271 *)
  | TOption t', VOpt None => le_bytes 1 0                                   (* 1545-1553 *)
  | TOption t', VOpt (Some x) => le_bytes 1 1 ++ enc t' x
  | _, _ => []
  end.

(** Read [n] items. *)
Fixpoint get_n {A} (p : parser A) (n : nat) : parser (list A) := fun bs =>
  match n with
  | O => Ok ([], bs)
  | S n' => do x <- p bs; do xs <- get_n p n' (snd x); Ok (fst x :: fst xs, snd xs)
  end.

(** A [bool] object whose byte is neither 0 nor 1 has no value: reading it is undefined. *)
Definition get_bool : parser bool := fun bs =>
  do x <- get_fixed 1 bs;
  if fst x =? 0 then Ok (false, snd x) else if fst x =? 1 then Ok (true, snd x) else UB.

(** [emplace] of [std::map] (ordered insertion; an equivalent key leaves the map alone). *)
Fixpoint map_emplace (lt : val -> val -> bool) (k v : val) (l : list (val * val)) : list (val * val) :=
  match l with
  | [] => [(k, v)]
  | p :: r => if lt (fst p) k then p :: map_emplace lt k v r
              else if lt k (fst p) then (k, v) :: l else l
  end.
(** [emplace] of the unordered containers (the position is immaterial). *)
Definition umap_emplace (eqb : val -> val -> bool) (k v : val) (l : list (val * val)) : list (val * val) :=
  if existsb (fun p => eqb (fst p) k) l then l else l ++ [(k, v)].
Definition uset_emplace (eqb : val -> val -> bool) (k : val) (l : list val) : list val :=
  if existsb (fun x => eqb x k) l then l else l ++ [k].

(** [Traits<T>::deserialize].  Simplifications: [reserve] and allocation failure are not modelled; the entries of a map
    are read first and emplaced afterwards (emplacing does not touch the archive). A negative matrix size is UB (Eigen). *)
Fixpoint dec (t : ty) : parser val := fun bs =>
  match t with
  | TBool => do x <- get_bool bs; Ok (VBool (fst x), snd x)                              (* 372-375 *)
  | TUInt w => do x <- get_fixed w bs; Ok (VInt (fst x), snd x)
  | TSInt w => do x <- get_fixed w bs; Ok (VInt (to_s w (fst x)), snd x)
  | TFloat w => do x <- get_fixed w bs; Ok (VFloat (fst x), snd x)
  | TString => do n <- get_fixed 4 bs; do s <- get_block (fst n) (snd n); Ok (VStr (fst s), snd s)   (* 844-858 *)
  | TArray n t' => do xs <- get_n (dec t') n bs; Ok (VList (fst xs), snd xs)             (* 905-914 *)
  | TVector t' => do n <- get_fixed 4 bs;                                                (* 939-954 *)
                  do xs <- get_n (dec t') (Z.to_nat (fst n)) (snd n); Ok (VList (fst xs), snd xs)
  | TMap k x => do n <- get_fixed 4 bs;                                                  (* 994-1009 *)
                do xs <- get_n (fun b => do a <- dec k b; do c <- dec x (snd a); Ok ((fst a, fst c), snd c))
                               (Z.to_nat (fst n)) (snd n);
                Ok (VMap (fold_left (fun m p => map_emplace (key_lt k) (fst p) (snd p) m) (fst xs) []), snd xs)
  | TUMap k x => do n <- get_fixed 4 bs;
                 do xs <- get_n (fun b => do a <- dec k b; do c <- dec x (snd a); Ok ((fst a, fst c), snd c))
                                (Z.to_nat (fst n)) (snd n);
                 Ok (VMap (fold_left (fun m p => umap_emplace (key_eq k) (fst p) (snd p) m) (fst xs) []), snd xs)
  | TUSet k => do n <- get_fixed 4 bs;                                                   (* 1045-1059 *)
               do xs <- get_n (dec k) (Z.to_nat (fst n)) (snd n);
               Ok (VSet (fold_left (fun m x => uset_emplace (key_eq k) x m) (fst xs) []), snd xs)
  | TColMaj t' => do r <- get_fixed 8 bs; do c <- get_fixed 8 (snd r);                   (* 1153-1169 *)
                  let r' := to_s 8 (fst r) in let c' := to_s 8 (fst c) in
                  if (r' <? 0) || (c' <? 0) then UB
                  else do xs <- get_n (dec t') (Z.to_nat (r' * c')) (snd c);
                       Ok (VMat r' c' (mat_of_colmajor r' c' (fst xs)), snd xs)
  | TRowMaj t' => do r <- get_fixed 8 bs; do c <- get_fixed 8 (snd r);                   (* 1199-1215 *)
                  let r' := to_s 8 (fst r) in let c' := to_s 8 (fst c) in
                  if (r' <? 0) || (c' <? 0) then UB
                  else do xs <- get_n (dec t') (Z.to_nat (r' * c')) (snd c);
                       Ok (VMat r' c' (mat_of_rowmajor r' c' (fst xs)), snd xs)
  | TUnit => Ok (VUnit, bs)
  | TPair a b => do x <- dec a bs; do y <- dec b (snd x); Ok (VPair (fst x) (fst y), snd y)  (* 1273-1284 *)
  | TOption t' => do b <- get_bool bs;                                                   (* 1555-1563 *)
                  if fst b then do x <- dec t' (snd b); Ok (VOpt (Some (fst x)), snd x)
                  else Ok (VOpt None, snd b)
  end.

(** system_clock durations, Traits.h:1336-1392: [p] is the number of clock ticks per microsecond
    (1 on libc++, 10 on MSVC, 1000 on libstdc++); ticks are [int64_t].  [duration_cast] truncates toward zero. *)
Definition enc_sysdur (p : Z) (ticks : Z) : list Z :=
  if p =? 1 then enc (TSInt 8) (VInt ticks) else enc (TSInt 8) (VInt (Z.quot ticks p)).
Definition dec_sysdur (p : Z) : parser Z := fun bs =>
  do x <- dec (TSInt 8) bs;
  match fst x with
  | VInt us => if in_i64 (us * p) then Ok (us * p, snd x) else UB
  | _ => UB
  end.
(** system_clock time points, Traits.h:1479-1500: to_time_t / from_time_t; [q] ticks per second.
    Simplification: to_time_t truncates toward zero as in libstdc++ and libc++. *)
Definition enc_systp (q : Z) (ticks : Z) : list Z := enc (TSInt 8) (VInt (Z.quot ticks q)).
Definition dec_systp (q : Z) : parser Z := fun bs =>
  do x <- dec (TSInt 8) bs;
  match fst x with
  | VInt s => if in_i64 (s * q) then Ok (s * q, snd x) else UB
  | _ => UB
  end.
