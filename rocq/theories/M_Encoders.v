(** Model of Structs.h, OneHotEncoder, LabelEncoder, Numericalize, HashOneHotVectorizer and of MurmurHash3_x86_32. *)
From Verif Require Import Base M_Estimator M_Stats.

(** Structs.h:30-75 [SparseVectorEncoding]: (value, index) pairs. *)
Record sparse (V : Type) := mkSparse { sp_elements : Z; sp_values : list (V * Z) }.
Arguments mkSparse {V}. Arguments sp_elements {V}. Arguments sp_values {V}.
(** Structs.h:186-193: the loop with [prevIndex]; [first] is "iter == values.cbegin()". *)
Fixpoint sparse_ordered {V} (first : bool) (prev : Z) (l : list (V * Z)) : bool :=
  match l with
  | [] => true
  | (_, i) :: r => if (i <=? prev) && negb first then false else sparse_ordered false i r
  end.
(** Structs.h:165-199 *)
Definition sparse_make {V} (n : Z) (values : list (V * Z)) : res (sparse V) :=
  if n =? 0 then Throw InvalidArgument
  else if n <? Z.of_nat (length values) then Throw InvalidArgument
  else match values with
       | [] => Throw InvalidArgument
       | _ => if sparse_ordered true 0 values then Ok (mkSparse n values) else Throw InvalidArgument
       end.

(** Structs.h:77-102, 233-255 [SingleValueSparseVectorEncoding]. *)
Record single (V : Type) := mkSingle { si_elements : Z; si_value : V; si_index : Z }.
Arguments mkSingle {V}. Arguments si_elements {V}. Arguments si_value {V}. Arguments si_index {V}.
Definition single_make {V} (n : Z) (v : V) (i : Z) : res (single V) :=
  if n =? 0 then Throw InvalidArgument
  else if n <=? i then Throw InvalidArgument
  else Ok (mkSingle n v i).

Section Encoders.
  Context {T : Type}.
  Variable eqb : T -> T -> bool.

  (** A transformer: its labels and whether missing values are allowed. *)
  Record encoder := mkEncoder { e_labels : list (T * Z); e_missing : bool }.

  (** OneHotEncoderFeaturizer.h:213-225 *)
  Definition onehot_make (labels : list (T * Z)) (missing : bool) : res encoder :=
    match labels with [] => Throw InvalidArgument | _ => Ok (mkEncoder labels missing) end.
  (** OneHotEncoderFeaturizer.h:63-82 (all sums are 64 bit unsigned) *)
  Definition onehot_execute (e : encoder) (x : T) : res (single Z) :=
    let offset := if e_missing e then 1 else 0 in
    do index <- match m_find eqb (e_labels e) x with
                | None => if e_missing e then Ok 0 else Throw InvalidArgument
                | Some l => Ok (u64 (l + offset))
                end;
    single_make (u64 (Z.of_nat (length (e_labels e)) + offset)) 1 index.

  (** LabelEncoderFeaturizer.h:205-208 *)
  Definition label_make (labels : list (T * Z)) (missing : bool) : res encoder := Ok (mkEncoder labels missing).
  (** LabelEncoderFeaturizer.h:62-75: uint32_t + int *)
  Definition label_execute (e : encoder) (x : T) : res Z :=
    match m_find eqb (e_labels e) x with
    | None => if e_missing e then Ok 0 else Throw InvalidArgument
    | Some l => Ok (u32 (l + (if e_missing e then 1 else 0)))
    end.

  (** NumericalizeFeaturizer.h:55-64.  The result is a double: [None] is NaN, [Some n] the double equal to n (every
      uint32_t is one). *)
  Definition numericalize_execute (labels : list (T * Z)) (x : T) : option Z := m_find eqb labels x.
End Encoders.
Arguments mkEncoder {T}. Arguments e_labels {T}. Arguments e_missing {T}.

(** 3rdParty/MurmurHash3.cpp:45-48 *)
Definition rotl32 (x r : Z) : Z := Z.lor (u32 (Z.shiftl x r)) (Z.shiftr x (32 - r)).
(** 3rdParty/MurmurHash3.cpp:80-89 *)
Definition fmix32 (h : Z) : Z :=
  let h := Z.lxor h (Z.shiftr h 16) in
  let h := u32 (h * 2246822507) in
  let h := Z.lxor h (Z.shiftr h 13) in
  let h := u32 (h * 3266489909) in
  Z.lxor h (Z.shiftr h 16).
(** 3rdParty/MurmurHash3.cpp:111-112 *)
Definition mm_c1 := 3432918353.
Definition mm_c2 := 461845907.

(** Reading one byte of the key; outside of the key it is undefined. *)
Definition mm_byte (key : list Z) (i : Z) : res Z :=
  if i <? 0 then UB else match nth_error key (Z.to_nat i) with Some b => Ok b | None => UB end.
(** 3rdParty/MurmurHash3.cpp:66-69 [getblock32(blocks, i)]: four bytes, on a little-endian host.
    Simplification: the unaligned load is taken to work. *)
Definition getblock32 (key : list Z) (blocks i : Z) : res Z :=
  let a := blocks + 4 * i in
  do b0 <- mm_byte key a; do b1 <- mm_byte key (a + 1); do b2 <- mm_byte key (a + 2); do b3 <- mm_byte key (a + 3);
  Ok (b0 + 256 * (b1 + 256 * (b2 + 256 * b3))).
(** 3rdParty/MurmurHash3.cpp:123-127 and :153 *)
Definition mm_k (k : Z) : Z := u32 (rotl32 (u32 (k * mm_c1)) 15 * mm_c2).
(** 3rdParty/MurmurHash3.cpp:119-132: [for(int i = -nblocks; i; i++)]; [fuel] iterations remain. *)
Fixpoint mm_body (fuel : nat) (key : list Z) (blocks i h : Z) : res Z :=
  match fuel with
  | O => Ok h
  | S f => do k <- getblock32 key blocks i;
           let h := Z.lxor h (mm_k k) in
           mm_body f key blocks (i + 1) (u32 (rotl32 h 13 * 5 + 3864292196))
  end.
(** 3rdParty/MurmurHash3.cpp:134-154: the switch with its fall-throughs.  [tail[j]] is uint8_t promoted to int. *)
Definition mm_tail (key : list Z) (tail len h : Z) : res Z :=
  let r := Z.land len 3 in
  do k2 <- (if r =? 3 then do b <- mm_byte key (tail + 2); Ok (Z.lxor 0 (Z.shiftl b 16)) else Ok 0);
  do k1 <- (if 2 <=? r then do b <- mm_byte key (tail + 1); Ok (Z.lxor k2 (Z.shiftl b 8)) else Ok k2);
  if 1 <=? r then do b <- mm_byte key tail; Ok (Z.lxor h (mm_k (Z.lxor k1 b))) else Ok h.
(** 3rdParty/MurmurHash3.cpp:103-163.  [len] is an int; for a negative one the loop counts up from a positive number and
    reads outside of the key. *)
Definition murmur3_x86_32 (key : list Z) (len seed : Z) : res Z :=
  let nblocks := Z.quot len 4 in
  if nblocks <? 0 then UB
  else do h <- mm_body (Z.to_nat nblocks) key (nblocks * 4) (- nblocks) seed;
       do h <- mm_tail key (nblocks * 4) len h;
       Ok (fmix32 (Z.lxor h (u32 len))).
(** Traits.h:162-175 [MurmurHashGenerator]: the bytes of the string or of the object; the size becomes an int. *)
Definition murmur_hash (key : list Z) (seed : Z) : res Z :=
  murmur3_x86_32 key (to_s 4 (Z.of_nat (length key))) seed.

(** Traits.h:181-190 [ContainerHash]: each element hashed with the previous hash as seed. *)
Definition container_hash (keys : list (list Z)) : res Z := foldM (fun h k => murmur_hash k h) 0 keys.

(** HashOneHotVectorizerFeaturizer.h:140-147 *)
Record hash_onehot := mkHashOneHot { ho_seed : Z; ho_cols : Z }.
Definition hash_onehot_make (seed cols : Z) : res hash_onehot :=
  if cols <=? 0 then Throw RuntimeError else Ok (mkHashOneHot seed cols).
(** HashOneHotVectorizerFeaturizer.h:61-72 *)
Definition hash_onehot_execute (t : hash_onehot) (key : list Z) : res (single Z) :=
  do h <- murmur_hash key (ho_seed t);
  single_make (ho_cols t) 1 (h mod ho_cols t).
