(** Model of src/Archive.h: the [Archive] object, byte by byte. *)
From Verif Require Import Base.

(** Archive.h:49-52 [ModeValue]. *)
Inductive mode := Serializing | Deserializing.

(** The object.  Archive.h:92-97.
    Writing: [ar_buf] is [_buffer].  Reading: [ar_buf] is the memory between the first [_pBuffer] and [_pEndBuffer],
    [ar_base] the address of its first byte and [ar_pos] how far [_pBuffer] has moved. *)
Record archive := mkArchive { ar_mode : mode; ar_buf : list Z; ar_base : Z; ar_pos : nat }.

Definition remaining (a : archive) : list Z := skipn (ar_pos a) (ar_buf a).

(** Archive.h:118-132 [Archive(size_t cReservedSize)] (the reservation only affects allocation). *)
Definition ar_new_write : archive := mkArchive Serializing [] 0 0.

(** Archive.h:134-139 [Archive(ByteArray)]; [base] is wherever the allocator put the bytes. *)
Definition ar_new_read (base : Z) (data : list Z) : archive := mkArchive Deserializing data base 0.

(** Archive.h:141-148 [Archive(unsigned char const *, size_t)].  [p] is the pointer (None: nullptr), [data] the bytes the
    caller claims to be there, so the size is [length data]. *)
Definition ar_new_read_ptr (p : option Z) (data : list Z) : res archive :=
  match p, data with
  | None, [] => Ok (mkArchive Deserializing [] 0 0)
  | None, _ :: _ => Throw InvalidArgument
  | Some _, [] => Throw InvalidArgument
  | Some b, _ :: _ => Ok (mkArchive Deserializing data b 0)
  end.

(** Archive.h:150-160 [serialize(unsigned char const *, size_t)]; [isnull] says whether the pointer is null. *)
Definition ar_serialize_ptr (a : archive) (isnull : bool) (data : list Z) : res archive :=
  match ar_mode a with
  | Deserializing => Throw RuntimeError
  | Serializing =>
      if (isnull && negb (Nat.eqb (length data) 0)) || (negb isnull && Nat.eqb (length data) 0)
      then Throw InvalidArgument
      else Ok (mkArchive Serializing (ar_buf a ++ data) (ar_base a) (ar_pos a))
  end.

(** Archive.h:167-172 [commit]: the buffer is moved out. *)
Definition ar_commit (a : archive) : res (list Z * archive) :=
  match ar_mode a with
  | Deserializing => Throw RuntimeError
  | Serializing => Ok (ar_buf a, mkArchive Serializing [] (ar_base a) (ar_pos a))
  end.

(** Archive.h:179-187 [get_buffer_ptr]: the returned pointer is represented by the bytes from there to the end. *)
Definition ar_get_buffer_ptr (a : archive) : res (list Z) :=
  match ar_mode a with
  | Serializing => Throw RuntimeError
  | Deserializing => if Nat.eqb (ar_pos a) (length (ar_buf a)) then Throw RuntimeError else Ok (remaining a)
  end.

(** Archive.h:189-200 [update_buffer_ptr].  [_pBuffer + cDelta] is computed in a flat 64-bit address space; if the sum
    leaves it the result is undefined. *)
Definition ar_update_buffer_ptr (a : archive) (delta : Z) : res archive :=
  match ar_mode a with
  | Serializing => Throw RuntimeError
  | Deserializing =>
      let p := ar_base a + Z.of_nat (ar_pos a) + delta in
      if 18446744073709551616 <=? p then UB
      else if ar_base a + Z.of_nat (length (ar_buf a)) <? p then Throw InvalidArgument
      else Ok (mkArchive Deserializing (ar_buf a) (ar_base a) (ar_pos a + Z.to_nat delta))
  end.

(** Archive.h:202-207 [AtEnd]. *)
Definition ar_at_end (a : archive) : res bool :=
  match ar_mode a with
  | Serializing => Throw RuntimeError
  | Deserializing => Ok (Nat.eqb (ar_pos a) (length (ar_buf a)))
  end.

(** Archive.h:209-217 [clone]; [base] is the address of the copy. *)
Definition ar_clone (base : Z) (a : archive) : res archive :=
  match ar_mode a with
  | Serializing => Throw RuntimeError
  | Deserializing =>
      if Nat.eqb (ar_pos a) (length (ar_buf a)) then Throw RuntimeError
      else Ok (ar_new_read base (remaining a))
  end.

(** Object representation of an unsigned value of [w] bytes on a little-endian ([le = true]) or big-endian host. *)
Fixpoint le_bytes (w : nat) (v : Z) : list Z :=
  match w with
  | O => []
  | S w' => (v mod 256) :: le_bytes w' (v / 256)
  end.
Fixpoint le_val (bs : list Z) : Z :=
  match bs with
  | [] => 0
  | b :: r => b + 256 * le_val r
  end.
Definition obj_repr (le : bool) (w : nat) (v : Z) : list Z := if le then le_bytes w v else rev (le_bytes w v).
Definition obj_val (le : bool) (bs : list Z) : Z := if le then le_val bs else le_val (rev bs).

(** Archive.h:223-233 [swap_endian]: reverses the object representation. *)
Definition swap_endian (le : bool) (w : nat) (v : Z) : Z := obj_val le (rev (obj_repr le w v)).

(** Archive.h:235-241 [serialize_impl(value, true_type)]: the pointer is non-null, the size is sizeof(T). *)
Definition ar_serialize_native (le : bool) (w : nat) (a : archive) (v : Z) : res archive :=
  ar_serialize_ptr a false (obj_repr le w v).

(** Archive.h:162-165, 243-246 [serialize(T const &)] on a host of the given byte order. *)
Definition ar_serialize (le : bool) (w : nat) (a : archive) (v : Z) : res archive :=
  if le then ar_serialize_native le w a v
  else ar_serialize_native le w a (swap_endian le w v).

(** Archive.h:248-262 [deserialize_impl(true_type)].  Simplification: the possibly unaligned load is taken to work, as
    on the supported targets. *)
Definition ar_deserialize_native (le : bool) (w : nat) (a : archive) : res (Z * archive) :=
  match ar_mode a with
  | Serializing => Throw RuntimeError
  | Deserializing =>
      if Nat.ltb (length (ar_buf a) - ar_pos a) w then Throw RuntimeError
      else Ok (obj_val le (firstn w (remaining a)),
               mkArchive Deserializing (ar_buf a) (ar_base a) (ar_pos a + w))
  end.

(** Archive.h:174-177, 264-267 [deserialize<T>()]. *)
Definition ar_deserialize (le : bool) (w : nat) (a : archive) : res (Z * archive) :=
  if le then ar_deserialize_native le w a
  else do p <- ar_deserialize_native le w a; Ok (swap_endian le w (fst p), snd p).

(** A history of calls on one object; an exception is caught by the caller and the object used further.
    [OWrite] covers [serialize<T>], [OWritePtr] the pointer form, the rest is named as in Archive.h. *)
Inductive ar_op :=
| OWrite (w : nat) (v : Z)
| OWritePtr (isnull : bool) (data : list Z)
| OCommit
| ORead (w : nat)
| OGetPtr
| OUpdate (delta : Z)
| OAtEnd
| OClone (base : Z).

Inductive ar_out :=
| RUnit | RVal (v : Z) | RBytes (b : list Z) | RBool (b : bool) | RArchive (a : archive)
| RThrow (e : exn) | RUB.

Definition out_of {A} (r : res A) (f : A -> ar_out) : ar_out :=
  match r with Ok a => f a | Throw e => RThrow e | UB => RUB end.
Definition st_of {A} (a : archive) (r : res A) (f : A -> archive) : archive :=
  match r with Ok x => f x | _ => a end.

Definition ar_step (le : bool) (a : archive) (o : ar_op) : archive * ar_out :=
  match o with
  | OWrite w v => let r := ar_serialize le w a v in (st_of a r (fun x => x), out_of r (fun _ => RUnit))
  | OWritePtr n d => let r := ar_serialize_ptr a n d in (st_of a r (fun x => x), out_of r (fun _ => RUnit))
  | OCommit => let r := ar_commit a in (st_of a r snd, out_of r (fun x => RBytes (fst x)))
  | ORead w => let r := ar_deserialize le w a in (st_of a r snd, out_of r (fun x => RVal (fst x)))
  | OGetPtr => let r := ar_get_buffer_ptr a in (a, out_of r RBytes)
  | OUpdate d => let r := ar_update_buffer_ptr a d in (st_of a r (fun x => x), out_of r (fun _ => RUnit))
  | OAtEnd => let r := ar_at_end a in (a, out_of r RBool)
  | OClone b => let r := ar_clone b a in (a, out_of r RArchive)
  end.

Fixpoint ar_run (le : bool) (a : archive) (ops : list ar_op) : archive * list ar_out :=
  match ops with
  | [] => (a, [])
  | o :: r => let (a1, x) := ar_step le a o in
              let (a2, xs) := ar_run le a1 r in (a2, x :: xs)
  end.

(** Sequences of typed writes and reads (used by every serialize/deserialize above this layer). *)
Fixpoint ar_write_all (le : bool) (a : archive) (vs : list (nat * Z)) : res archive :=
  match vs with
  | [] => Ok a
  | (w, v) :: r => do a1 <- ar_serialize le w a v; ar_write_all le a1 r
  end.
Fixpoint ar_read_all (le : bool) (a : archive) (ws : list nat) : res (list Z * archive) :=
  match ws with
  | [] => Ok ([], a)
  | w :: r => do p <- ar_deserialize le w a;
              do q <- ar_read_all le (snd p) r;
              Ok (fst p :: fst q, snd q)
  end.

(** The same reads seen as functions from the remaining bytes to a value and the bytes left.
    P_Archive.v proves that these are what the object above does. *)
Definition parser (A : Type) := list Z -> res (A * list Z).
Definition get_fixed (w : nat) : parser Z := fun bs =>
  if Nat.ltb (length bs) w then Throw RuntimeError else Ok (le_val (firstn w bs), skipn w bs).
(** Traits.h:849-855: [get_buffer_ptr], [update_buffer_ptr(size)], copy. *)
Definition get_block (n : Z) : parser (list Z) := fun bs =>
  if n =? 0 then Ok ([], bs)
  else match bs with
       | [] => Throw RuntimeError
       | _ :: _ => if Z.of_nat (length bs) <? n then Throw InvalidArgument
                   else Ok (firstn (Z.to_nat n) bs, skipn (Z.to_nat n) bs)
       end.
Definition ar_read_block (n : Z) (a : archive) : res (list Z * archive) :=
  if n =? 0 then Ok ([], a)
  else do p <- ar_get_buffer_ptr a;
       do a' <- ar_update_buffer_ptr a n;
       Ok (firstn (Z.to_nat n) p, a').
