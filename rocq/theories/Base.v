(** Shared vocabulary of the model: outcomes of C++ calls, bytes, fixed-width integers. *)
From Coq Require Export List ZArith Lia Bool Permutation Sorted.
From Coq Require Export ZifyBool ZifyNat ZifyN.
Export ListNotations.
#[global] Open Scope Z_scope.
#[global] Open Scope list_scope.

(** Classes of C++ exceptions the library throws (only the class is kept, not the message). *)
Inductive exn := RuntimeError | InvalidArgument | OutOfRange | LogicError.

(** Outcome of a C++ call: a value, an exception, or undefined behaviour. *)
Inductive res (A : Type) : Type :=
| Ok (a : A)
| Throw (e : exn)
| UB.
Arguments Ok {A} a.
Arguments Throw {A} e.
Arguments UB {A}.

Definition bind {A B} (r : res A) (f : A -> res B) : res B :=
  match r with
  | Ok a => f a
  | Throw e => Throw e
  | UB => UB
  end.
Notation "'do' x <- e ; f" := (bind e (fun x => f))
  (at level 200, x pattern, e at level 100, f at level 200, right associativity).
Definition rmap {A B} (f : A -> B) (r : res A) : res B := do a <- r; Ok (f a).

Definition is_ok {A} (r : res A) : bool := match r with Ok _ => true | _ => false end.
Definition throws {A} (r : res A) : Prop := exists e, r = Throw e.

(** Bytes and [char]s. *)
Definition byte_ok (b : Z) : bool := (0 <=? b) && (b <? 256).
Definition bytes_ok (l : list Z) : bool := forallb byte_ok l.

(** Fixed-width integers.  [w] is a width in bytes. *)
Definition two_pow8 (w : nat) : Z := 256 ^ Z.of_nat w.
Definition fits_u (w : nat) (v : Z) : bool := (0 <=? v) && (v <? two_pow8 w).
Definition fits_s (w : nat) (v : Z) : bool := (- (two_pow8 w / 2) <=? v) && (v <? two_pow8 w / 2).
(** Conversion to an unsigned / signed (two's complement) type of [w] bytes. *)
Definition to_u (w : nat) (v : Z) : Z := v mod two_pow8 w.
Definition to_s (w : nat) (v : Z) : Z :=
  let u := v mod two_pow8 w in
  if u <? two_pow8 w / 2 then u else u - two_pow8 w.

Definition u32 (v : Z) : Z := v mod 4294967296.
Definition u64 (v : Z) : Z := v mod 18446744073709551616.
Definition i64_max : Z := 9223372036854775807.
Definition i64_min : Z := -9223372036854775808.
Definition in_i64 (v : Z) : bool := (i64_min <=? v) && (v <=? i64_max).

(** Monadic iteration over lists. *)
Fixpoint mapM {A B} (f : A -> res B) (l : list A) : res (list B) :=
  match l with
  | [] => Ok []
  | x :: r => do y <- f x; do ys <- mapM f r; Ok (y :: ys)
  end.

Fixpoint foldM {S A} (f : S -> A -> res S) (s : S) (l : list A) : res S :=
  match l with
  | [] => Ok s
  | x :: r => do s' <- f s x; foldM f s' r
  end.
