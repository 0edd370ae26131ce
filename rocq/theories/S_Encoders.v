(** Specification vocabulary for C31-C34. *)
From Verif Require Import Base.

(** MurmurHash3 (x86, 32 bit) as published: mix each 4-byte little-endian word, then the remaining bytes, then the length. *)
Definition w32 (z : Z) : Z := z mod 2 ^ 32.
Definition rotate (x r : Z) : Z := w32 (x * 2 ^ r) + x / 2 ^ (32 - r).
Definition scramble (k : Z) : Z := w32 (rotate (w32 (k * 0xcc9e2d51)) 15 * 0x1b873593).
Definition le32 (bs : list Z) : Z := fold_right (fun b z => b + 256 * z) 0 bs.
Fixpoint mix_words (n : nat) (bs : list Z) (h : Z) : Z * list Z :=
  match n with
  | O => (h, bs)
  | S n' => mix_words n' (skipn 4 bs) (w32 (rotate (Z.lxor h (scramble (le32 (firstn 4 bs)))) 13 * 5 + 0xe6546b64))
  end.
Definition avalanche (h : Z) : Z :=
  let h := Z.lxor h (h / 2 ^ 16) in let h := w32 (h * 0x85ebca6b) in
  let h := Z.lxor h (h / 2 ^ 13) in let h := w32 (h * 0xc2b2ae35) in
  Z.lxor h (h / 2 ^ 16).
Definition murmur3 (bs : list Z) (seed : Z) : Z :=
  let (h, rest) := mix_words (length bs / 4) bs seed in
  let h := match rest with [] => h | _ => Z.lxor h (scramble (le32 rest)) end in
  avalanche (Z.lxor h (Z.of_nat (length bs))).
