(** What a user of a grained window featurizer does with the transformer, and what he expects (C76). *)
From Verif Require Import Base M_Archive M_Pipeline M_Keyed S_Keyed S_Window.

(** A row; the end of the data; saving the transformer and going on with the one loaded from the bytes. *)
Inductive use (A : Type) := Row (a : A) | Flush | Reload.
Arguments Row {A}. Arguments Flush {A}. Arguments Reload {A}.
(** The rows since the data last ended or the transformer was last reloaded. *)
Definition since {A} (us : list (use A)) : list A :=
  fold_left (fun l u => match u with Row a => l ++ [a] | _ => [] end) us [].

(** Using a transformer, with what each use delivers. *)
Definition used {S A B} (exec : S -> A -> list B * res S) (flush : S -> list B * res S) (reload : S -> res S) (s : S) (u : use A) : list B * res S :=
  match u with Row a => exec s a | Flush => flush s | Reload => ([], reload s) end.
(** Reloading: save, load; what is left in the buffer is not looked at. *)
Definition reloaded {S} (save : S -> res (list Z)) (load : parser S) (s : S) : res S := do bs <- save s; do p <- load bs; Ok (fst p).

(** The window row for the newest of the values [l] of a grain. *)
Definition window_row {I O} (f : list I -> O) (null : O) (h mx mn : nat) (l : list I) : list O :=
  map (window_output f null l h mx mn (length l - 1)) (seq 0 h).
(** [w] are consecutive values of one grain, with no end of the data and no reload in between. *)
Definition consecutive {K I} (keqb : K -> K -> bool) (us : list (use (K * I))) (w : list I) : Prop :=
  exists k p q before after, us = p ++ q /\ of_key keqb k (since p) = before ++ w ++ after.
(** The grains can be written to an archive: fewer than 2^32 names, each of fewer than 2^32 characters. *)
Definition storable (k : list (list Z)) : Prop :=
  Z.of_nat (length k) < 2 ^ 32 /\ forall s, In s k -> Z.of_nat (length s) < 2 ^ 32 /\ forall c, In c s -> 0 <= c < 256.
(** The lag matrices that are due: of the values [l] of a grain, those whose largest offset has arrived. *)
Definition reach (deltas : list Z) : nat := fold_right (fun d n => Nat.max (Z.to_nat d) n) O deltas.
Definition lag_due {T} (null : T) (horizon : Z) (deltas : list Z) (l : list T) : list (list (list T)) :=
  if Nat.ltb (reach deltas) (length l) then [lag_matrix null l horizon deltas (length l - 1 - reach deltas)] else [].
Definition lag_left {T} (null : T) (horizon : Z) (deltas : list Z) (l : list T) : list (list (list T)) :=
  map (lag_matrix null l horizon deltas) (seq (length l - reach deltas) (Nat.min (length l) (reach deltas))).
