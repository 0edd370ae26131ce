(** Specification vocabulary for windows, lags, pivoting and short grains (C39-C44). *)
From Verif Require Import Base M_Window.

(** The last [n] elements (all of them if there are fewer). *)
Definition lastn {A} (n : nat) (l : list A) : list A := skipn (length l - n) l.

(** What a caller sees iterating over a buffer from begin to end, and over a sub-range. *)
Definition buf_elements {T} (b : cbuf T) : res (list T) := it_walk b (S (b_max b)) (buf_begin b) (buf_end b).
Definition buf_sub {T} (b : cbuf T) (n offset : nat) : res (list T) :=
  it_walk b (S (b_max b)) (fst (buf_range b n offset)) (snd (buf_range b n offset)).
(** A use of a buffer: pushes and clears. *)
Inductive bop (T : Type) := BPush (v : T) | BClear.
Arguments BPush {T}. Arguments BClear {T}.
Definition bstep {T} (b : cbuf T) (o : bop T) : cbuf T := match o with BPush v => buf_push b v | BClear => buf_clear b end.
(** What was pushed since the last clear. *)
Definition pushed {T} (ops : list (bop T)) : list T :=
  fold_left (fun l o => match o with BPush v => l ++ [v] | BClear => [] end) ops [].

(** Row [t] (from 0), column [o]: the inputs up to and including row t - (horizon - o), of these the last [mx]. *)
Definition rows_up_to {I} (l : list I) (horizon t o : nat) : list I := firstn (t + 1 + o - horizon) l.
Definition window {I} (l : list I) (horizon mx t o : nat) : list I := lastn mx (rows_up_to l horizon t o).
Definition window_output {I O} (f : list I -> O) (null : O) (l : list I) (horizon mx mn t o : nat) : O :=
  if Nat.ltb (length (rows_up_to l horizon t o)) mn then null else f (window l horizon mx t o).

(** The input at a position that may be before the first or behind the last. *)
Definition input_at {T} (null : T) (l : list T) (i : Z) : T :=
  if i <? 0 then null else nth (Z.to_nat i) l null.
(** Row [m]: one line per delta, one column per step of the horizon. *)
Definition lag_matrix {T} (null : T) (l : list T) (horizon : Z) (deltas : list Z) (m : nat) : list (list T) :=
  map (fun d => map (fun c => input_at null l (Z.of_nat m + d - (horizon - 1 - Z.of_nat c))) (seq 0 (Z.to_nat horizon))) deltas.

(** Column [c] of a list of matrices, top to bottom, matrix after matrix. *)
Definition whole_column {T} (ms : list (matrix T)) (c : nat) : list (option T) :=
  flat_map (fun m : matrix T => map (fun row => nth c row None) (snd m)) ms.
Definition has_null {T} (l : list (option T)) : bool := existsb (fun x => match x with None => true | Some _ => false end) l.
Definition matrix_ok {T} (m : matrix T) : Prop := Forall (fun row => length row = fst m) (snd m).

(** [v] is a value of the integer type. *)
Definition fits (signed : bool) (w : nat) (v : Z) : bool := if signed then fits_s w v else fits_u w v.
