(** Specification vocabulary for the time series imputer (C45, C46). *)
From Verif Require Import Base S_Stats S_Impute.

Section Rows.
  Context {C : Type}.
  Notation cells := (list (option C)).
  Notation row := (bool * Z * cells)%type.              (* (was it added, time, cells) *)

  (** Rows of one key in the order of their times (equal times allowed). *)
  Definition chronological (l : list (Z * cells)) : Prop := StronglySorted (fun a b => fst a <= fst b) l.
  (** The times strictly between two observations at which a row is missing: last + frequency, last + 2 frequency, ... *)
  Definition missing (freq last t : Z) : list Z := map (fun i => last + freq * Z.of_nat i) (seq 1 (Z.to_nat ((t - last - 1) / freq))).
  (** The rows of one key with a row of nulls at every missing time. *)
  Fixpoint gaps_after (freq last : Z) (l : list (Z * cells)) : list row :=
    match l with
    | [] => []
    | (t, c) :: r => map (fun m => (true, m, repeat None (length c))) (missing freq last t) ++ (false, t, c) :: gaps_after freq t r
    end.
  Definition with_gaps (freq : Z) (l : list (Z * cells)) : list row :=
    match l with
    | [] => []
    | (t, c) :: r => (false, t, c) :: gaps_after freq t r
    end.

  Definition added (r : row) : bool := fst (fst r).
  Definition time (r : row) : Z := snd (fst r).
  (** One column. *)
  Definition column (c : nat) (rows : list row) : list (option C) := map (fun r => nth c (snd r) None) rows.
  Definition complete (r : row) : Prop := Forall (fun x => x <> None) (snd r).
  (** Neighbours in a list. *)
  Definition adjacent {A} (l : list A) (a b : A) : Prop := exists p q, l = p ++ a :: b :: q.

  (** The same rows (marks, times, widths), the cells of every column given by [f number column position]. *)
  Definition filled (out rows : list row) (f : nat -> list (option C) -> nat -> option C) : Prop :=
    map (fun r => (added r, time r, length (snd r))) out = map (fun r => (added r, time r, length (snd r))) rows /\
    forall c, pointwise (column c out) (column c rows) (fun p => Some (f c (column c rows) p)).

  (** Type ids of the floating point columns: Float16, Float32, Float64, BFloat16. *)
  Definition float_column (id : Z) : bool := existsb (Z.eqb id) [10; 11; 12; 15].

  (** For the median strategy: one type per cell, and the keys have a median per cell, or errors are suppressed. *)
  Definition covered {K} (types : list Z) (medians : K -> option (list C)) (suppress : bool) (w : nat) (ks : list K) : Prop :=
    length types = w /\ forall k, In k ks -> match medians k with Some ms => (w <= length ms)%nat | None => suppress = true end.

  (** Input rows that all have [w] cells and whose times stay in the range of the clock when a frequency is added. *)
  Definition regular {K} (freq : Z) (w : nat) (l : list (K * (Z * cells))) : Prop :=
    Forall (fun x => in_i64 (fst (snd x) + freq) = true /\ length (snd (snd x)) = w) l.
End Rows.

(** Training rows of one key: one column. *)
Definition cells_of {A} (c : nat) (rows : list (list (option A))) : list (option A) := map (fun r => nth c r None) rows.
