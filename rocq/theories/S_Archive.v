(** Specification vocabulary for archives, independent of the model's byte functions. *)
From Verif Require Import Base M_Archive.

(** The [w] bytes of [v], least significant first. *)
Definition spec_bytes (w : nat) (v : Z) : list Z :=
  map (fun i => (v / 256 ^ Z.of_nat i) mod 256) (seq 0 w).

(** A value of width [w] >= 1 bytes. *)
Definition spec_fits (p : nat * Z) : Prop := (1 <= fst p)%nat /\ 0 <= snd p < 256 ^ Z.of_nat (fst p).

(** What a writing archive answers: it remembers what was written since the last commit, refuses all reads. *)
Fixpoint spec_writer (acc : list Z) (ops : list ar_op) : list ar_out :=
  match ops with
  | [] => []
  | OWrite w v :: r => RUnit :: spec_writer (acc ++ spec_bytes w v) r
  | OWritePtr isnull data :: r =>
      if Bool.eqb isnull (match data with [] => true | _ => false end)
      then RUnit :: spec_writer (acc ++ data) r
      else RThrow InvalidArgument :: spec_writer acc r
  | OCommit :: r => RBytes acc :: spec_writer [] r
  | (ORead _ | OGetPtr | OUpdate _ | OAtEnd | OClone _) :: r => RThrow RuntimeError :: spec_writer acc r
  end.

(** Operations a caller can actually issue: widths are sizeof(T) >= 1, [size_t] is unsigned. *)
Definition op_valid (o : ar_op) : Prop :=
  match o with
  | OWrite w _ => (1 <= w)%nat
  | ORead w => (1 <= w)%nat
  | OUpdate d => 0 <= d
  | _ => True
  end.
