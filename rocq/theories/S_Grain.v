(** Specification vocabulary for grained and filtered featurizers (C47-C50). *)
From Verif Require Import Base M_Archive M_Estimator M_Stats M_Pipeline S_Keyed.

(** Entries of a [std::map]: ascending keys. *)
Definition map_ordered {K S} (klt : K -> K -> bool) (m : list (K * S)) : Prop := StronglySorted (fun a b => klt (fst a) (fst b) = true) m.
Definition has_key {K S} (k : K) (m : list (K * S)) : Prop := exists s, In (k, s) m.

(** Training one estimator, for any implementation: begin, [fit] batch after batch while it is in the Training state,
    [on_data_completed], [complete_training]; the first exception ends it. *)
Section Life.
  Context {S In Tr : Type}.
  Variable I : impl S In Tr.
  Fixpoint fit_all (e : est S) (batches : list (list In)) : res (est S) :=
    match batches with
    | [] => Ok e
    | b :: r => match e_state e with
                | Training => let (e', x) := fit I e (Some b) in do _ <- x; fit_all e' r
                | _ => Ok e
                end
    end.
  Definition train (e : est S) (batches : list (list In)) : res (est S) :=
    let (e1, r1) := begin_training I e in
    do _ <- r1;
    do e2 <- fit_all e1 batches;
    let (e3, r3) := on_data_completed I e2 in
    do _ <- r3;
    let (e4, r4) := complete_training I e3 in
    do _ <- r4; Ok e4.
  (** The estimator of one grain: its rows one at a time while it is in the Training state; no [on_data_completed]; asking for a
      reset is an error. *)
  Fixpoint fit_rows (e : est S) (rows : list In) : res (est S) :=
    match rows with
    | [] => Ok e
    | x :: r => match e_state e with
                | Training => let (e', q) := fit I e (Some [x]) in
                              do f <- q; match f with FitReset => Throw RuntimeError | _ => fit_rows e' r end
                | _ => Ok e
                end
    end.
  Definition train_alone (s0 : S) (rows : list In) : res (est S) :=
    let (e1, r1) := begin_training I (est_new s0) in
    do _ <- r1;
    do e2 <- fit_rows e1 rows;
    let (e3, r3) := complete_training I e2 in
    do _ <- r3; Ok e3.
End Life.

(** Save and load, [n] times; what is loaded must be all there was. *)
Fixpoint cycles {G} (save : G -> res (list Z)) (load : parser G) (n : nat) (g : G) : res G :=
  match n with
  | O => Ok g
  | S n' => do bs <- save g; do p <- load bs; cycles save load n' (fst p)
  end.

(** What one call delivers for each input, input by input. *)
Fixpoint row_by_row {X A B} (step : X -> A -> list B * res X) (x : X) (l : list A) : list (list B) * res X :=
  match l with
  | [] => ([], Ok x)
  | a :: r => match step x a with
              | (o, Ok x') => let (os, q) := row_by_row step x' r in (o :: os, q)
              | (o, q) => ([o], q)
              end
  end.
(** Columns [idx] of a tuple. *)
Definition selected {V} (idx : list nat) (x y : list V) : Prop :=
  length y = length idx /\ forall j i, nth_error idx j = Some i -> nth_error y j = nth_error x i.
