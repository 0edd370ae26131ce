(** What it means that a value an estimator refused leaves no trace (C79). *)
From Coq Require Import ZArith.
From Verif Require Import Base M_Estimator M_Pipeline M_Errors M_Refused.
Open Scope Z_scope.

Definition accepts {A} (r : res A) : bool := match r with Ok _ => true | _ => false end.
(** The values (or batches) whose [fit] ended normally. *)
Fixpoint accepted {U A} (us : list U) (rs : list (res A)) : list U :=
  match us, rs with
  | u :: us', r :: rs' => if accepts r then u :: accepted us' rs' else accepted us' rs'
  | _, _ => []
  end.
(** One value at a time. *)
Definition singles {T} (l : list T) : list (list T) := map (fun x => [x]) l.
(** How a [fit] ended, whatever it returned. *)
Definition ending {A} (r : res A) : res unit := match r with Ok _ => Ok tt | Throw e => Throw e | UB => UB end.

(** A [fit] that does not succeed leaves the policy as it was. *)
Definition forgetful {P In A} (t : trainee P In A) : Prop :=
  forall p x, accepts (snd (after p (f_fit t p x))) = false -> fst (after p (f_fit t p x)) = p.

(** The trainee is the policy of another property: it ends in the same way, with the same state if it succeeds. *)
Definition learns_like {P In A} (t : trainee P In A) (pol : policy P In A) : Prop :=
  f_init t = p_init pol /\ (forall p, p_begin pol p = Ok (p, true)) /\ (forall p, f_complete t p = p_complete pol p) /\
  forall p x, snd (after p (f_fit t p x)) = ending (p_fit pol p x) /\
              (forall p', p_fit pol p x = Ok p' -> fst (after p (f_fit t p x)) = p').

(** What a batch contributes: all of it, or what comes before the value that was refused in the state [p] it had led to. *)
Inductive taken {P In A} (pol : policy P In A) : P -> list (list In) -> list (res fit_result) -> list In -> Prop :=
| taken_none : forall p, taken pol p [] [] []
| taken_all : forall p b p' f bs rs l, foldM (p_fit pol) p b = Ok p' -> taken pol p' bs rs l -> taken pol p (b :: bs) (Ok f :: rs) (b ++ l)
| taken_some : forall p k x b p' e bs rs l, foldM (p_fit pol) p k = Ok p' -> p_fit pol p' x = Throw e -> taken pol p' bs rs l ->
    taken pol p ((k ++ x :: b) :: bs) (Throw e :: rs) (k ++ l).

(** From the policy [p] on, every value of the kind [ok] is refused, for ever. *)
Definition stuck {P In A} (t : trainee P In A) (p : P) (ok : In -> Prop) : Prop :=
  forall ys, Forall ok ys -> snd (tries t p ys) = map (fun _ => Throw RuntimeError) ys.

(** The rows of one grain, and how the calls with them ended. *)
Fixpoint of_grain {K V} (keqb : K -> K -> bool) (k : K) (rows : list (K * V)) : list V :=
  match rows with
  | [] => []
  | (k', v) :: r => if keqb k' k then v :: of_grain keqb k r else of_grain keqb k r
  end.
(** A grain on its own: its estimator begins training with the first row and is then given the rows one by one (unless it has finished). *)
Section Alone.
  Context {S In Tr : Type}.
  Variable I : impl S In Tr.
  Definition one_row (e : est S) (x : In) : est S * res unit :=
    match e_state e with
    | Training => let (e', r) := fit I e (Some [x]) in (e', do f <- r; match f with FitReset => Throw RuntimeError | _ => Ok tt end)
    | _ => (e, Ok tt)
    end.
  Fixpoint row_by_row (e : est S) (xs : list In) : est S * list (res unit) :=
    match xs with
    | [] => (e, [])
    | x :: r => let (e1, q) := one_row e x in let (e2, qs) := row_by_row e1 r in (e2, q :: qs)
    end.
  Definition on_its_own (s0 : S) (xs : list In) : option (est S) * list (res unit) :=
    match xs with
    | [] => (None, [])
    | _ :: _ => let (e, qs) := row_by_row (fst (begin_training I (est_new s0))) xs in (Some e, qs)
    end.
End Alone.
