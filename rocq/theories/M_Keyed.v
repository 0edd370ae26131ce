(** The shape shared by the grained transformers (GrainFeaturizerImpl.h) and the time series imputer: a [std::map] from keys to
    the state of each key. *)
From Verif Require Import Base M_Estimator M_Stats M_Pipeline.

Section Keyed.
  Context {K S A B : Type}.
  Variable keqb klt : K -> K -> bool.          (* equality and operator< of the key *)
  (** [std::map] as the list of its entries in key order. *)
  Definition k_find (m : list (K * S)) (k : K) : option S := m_find keqb m k.
  Fixpoint k_set (m : list (K * S)) (k : K) (s : S) : list (K * S) :=
    match m with
    | [] => [(k, s)]
    | (k', s') :: r => if klt k k' then (k, s) :: m else if keqb k' k then (k, s) :: r else (k', s') :: k_set r k s
    end.
  (** Execute: find or create the state of the key (that is [step]'s business, [None] means absent; it is told the key), run, store;
      the key goes out with each value. *)
  Variable step : K -> option S -> A -> list B * res S.
  Definition keyed_exec (m : list (K * S)) (x : K * A) : list (K * B) * res (list (K * S)) :=
    let (o, r) := step (fst x) (k_find m (fst x)) (snd x) in
    (map (pair (fst x)) o, do s <- r; Ok (k_set m (fst x) s)).
  (** Flush: every entry in key order. *)
  Variable flush : S -> list B * res S.
  Fixpoint keyed_flush (m : list (K * S)) : list (K * B) * res (list (K * S)) :=
    match m with
    | [] => ([], Ok [])
    | (k, s) :: r =>
        match flush s with
        | (o, Ok s') => let (o', r') := keyed_flush r in (map (pair k) o ++ o', do m' <- r'; Ok ((k, s') :: m'))
        | (o, Throw e) => (map (pair k) o, Throw e)
        | (o, UB) => (map (pair k) o, UB)
        end
    end.
End Keyed.
