(** Specification vocabulary for what a transformer has handed to its callback when an exception ends the run (C14). *)
From Verif Require Import Base M_Pipeline.

(** One object: the values handed over by [execute] on the inputs in turn, up to and including the call that throws; the
    object afterwards if none did. *)
Fixpoint handed {A B} (t : transformer A B) (s : t_state t) (l : list A) : list B * option (t_state t) :=
  match l with
  | [] => ([], Some s)
  | a :: r => match t_exec t s a with
              | (o, Ok s') => (o ++ fst (handed t s' r), snd (handed t s' r))
              | (o, _) => (o, None)
              end
  end.
(** A pipeline whose input stops without a flush: every stage works on whatever the stage before has handed over. *)
Fixpoint handed_on {A B} (c : chain A B) : list A -> list B :=
  match c in chain A B return list A -> list B with
  | TerminalOther => fun l => l
  | TerminalTr t => fun l => fst (handed t (t_cur t) l)
  | InnerOther c => handed_on c
  | InnerTr t c => fun l => handed_on c (fst (handed t (t_cur t) l))
  end.
(** A pipeline that is flushed after its input: a stage is flushed when the stages before it have come to their ends without an
    exception. *)
Fixpoint handed_out {A B} (c : chain A B) : list A -> list B :=
  match c in chain A B return list A -> list B with
  | TerminalOther => fun l => l
  | TerminalTr t => fun l => match handed t (t_cur t) l with
                             | (o, Some s) => o ++ fst (t_flush t s)
                             | (o, None) => o
                             end
  | InnerOther c => handed_out c
  | InnerTr t c => fun l => match handed t (t_cur t) l with
                            | (o, Some s) => match t_flush t s with
                                             | (o', Ok _) => handed_out c (o ++ o')
                                             | (o', _) => handed_on c (o ++ o')
                                             end
                            | (o, None) => handed_on c o
                            end
  end.
