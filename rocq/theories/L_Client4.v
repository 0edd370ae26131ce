(** C82: the jobs of the threads, and the library's featurizers behind the C interface. *)
From Verif Require Import Base M_PointerTable M_PtConc M_Estimator M_Pipeline M_CApi S_CApi L_CApi2 L_CApi3 M_Conc S_Conc L_Conc4 L_Conc5 M_Client S_Client L_Client L_Client2 L_Client3.
Open Scope Z_scope.

Section Jobs.
  Context {S In Tr Arg Val : Type}.
  Variable I : impl S In Tr.
  Variable construct : res S.
  Variable value_of : Arg -> res In.
  Variable save_tr : Tr -> res (list Z).
  Variable load_tr : list Z -> res Tr.
  Variable exec_one : Tr -> In -> Tr * res Val.
  Variable exec_many : Tr -> In -> Tr * res (list (list Z)).
  Variable flush_many : Tr -> Tr * res (list (list Z)).
  Variable what : exn -> list Z.
  Notation ledger := (@ledger S Tr).
  Notation client := (@client Arg Val).
  Notation meets := (@meets S In Tr Arg Val I construct value_of save_tr load_tr exec_one exec_many flush_many what).
  Notation holds_after := (@holds_after S In Tr Arg Val I construct value_of save_tr load_tr exec_one exec_many flush_many what).
  Notation leads := (@leads S In Tr Arg Val I construct value_of save_tr load_tr exec_one exec_many flush_many what).
  Notation cruns := (@cruns S In Tr Arg Val I construct value_of save_tr load_tr exec_one exec_many flush_many what).
  Notation disciplined := (@disciplined S In Tr Arg Val I construct value_of save_tr load_tr exec_one exec_many flush_many what).
  Notation methods_defined := (@methods_defined S In Tr Arg Val I construct value_of save_tr load_tr exec_one exec_many flush_many).
  Notation job := (@job Arg).
  Notation program_of := (@program_of Arg Val).
  Notation job_result := (job_result I construct value_of load_tr exec_one).
  Notation executed := (@executed In Tr Arg Val value_of exec_one).
  Notation trained_in_cpp := (trained_in_cpp I construct).

  Lemma job_leads (j : job) r L : job_result j = Some r -> leads (at_end what L r) (job_calls j) L (program_of j).
  Proof using.
    destruct j as [fuel rows xs|bytes xs]; cbn [S_Client.job_result S_Client.program_of job_calls].
    - destruct (mapM value_of rows) as [vs|e|] eqn:EV; [|discriminate|discriminate]. destruct (trained_in_cpp fuel vs) as [r0|] eqn:ET; [|discriminate].
      intros E. injection E as <-. eapply tester_leads; [exact EV|exact ET].
    - destruct bytes as [|b bytes]; [discriminate|]. intros E. injection E as <-. apply loader_leads. discriminate.
  Qed.
  Section Alone.
    Variable allocate : nat -> list Z -> Z.
    Variable draws : nat -> list Z.
    Notation run := (@run S In Tr Arg Val I construct value_of save_tr load_tr exec_one exec_many flush_many what allocate draws).
    Lemma job_alone j r : allocator_ok allocate -> draws_ok draws -> draws_enough (4 * job_calls j) draws -> job_result j = Some r ->
      exists l xs w p, run start l = Some (xs, w) /\ plays (program_of j) l xs p /\ ended p.
    Proof using.
      intros Ha Hd He Hr. destruct (alone I construct value_of save_tr load_tr exec_one exec_many flush_many what allocate draws Ha Hd _ He
        (at_end what nothing r) (job_calls j) (program_of j) (job_leads j r nothing Hr) (le_n _)) as (l & xs & w & p & Q1 & Q2 & Q3 & _).
      exists l, xs, w, p. split; [exact Q1|]. split; [exact Q2|exact Q3].
    Qed.
    Lemma job_ends j r l xs w p : allocator_ok allocate -> draws_ok draws -> job_result j = Some r -> run start l = Some (xs, w) -> plays (program_of j) l xs p -> ended p ->
      ends_with what (holds_after nothing l xs) r p /\ (forall v, r = Ok v -> never_lost I construct -> w_heap w = [] /\ w_table w = []).
    Proof using.
      intros Ha Hd Hr E Pl En. pose proof (c_calls I construct value_of save_tr load_tr exec_one exec_many flush_many what allocate draws Ha Hd l xs w E) as M.
      pose proof (leads_meets _ _ _ _ _ _ _ _ _ _ _ _ _ (job_leads j r nothing Hr) l xs p M Pl En) as [Q1 Q2]. split; [exact Q1|].
      intros v Ev NL. subst r. cbn [ends_with] in Q1. subst p.
      apply (c_no_leak I construct value_of save_tr load_tr exec_one exec_many flush_many what allocate draws Ha Hd l xs w NL E).
      - eapply leads_returned; [exact (job_leads j _ nothing Hr)|exact Pl|exact M].
      - destruct (Q2 v eq_refl) as [A B]. split; [intros h; rewrite A; reflexivity|intros a; rewrite B; reflexivity].
    Qed.
    (** One client trains and saves, another one loads what was saved. *)
    Lemma saver_alone fuel rows vs t bytes l xs w p : allocator_ok allocate -> draws_ok draws -> mapM value_of rows = Ok vs -> trained_in_cpp fuel vs = Some (Ok t) -> save_tr t = Ok bytes ->
      run start l = Some (xs, w) -> plays (saver fuel rows) l xs p -> ended p ->
      exists a, p = Ends (a, Z.of_nat (length bytes)) /\ same_things (owing nothing a (Some (OBytes bytes))) (holds_after nothing l xs).
    Proof using.
      intros Ha Hd HR HT HS E Pl En. pose proof (c_calls I construct value_of save_tr load_tr exec_one exec_many flush_many what allocate draws Ha Hd l xs w E) as M.
      destruct (leads_meets _ _ _ _ _ _ _ _ _ _ _ _ _ (saver_leads I construct value_of save_tr load_tr exec_one exec_many flush_many what fuel rows vs nothing t bytes HR HT HS) l xs p M Pl En)
        as (a & Q1 & _ & Q3). exists a. split; [exact Q1|exact Q3].
    Qed.
  End Alone.

  Section Threads.
    Variable jobs : nat -> job.
    Hypothesis Hdef : methods_defined.
    Hypothesis Hres : forall i, job_result (jobs i) <> None.
    Notation result i := (match job_result (jobs i) with Some r => r | None => UB end).
    Lemma jobs_lead i : leads (at_end what nothing (result i)) (job_calls (jobs i)) nothing (program_of (jobs i)).
    Proof using Hres. apply job_leads. specialize (Hres i). destruct (job_result (jobs i)) as [r|]; [reflexivity|congruence]. Qed.
    Lemma jobs_together hist c : cruns c_start hist c -> (forall i, under_way (program_of (jobs i)) (calls_of i hist) (answers_of i hist)) ->
      disciplined new_book hist /\ own_things hist /\
      forall i p r, job_result (jobs i) = Some r -> plays (program_of (jobs i)) (calls_of i hist) (answers_of i hist) p -> ended p ->
        ends_with what (holds_after nothing (calls_of i hist) (answers_of i hist)) r p.
    Proof using Hdef Hres.
      intros R0 U. destruct (follow I construct value_of save_tr load_tr exec_one exec_many flush_many what Hdef (fun i => program_of (jobs i)) _ _ jobs_lead hist c R0 U) as [D O].
      split; [exact D|]. split; [exact O|]. intros i p r Hr Pl En.
      destruct (together I construct value_of save_tr load_tr exec_one exec_many flush_many what Hdef (fun i => program_of (jobs i)) _ _ jobs_lead hist c i p R0 U Pl En) as [Q _].
      rewrite Hr in Q. exact Q.
    Qed.
    Lemma jobs_no_leak hist c : never_lost I construct -> cruns c_start hist c -> (forall i, under_way (program_of (jobs i)) (calls_of i hist) (answers_of i hist)) ->
      (forall i, c_threads c i = Idle) -> (forall i, calls_of i hist = [] \/ exists v, plays (program_of (jobs i)) (calls_of i hist) (answers_of i hist) (Ends v)) ->
      c_heap c = [] /\ c_table c = [].
    Proof using Hdef Hres.
      intros NL R0 U Id Hd.
      apply (together_no_leak I construct value_of save_tr load_tr exec_one exec_many flush_many what Hdef (fun i => program_of (jobs i)) _ _ jobs_lead hist c NL R0 U Id).
      intros i. destruct (Hd i) as [E|[v Pl]].
      - rewrite E. split; intros h; reflexivity.
      - destruct (together I construct value_of save_tr load_tr exec_one exec_many flush_many what Hdef (fun i => program_of (jobs i)) _ _ jobs_lead hist c i (Ends v) R0 U Pl Logic.I) as [Q1 Q2].
        destruct (result i) as [v'|e|]; cbn [ends_with] in Q1; [exact (Q2 v' eq_refl)|destruct Q1 as (h & Q1 & _); discriminate Q1|discriminate Q1].
    Qed.
    Lemma jobs_no_race hist c i a : cruns c_start hist c -> (forall i, under_way (program_of (jobs i)) (calls_of i hist) (answers_of i hist)) -> touches (c_threads c i) = Some a ->
      h_find (c_heap c) a <> None /\ forall j, touches (c_threads c j) = Some a -> j = i.
    Proof using Hdef Hres.
      intros R0 U. destruct (jobs_together hist c R0 U) as [D _].
      exact (no_race I construct value_of save_tr load_tr exec_one exec_many flush_many what Hdef hist c i a R0 D).
    Qed.
  End Threads.
End Jobs.
