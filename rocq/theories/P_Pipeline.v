(** C14-C16: pipelines. *)
From Verif Require Import Base M_Archive M_Estimator M_Pipeline S_Pipeline S_Handed L_Pipeline L_Pipeline2 L_Pipeline3 L_Handed.

(** C14.  Executing a pipeline on a sequence and flushing it delivers exactly what the stages deliver one after the other,
    each on the complete output (flush included) of the one before; and it fails exactly when one of them fails. *)
Theorem C14_composition : forall (A B : Type) (c : chain A B) (l : list A) (o : list B),
  delivered (compile c) l = (o, Ok tt) <-> staged c l = Some o.
Proof. exact @delivered_ok. Qed.
Print Assumptions C14_composition.

(** While the stream goes on (no flush yet), what has been delivered is the composition of what the stages have emitted. *)
Theorem C14_streaming : forall (A B : Type) (c : chain A B) (l : list A) (o : list B),
  (exists s, run_exec (compile c) (t_cur (compile c)) l = (o, Ok s)) <-> streamed c l = Some o.
Proof. exact @streamed_ok. Qed.
Print Assumptions C14_streaming.

(** What has been handed to the callback when the run ends, whether it ends well or with an exception somewhere: every stage
    has worked on exactly what the stages before it had handed over by then. *)
Theorem C14_handed_out : forall (A B : Type) (c : chain A B) (l : list A), fst (delivered (compile c) l) = handed_out c l.
Proof. exact @handed_out_ok. Qed.
Print Assumptions C14_handed_out.
Theorem C14_handed_on : forall (A B : Type) (c : chain A B) (l : list A), fst (run_exec (compile c) (t_cur (compile c)) l) = handed_on c l.
Proof. exact @handed_on_ok. Qed.
Print Assumptions C14_handed_on.

(** The convenience overload that returns the result succeeds exactly when one value is delivered. *)
Theorem C14_single_result : forall (A B : Type) (c : chain A B) s (a : A) (b : B) s',
  execute_one (compile c) s a = Ok (b, s') <-> t_exec (compile c) s a = ([b], Ok s').
Proof. exact (fun A B c s a b s' => execute_one_spec (compile c) s a b s'). Qed.
Print Assumptions C14_single_result.

(** A stateful three-stage pipeline: running sums, a stage that keeps everything until flush (and then emits it twice), a
    check that refuses values above 100. *)
Definition sums : transformer Z Z := mkTr Z 0 (fun s a => ([s + a], Ok (s + a))) (fun s => ([], Ok s)).
Definition holds : transformer Z Z := mkTr (list Z) [] (fun s a => ([], Ok (s ++ [a]))) (fun s => (s ++ s, Ok [])).
Definition check : transformer Z Z := mkTr unit tt (fun s a => if a <=? 100 then ([a], Ok s) else ([], Throw RuntimeError)) (fun s => ([-1], Ok s)).
Example C14_case :
  let c := InnerTr sums (InnerOther (InnerTr holds (TerminalTr check))) in
  staged c [1;2;3] = Some [1;3;6;1;3;6;-1] /\ delivered (compile c) [1;2;3] = ([1;3;6;1;3;6;-1], Ok tt) /\
  delivered (compile c) [60;50] = ([60], Throw RuntimeError) /\ staged c [60;50] = None /\ streamed c [1;2] = Some [].
Proof. repeat split. Qed.

(** The second stage emits every value twice and the third refuses after the first of them. *)
Definition twice : transformer Z Z := mkTr unit tt (fun s a => ([a; 10 * a], if a <=? 50 then Ok s else Throw InvalidArgument)) (fun s => ([0; 200; 1], Ok s)).
Example C14_handed_case :
  handed_out (InnerTr twice (TerminalTr check)) [3; 7; 12; 4] = [3; 30; 7; 70; 12] /\
  handed_out (InnerTr sums (InnerTr twice (TerminalTr sums))) [3; 48; 1] = [3; 33; 84; 594] /\
  handed_out (InnerTr twice (TerminalTr check)) [3] = [3; 30; 0] /\
  delivered (compile (InnerTr twice (TerminalTr check))) [3] = ([3; 30; 0], Throw RuntimeError).
Proof. repeat split. Qed.

(** C15.  The stages are written last one first; loading reads them back in that order and consumes exactly those bytes. *)
Theorem C15_round_trip : forall (cs : list codec), Forall round_trips cs ->
  forall (p : params cs) (rest : list Z), p_load cs (p_save cs p ++ rest) = Ok (p, rest).
Proof. exact p_roundtrip. Qed.
Print Assumptions C15_round_trip.
Theorem C15_order : forall (cs : list codec) (p : params cs), p_save cs p = concat (rev (stage_bytes cs p)).
Proof. exact p_save_order. Qed.
Print Assumptions C15_order.
Definition one_byte : codec := mkCodec Z (fun x => [x]) (fun bs => match bs with b :: r => Ok (b, r) | [] => Throw RuntimeError end).
Example C15_case : Forall round_trips [one_byte; one_byte; one_byte] /\
  p_save [one_byte; one_byte; one_byte] (1, (2, (3, tt))) = [3;2;1] /\
  p_load [one_byte; one_byte; one_byte] [3;2;1;9] = Ok ((1, (2, (3, tt))), [9]).
Proof. split; [repeat constructor|split; reflexivity]. Qed.

(** C16.  Repeated passes over the batches train each stage exactly as if it had been trained alone, on the batches as
    transformed by the trained stages before it; the driver ends with the pipeline and every stage completed. *)
Theorem C16_stage_by_stage : forall (V : Type) (batches : list (list V)), batches <> [] -> Forall (fun b => b <> []) batches ->
  forall c c' : list (elem V), stage_by_stage c batches c' ->
  exists n, forall fuel, (n <= fuel)%nat -> train pipeline_impl batches fuel (est_new c) = Some (Ok (mkEst Completed false c')).
Proof. exact (fun V b H1 H2 c c' H => pipeline_training b H1 H2 c c' H). Qed.
Print Assumptions C16_stage_by_stage.

(** For every behaviour of the stages (also with memory, flushing, throwing) and every history of calls on the pipeline:
    a stage that has begun training has only completed stages before it, and a completed pipeline has completed stages. *)
Theorem C16_in_order : forall (V : Type) (c : list (elem V)) (ops : list (eop V)),
  Forall (fun e => el_state e = Pending) c ->
  Forall (fun p => in_order (e_impl (fst p)) /\
                   (e_state (fst p) = Completed -> Forall (fun e => el_state e = Completed) (e_impl (fst p))))
         (erun pipeline_impl (est_new c) ops).
Proof. exact @run_in_order. Qed.
Print Assumptions C16_in_order.

(** Stages for the cases: [adder] learns the sum of the data and adds it; [recorder] keeps the data it is trained on;
    [buffer] is trained at once, keeps values and emits them on flush; [eager] is content with one batch. *)
Definition adder : pstage Z := mkStage Z Z
  (mkImpl (fun s => (s, Ok true)) (fun s xs => (s + fold_left Z.add xs 0, Ok FitContinue)) (fun s => (s, Ok true))
          (fun s => (s, Ok tt)) (fun s => (s, Ok (Some s))))
  true (fun t v => ([v + t], Ok t)) (fun t => ([], Ok t)).
Definition recorder : pstage Z := mkStage (list Z) unit
  (mkImpl (fun s => (s, Ok true)) (fun s xs => (s ++ xs, Ok FitContinue)) (fun s => (s, Ok true))
          (fun s => (s, Ok tt)) (fun s => (s, Ok (Some tt))))
  true (fun t v => ([v], Ok t)) (fun t => ([], Ok t)).
Definition buffer : pstage Z := mkStage unit (list Z)
  (mkImpl (fun s => (s, Ok false)) (fun s xs => (s, Ok FitComplete)) (fun s => (s, Ok true))
          (fun s => (s, Ok tt)) (fun s => (s, Ok (Some []))))
  true (fun t v => ([], Ok (t ++ [v]))) (fun t => (t, Ok [])).
Definition eager : pstage Z := mkStage (list Z) unit
  (mkImpl (fun s => (s, Ok true)) (fun s xs => (s ++ xs, Ok FitComplete)) (fun s => (s, Ok true))
          (fun s => (s, Ok tt)) (fun s => (s, Ok (Some tt))))
  true (fun t v => ([v], Ok t)) (fun t => ([], Ok t)).
Definition final_states (r : option (res (est (list (elem Z))))) : option (list tstate) :=
  match r with Some (Ok e) => Some (map el_state (e_impl e)) | _ => None end.
Definition trained_elem (s : pstage Z) (x : ps_S s) (t : ps_T s) : elem Z := mkElem s (mkEst Completed true x) (Some t).

Example C16_case :
  stage_by_stage [el_new adder 0; el_new adder 0; el_new recorder []] [[1;2];[3]]
                 [trained_elem adder 6 6; trained_elem adder 24 24; trained_elem recorder [31;32;33] tt] /\
  train pipeline_impl [[1;2];[3]] 20 (est_new [el_new adder 0; el_new adder 0; el_new recorder []]) =
  Some (Ok (mkEst Completed false [trained_elem adder 6 6; trained_elem adder 24 24; trained_elem recorder [31;32;33] tt])).
Proof.
  split; [|reflexivity].
  assert (T : forall (s : pstage Z) x t bs e1 e2, el_begin (el_new s x) = Ok e1 -> el_state e1 = Training ->
     give e1 bs = Some (e2, false) -> forall e3, el_on_data e2 = Ok e3 -> el_state e3 = Finished ->
     forall y, el_complete e3 = Ok (trained_elem s y t) -> trained_alone bs (el_new s x) (trained_elem s y t)).
  { intros s x t bs e1 e2 H1 H2 H3 e3 H4 H5 y H6. exists e1. split; [exact H1|]. eapply on_pass; eauto. now apply on_done. }
  assert (M : forall z, memoryless (trained_elem adder z z)).
  { intros z _. exists z. repeat split. }
  constructor; [|apply M|constructor; [|apply M|constructor]]; eapply T; reflexivity.
Qed.

(** Without the hypothesis that the stages before are memoryless the first claim fails: the outcome of fitting the
    values a stage emits on flush is dropped, so a later stage can complete although it never saw any data. *)
Theorem C16_flushing_stage_refuted :
  exists (c : list (elem Z)) (batches : list (list Z)),
    batches <> [] /\ Forall (fun b => b <> []) batches /\
    train pipeline_impl batches 20 (est_new c) =
      Some (Ok (mkEst Completed false [trained_elem buffer tt []; trained_elem eager [1;2] tt; trained_elem recorder [] tt])).
Proof.
  exists [el_new buffer tt; el_new eager []; el_new recorder []], [[1];[2]].
  split; [discriminate|]. split; [repeat constructor; discriminate|reflexivity].
Qed.
(** A stage with memory keeps what it saw while later stages were trained: the running sum has not restarted. *)
Definition running : pstage Z := mkStage unit Z
  (mkImpl (fun s => (s, Ok false)) (fun s xs => (s, Ok FitComplete)) (fun s => (s, Ok true))
          (fun s => (s, Ok tt)) (fun s => (s, Ok (Some 0))))
  true (fun t v => ([t + v], Ok (t + v))) (fun t => ([], Ok t)).
Theorem C16_training_leaks_into_inference_refuted :
  exists e, train pipeline_impl [[1;2]] 20 (est_new [el_new running tt; el_new recorder []]) = Some (Ok e) /\
    e_impl e = [trained_elem running tt 3; trained_elem recorder [1;3] tt].
Proof. eexists. split; reflexivity. Qed.
