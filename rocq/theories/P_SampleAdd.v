(** C85: the sample estimator, from training to a loaded transformer. *)
From Verif Require Import Base M_Estimator M_Pipeline M_SampleAdd S_SampleAdd L_SampleAdd.

(** Trained as TestHelpers.h:43-75 does, on any non-empty batches, it adds the sum of all the values, modulo 2^32. *)
Theorem C85_trained : forall (bs : list (list Z)) (fuel : nat), bs <> [] -> Forall (fun b => b <> []) bs -> (length bs < fuel)%nat ->
  exists e e' delta, train sample_impl bs fuel (est_new 0) = Some (Ok e) /\ create_transformer sample_impl e = (e', Ok delta) /\
    forall x, sample_exec delta x = (x + sum_of (concat bs)) mod 2 ^ 32.
Proof.
  intros bs fuel N F Hf. destruct (sample_trained bs fuel N F Hf) as (e & e' & A & B). exists e, e', (sum_of (concat bs) mod 2 ^ 32). split; [exact A|]. split; [exact B|]. intros x. apply sample_exec_sum.
Qed.
Print Assumptions C85_trained.
(** Neither the batches nor the order of the values matter. *)
Theorem C85_order : forall (bs bs' : list (list Z)) (fuel fuel' : nat), bs <> [] -> bs' <> [] -> Forall (fun b => b <> []) bs -> Forall (fun b => b <> []) bs' ->
  (length bs < fuel)%nat -> (length bs' < fuel')%nat -> Permutation (concat bs) (concat bs') ->
  exists e e1 e' e1' delta, train sample_impl bs fuel (est_new 0) = Some (Ok e) /\ create_transformer sample_impl e = (e1, Ok delta) /\
    train sample_impl bs' fuel' (est_new 0) = Some (Ok e') /\ create_transformer sample_impl e' = (e1', Ok delta).
Proof.
  intros bs bs' f f' N N' F F' H H' P. destruct (sample_trained bs f N F H) as (e & e1 & A & B). destruct (sample_trained bs' f' N' F' H') as (e' & e1' & A' & B').
  exists e, e1, e', e1', (sum_of (concat bs) mod 2 ^ 32). rewrite (sum_of_perm _ _ P) in *. auto.
Qed.
Print Assumptions C85_order.
(** Saved and loaded, also in the middle of a longer archive, it adds the same number. *)
Theorem C85_saved : forall (delta : Z) (further : list Z), 0 <= delta < 2 ^ 32 ->
  sample_save delta = [1; 0; 0; 0; delta mod 256; delta / 2 ^ 8 mod 256; delta / 2 ^ 16 mod 256; delta / 2 ^ 24 mod 256] /\
  sample_load (sample_save delta ++ further) = Ok (delta, further).
Proof. exact (fun d f H => conj (sample_layout d H) (sample_saved d f H)). Qed.
Print Assumptions C85_saved.
Example C85_case :
  match train sample_impl [[65535; 2]; [3]] 9 (est_new 0) with
  | Some (Ok e) => match snd (create_transformer sample_impl e) with
                   | Ok d => (d =? 65540) && (sample_exec d 5 =? 65545) && match sample_load (sample_save d ++ [9]) with Ok (d', r) => (d' =? d) && Nat.eqb (length r) 1 | _ => false end
                   | _ => false end
  | _ => false end = true /\ sample_exec (2 ^ 32 - 1) 5 = 4.
Proof. split; reflexivity. Qed.
