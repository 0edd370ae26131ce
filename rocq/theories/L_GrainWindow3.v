(** Parameters of the grained window featurizers; construction without training (C76). *)
From Verif Require Import Base L_List M_Archive M_Codec M_Save M_Estimator M_Pipeline M_Keyed M_Grain S_Grain.
From Verif Require Import M_Window S_Window M_GrainWindow S_GrainWindow.

Lemma rw_params : forall (I : Type) c (h mx mn : nat),
  ((h = 0 \/ mx = 0 \/ mn = 0 \/ mx < mn)%nat -> rw_estimator h mx mn = Throw InvalidArgument /\ rw_new (I := I) c h mx mn = Throw InvalidArgument) /\
  ((1 <= h /\ 1 <= mn /\ mn <= mx)%nat -> rw_estimator h mx mn = Ok tt /\ (Z.of_nat (h + mx) < 2 ^ 32 -> exists r, rw_new (I := I) c h mx mn = Ok r)).
Proof.
  intros I c h mx mn. unfold rw_estimator, rw_new.
  destruct (Nat.ltb_spec h 1) as [A|A]; [split; [auto|lia]|]. destruct (Nat.ltb_spec mx 1) as [B|B]; [split; [auto|lia]|].
  destruct (Nat.ltb_spec mn 1) as [C|C]; [split; [auto|lia]|]. destruct (Nat.ltb_spec mx mn) as [D|D]; [split; [auto|lia]|].
  split; [lia|]. intros _. split; [reflexivity|]. intros L. assert (E : Z.to_nat (u32 (Z.of_nat h + Z.of_nat mx)) = (h + mx)%nat). { unfold u32. rewrite Z.mod_small; lia. }
  rewrite E. unfold buf_new. destruct (Nat.eqb_spec (h + mx) 0); [lia|]. eexists. reflexivity.
Qed.
Lemma lag_params : forall (T : Type) (null : T) (horizon : Z) (deltas : list Z),
  (horizon = 0 \/ deltas = [] -> lag_estimator horizon deltas = Throw InvalidArgument /\ lag_new null horizon deltas = Throw InvalidArgument) /\
  (horizon <> 0 -> deltas <> [] -> lag_estimator horizon deltas = Ok tt).
Proof.
  intros T null horizon deltas. unfold lag_estimator, lag_new. destruct (Z.eqb_spec horizon 0) as [A|A]; [split; [auto|congruence]|].
  destruct deltas as [|d r]; [split; [auto|congruence]|]. split; [intros [X|X]; congruence|reflexivity].
Qed.

Lemma untrained : forall (K In Tr : Type) (keqb klt : K -> K -> bool) (t : res Tr) (create : res Tr) (max_items : nat),
  let I := grain_impl (Ann := unit) keqb klt (untrained_impl (In := In) t) tt (fun _ => None) (Some create) in
  exists e1 e2 e3, begin_training I (est_new (gest_new max_items true)) = (e1, Ok tt) /\ e_state e1 = Finished /\
    (forall xs, fit I e1 xs = (e1, Throw RuntimeError)) /\ on_data_completed I e1 = (e1, Ok tt) /\
    complete_training I e1 = (e2, Ok tt) /\ create_transformer I e2 = (e3, Ok (mkGrain false [] (Some create))).
Proof. intros K In Tr keqb klt t create max_items. cbv zeta. eexists _, _, _. repeat split; reflexivity. Qed.

Lemma huge_window : forall (I O : Type) (calcs : Z -> list I -> res O) (null : O) c (h mx mn : nat) k x, (1 <= h /\ 1 <= mn /\ mn <= mx)%nat -> Z.of_nat (h + mx) = 2 ^ 32 ->
  rw_estimator h mx mn = Ok tt /\ window_exec calcs null (mkGrain false [] (Some (rw_new c h mx mn))) (k, x) = ([], Throw InvalidArgument).
Proof.
  intros I O calcs null c h mx mn k x H L. split; [exact (proj1 (proj2 (rw_params I c h mx mn) H))|].
  assert (E : rw_new (I := I) c h mx mn = Throw InvalidArgument).
  { unfold rw_new. destruct (Nat.ltb_spec h 1); [reflexivity|]. destruct (Nat.ltb_spec mx 1); [reflexivity|]. destruct (Nat.ltb_spec mn 1); [reflexivity|]. destruct (Nat.ltb_spec mx mn); [reflexivity|].
    assert (E : u32 (Z.of_nat h + Z.of_nat mx) = 0). { unfold u32. replace (Z.of_nat h + Z.of_nat mx) with (2 ^ 32) by lia. reflexivity. }
    rewrite E. reflexivity. }
  rewrite E. reflexivity.
Qed.
