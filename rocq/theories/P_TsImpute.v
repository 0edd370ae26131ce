(** C45, C46: the time series imputer. *)
From Flocq Require Import IEEE754.BinarySingleNaN.
From Verif Require Import Base M_Estimator M_Stats S_Stats M_Pipeline M_Keyed S_Keyed S_Impute M_Scale M_TsImpute S_TsImpute L_TsImpute3 L_TsImpute4 L_TsMedian.

(** The rows of each key: the input rows with exactly the missing ones inserted. *)
Theorem C45_gaps : forall (K C : Type) (keqb klt : K -> K -> bool), key_order keqb klt ->
  forall (cfg : config (K := K) (C := C)), 0 < ts_freq cfg ->
  forall w l, regular (ts_freq cfg) w l -> (forall k, chronological (of_key keqb k l)) ->
  (ts_strategy cfg = Forward \/ ts_strategy cfg = Backward \/
   ts_strategy cfg = Median /\ covered (ts_types cfg) (ts_medians cfg) (ts_suppress cfg) w (map fst l)) ->
  exists out, delivered (ts_transformer keqb klt cfg) l = (out, Ok tt) /\ forall k,
    map (fun r => (added r, time r)) (of_key keqb k out) = map (fun r => (added r, time r)) (with_gaps (ts_freq cfg) (of_key keqb k l)).
Proof. exact @gaps_top. Qed.
Print Assumptions C45_gaps.
(** The same without [with_gaps]: the rows not added are the input rows in order; neighbours are at most the frequency apart,
    an added row is exactly the frequency after the row before it and before the next row; the first and the last row are
    input rows. *)
Theorem C45_spacing : forall (K C : Type) (keqb klt : K -> K -> bool), key_order keqb klt ->
  forall (cfg : config (K := K) (C := C)), 0 < ts_freq cfg ->
  forall w l, regular (ts_freq cfg) w l -> (forall k, chronological (of_key keqb k l)) ->
  (ts_strategy cfg = Forward \/ ts_strategy cfg = Backward \/
   ts_strategy cfg = Median /\ covered (ts_types cfg) (ts_medians cfg) (ts_suppress cfg) w (map fst l)) ->
  exists out, delivered (ts_transformer keqb klt cfg) l = (out, Ok tt) /\ forall k,
    map time (filter (fun r => negb (added r)) (of_key keqb k out)) = map fst (of_key keqb k l) /\
    (forall a b, adjacent (of_key keqb k out) a b ->
       time a <= time b <= time a + ts_freq cfg /\ (added b = true -> time b = time a + ts_freq cfg) /\ (added a = true -> time a < time b)) /\
    (forall r, hd_error (of_key keqb k out) = Some r \/ hd_error (rev (of_key keqb k out)) = Some r -> added r = false).
Proof. exact @spacing_top. Qed.
Print Assumptions C45_spacing.
(** Keys do not influence each other: a key gets what it would get if only its rows were given ... *)
Theorem C45_keys_independent : forall (K C : Type) (keqb klt : K -> K -> bool), key_order keqb klt ->
  forall (cfg : config (K := K) (C := C)) l o, delivered (ts_transformer keqb klt cfg) l = (o, Ok tt) ->
  forall k, exists ok, delivered (ts_transformer keqb klt cfg) (only keqb k l) = (ok, Ok tt) /\ of_key keqb k o = of_key keqb k ok.
Proof. exact @independent_top. Qed.
Print Assumptions C45_keys_independent.
(** ... and a failure is that of one key alone. *)
Theorem C45_keys_fail_alone : forall (K C : Type) (keqb klt : K -> K -> bool), key_order keqb klt ->
  forall (cfg : config (K := K) (C := C)) l o r,
  let T := ts_transformer keqb klt cfg in
  run_exec T (t_cur T) l = (o, r) -> is_ok r = false -> exists p k x q, l = p ++ (k, x) :: q /\
    (forall k', of_key keqb k' o = of_key keqb k' (fst (run_exec T (t_cur T) (only keqb k' (p ++ [(k, x)]))))) /\
    same_failure r (snd (run_exec T (t_cur T) (only keqb k (p ++ [(k, x)])))).
Proof. exact @fails_top. Qed.
Print Assumptions C45_keys_fail_alone.
(** A row earlier than the row of its key before it is refused, whatever the frequency and strategy. *)
Theorem C45_unordered_rejected : forall (K C : Type) (keqb klt : K -> K -> bool), key_order keqb klt ->
  forall (cfg : config (K := K) (C := C)) l o m k before t0 c0 t c,
  let T := ts_transformer keqb klt cfg in
  run_exec T (t_cur T) l = (o, Ok m) -> of_key keqb k l = before ++ [(t0, c0)] -> t < t0 ->
  t_exec T m (k, (t, c)) = ([], Throw RuntimeError).
Proof. exact @unordered_top. Qed.
Print Assumptions C45_unordered_rejected.
Theorem C45_interpolate_rejected : forall (K C : Type) (keqb klt : K -> K -> bool) (cfg : config (K := K) (C := C)),
  ts_strategy cfg = Interpolate -> forall k x l,
  let T := ts_transformer keqb klt cfg in run_exec T (t_cur T) ((k, x) :: l) = ([], Throw RuntimeError).
Proof. exact @interpolate_top. Qed.
Print Assumptions C45_interpolate_rejected.

Definition zcfg s : config (K := Z) (C := Z) := mkConfig 10 [12; 1] s (fun k => if k =? 1 then Some [99; 0] else None) true.
Definition zrows : list (Z * (Z * list (option Z))) :=
  [(1, (0, [Some 7; None])); (2, (5, [None; None])); (1, (35, [None; Some 8])); (2, (10, [Some 3; Some 4])); (1, (35, [Some 1; None])); (1, (45, [None; None]))].
Lemma z_order : key_order Z.eqb Z.ltb.
Proof. repeat split; intros; try apply Z.eqb_eq; try assumption; try lia. Qed.
Lemma zrows_ok : regular 10 2 zrows /\ forall k, chronological (of_key Z.eqb k zrows).
Proof.
  split; [repeat constructor|]. intros k. unfold of_key, zrows, chronological. cbn [filter fst].
  destruct (Z.eqb_spec 1 k); destruct (Z.eqb_spec 2 k); cbn [map snd]; try (exfalso; lia); repeat constructor; cbn; lia.
Qed.
Example C45_case : regular 10 2 zrows /\ (forall k, chronological (of_key Z.eqb k zrows)) /\ key_order Z.eqb Z.ltb /\
  covered (ts_types (zcfg Median)) (ts_medians (zcfg Median)) true 2 (map fst zrows) /\
  delivered (ts_transformer Z.eqb Z.ltb (zcfg Forward)) zrows =
   ([(1, (false, 0, [Some 7; None])); (2, (false, 5, [None; None]));
     (1, (true, 10, [Some 7; None])); (1, (true, 20, [Some 7; None])); (1, (true, 30, [Some 7; None])); (1, (false, 35, [Some 7; Some 8]));
     (2, (false, 10, [Some 3; Some 4])); (1, (false, 35, [Some 1; Some 8])); (1, (false, 45, [Some 1; Some 8]))], Ok tt).
Proof.
  split; [apply zrows_ok|]. split; [apply zrows_ok|]. split; [apply z_order|]. split; [|reflexivity].
  split; [reflexivity|]. intros k H. cbn in *. repeat (destruct H as [<-|H]; [cbn; try reflexivity; lia|]). destruct H.
Qed.

(** C46. *)
Theorem C46_forward : forall (K C : Type) (keqb klt : K -> K -> bool), key_order keqb klt ->
  forall (cfg : config (K := K) (C := C)), 0 < ts_freq cfg ->
  forall w l, regular (ts_freq cfg) w l -> (forall k, chronological (of_key keqb k l)) -> ts_strategy cfg = Forward ->
  let T := ts_transformer keqb klt cfg in
  exists out, delivered T l = (out, Ok tt) /\ run_exec T (t_cur T) l = (out, snd (run_exec T (t_cur T) l)) /\
    forall k, filled (of_key keqb k out) (with_gaps (ts_freq cfg) (of_key keqb k l)) (fun _ col p => filled_forward None col p).
Proof. exact @forward_top. Qed.
Print Assumptions C46_forward.
(** Backward: what [execute] delivers (o1) are complete rows, what is kept for [flush] (o2) starts with an incomplete one. *)
Theorem C46_backward : forall (K C : Type) (keqb klt : K -> K -> bool), key_order keqb klt ->
  forall (cfg : config (K := K) (C := C)), 0 < ts_freq cfg ->
  forall w l, regular (ts_freq cfg) w l -> (forall k, chronological (of_key keqb k l)) -> ts_strategy cfg = Backward ->
  let T := ts_transformer keqb klt cfg in
  exists o1 m o2, run_exec T (t_cur T) l = (o1, Ok m) /\ t_flush T m = (o2, Ok []) /\ delivered T l = (o1 ++ o2, Ok tt) /\
    StronglySorted (fun a b => klt (fst b) (fst a) = false) o2 /\
    forall k, filled (of_key keqb k (o1 ++ o2)) (with_gaps (ts_freq cfg) (of_key keqb k l)) (fun _ col p => filled_backward None col p) /\
      Forall complete (of_key keqb k o1) /\ (forall r, hd_error (of_key keqb k o2) = Some r -> ~ complete r).
Proof. exact @emission_top. Qed.
Print Assumptions C46_backward.
(** Median: nulls in floating point columns of a key with medians take that median. *)
Theorem C46_median : forall (K C : Type) (keqb klt : K -> K -> bool), key_order keqb klt ->
  forall (cfg : config (K := K) (C := C)), 0 < ts_freq cfg ->
  forall w l, regular (ts_freq cfg) w l -> (forall k, chronological (of_key keqb k l)) -> ts_strategy cfg = Median ->
  covered (ts_types cfg) (ts_medians cfg) (ts_suppress cfg) w (map fst l) ->
  let T := ts_transformer keqb klt cfg in
  exists out, delivered T l = (out, Ok tt) /\ run_exec T (t_cur T) l = (out, snd (run_exec T (t_cur T) l)) /\
    forall k, filled (of_key keqb k out) (with_gaps (ts_freq cfg) (of_key keqb k l))
      (fun c col p => match nth p col None with
                      | Some v => Some v
                      | None => if float_column (nth c (ts_types cfg) 0) then match ts_medians cfg k with Some ms => nth_error ms c | None => None end else None
                      end).
Proof. exact @median_top. Qed.
Print Assumptions C46_median.
(** No strategy changes a cell that is not null. *)
Theorem C46_values_kept : forall (K C : Type) (keqb klt : K -> K -> bool), key_order keqb klt ->
  forall (cfg : config (K := K) (C := C)), 0 < ts_freq cfg ->
  forall w l, regular (ts_freq cfg) w l -> (forall k, chronological (of_key keqb k l)) ->
  (ts_strategy cfg = Forward \/ ts_strategy cfg = Backward \/
   ts_strategy cfg = Median /\ covered (ts_types cfg) (ts_medians cfg) (ts_suppress cfg) w (map fst l)) ->
  exists out, delivered (ts_transformer keqb klt cfg) l = (out, Ok tt) /\ forall k c p v,
    nth_error (column c (with_gaps (ts_freq cfg) (of_key keqb k l))) p = Some (Some v) ->
    nth_error (column c (of_key keqb k out)) p = Some (Some v).
Proof. exact @kept_top. Qed.
Print Assumptions C46_values_kept.
Example C46_case :
  run_exec (ts_transformer Z.eqb Z.ltb (zcfg Backward)) [] zrows =
   ([(1, (false, 0, [Some 7; Some 8])); (2, (false, 5, [Some 3; Some 4])); (2, (false, 10, [Some 3; Some 4]));
     (1, (true, 10, [Some 1; Some 8])); (1, (true, 20, [Some 1; Some 8])); (1, (true, 30, [Some 1; Some 8])); (1, (false, 35, [Some 1; Some 8]))],
    snd (run_exec (ts_transformer Z.eqb Z.ltb (zcfg Backward)) [] zrows))
  /\ fst (delivered (ts_transformer Z.eqb Z.ltb (zcfg Backward)) zrows) =
     fst (run_exec (ts_transformer Z.eqb Z.ltb (zcfg Backward)) [] zrows) ++ [(1, (false, 35, [Some 1; None])); (1, (false, 45, [None; None]))]
  /\ delivered (ts_transformer Z.eqb Z.ltb (zcfg Median)) zrows =
   ([(1, (false, 0, [Some 7; None])); (2, (false, 5, [None; None]));
     (1, (true, 10, [Some 99; None])); (1, (true, 20, [Some 99; None])); (1, (true, 30, [Some 99; None])); (1, (false, 35, [Some 99; Some 8]));
     (2, (false, 10, [Some 3; Some 4])); (1, (false, 35, [Some 1; None])); (1, (false, 45, [Some 99; None]))], Ok tt).
Proof. repeat split. Qed.
(** What training computes for the median strategy: the sum of the values (in IEEE double arithmetic, in order) divided by their
    number. *)
Theorem C46_training : forall (K : Type) (keqb klt : K -> K -> bool), key_order keqb klt -> forall types mx bs,
  proper_training mx bs -> Forall (fun x => length (snd x) = length types) (items mx bs) ->
  (forall k c, of_key keqb k (items mx bs) <> [] -> (c < length types)%nat -> float_column (nth c types 0) = true ->
     somes (cells_of c (of_key keqb k (items mx bs))) <> []) ->
  exists m, trained (med_policy keqb klt types) mx bs = Ok (Some m) /\ forall k,
    match m_find keqb m k with
    | Some v => of_key keqb k (items mx bs) <> [] /\ length v = length types /\
        forall c, (c < length types)%nat -> float_column (nth c types 0) = true ->
          let col := somes (cells_of c (of_key keqb k (items mx bs))) in
          nth c v fzero = fdiv (fold_left fadd col fzero) (of_int (Z.of_nat (length col)))
    | None => of_key keqb k (items mx bs) = []
    end.
Proof. exact @training_ok. Qed.
Print Assumptions C46_training.
(** A floating point column without a value for some key makes training throw (under every strategy: the median estimator is
    always part of the pipeline). *)
Theorem C46_training_rejected : forall (K : Type) (keqb klt : K -> K -> bool), key_order keqb klt -> forall types mx bs,
  proper_training mx bs -> Forall (fun x => length (snd x) = length types) (items mx bs) ->
  forall k c, of_key keqb k (items mx bs) <> [] -> (c < length types)%nat -> float_column (nth c types 0) = true ->
  somes (cells_of c (of_key keqb k (items mx bs))) = [] ->
  trained (med_policy keqb klt types) mx bs = Throw RuntimeError.
Proof. exact @training_bad. Qed.
Print Assumptions C46_training_rejected.
(** So the "median" is the mean: of 1, 1, 10 it is 4, which is none of the values and above two of the three. *)
Theorem C46_median_refuted : exists bs : list (list (Z * list (option (binary_float 53 1024)))), proper_training 9 bs /\
  somes (cells_of 0 (of_key Z.eqb 1 (items 9 bs))) = [of_int 1; of_int 1; of_int 10] /\
  rmap (option_map (map (fun e => (fst e, map B2SF (snd e))))) (trained (med_policy Z.eqb Z.ltb [12]) 9 bs) = Ok (Some [(1, [B2SF (of_int (prec := 53) (emax := 1024) 4)])]).
Proof. exists [[(1, [Some (of_int 1)]); (1, [Some (of_int 1)])]; [(1, [Some (of_int 10)])]]. split; [split; repeat constructor; discriminate|]. split; [reflexivity|]. vm_compute. reflexivity. Qed.
Print Assumptions C46_median_refuted.
Example C46_training_case : let bs : list (list (Z * list (option (binary_float 53 1024)))) := [[(1, [Some (of_int 3); None]); (2, [Some (of_int 1); None])]; [(1, [None; Some (of_int 7)])]] in
  proper_training 9 bs /\ Forall (fun x => length (snd x) = length [12; 1]) (items 9 bs) /\
  (forall k c, of_key Z.eqb k (items 9 bs) <> [] -> (c < 2)%nat -> float_column (nth c [12; 1] 0) = true ->
     somes (cells_of c (of_key Z.eqb k (items 9 bs))) <> []) /\
  trained (med_policy Z.eqb Z.ltb [12; 12]) 9 bs = Throw RuntimeError.
Proof.
  split; [split; repeat constructor; discriminate|]. split; [repeat constructor|]. split; [|reflexivity].
  intros k c Hk Hc Hf. destruct c as [|[|c]]; [|discriminate|lia]. revert Hk. unfold of_key, cells_of, somes, items. cbn [firstn concat app map filter fst snd flat_map].
  destruct (1 =? k); destruct (2 =? k); cbn [app map filter fst snd flat_map nth]; intros H; try discriminate; exfalso; apply H; reflexivity.
Qed.
