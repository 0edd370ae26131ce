(** C47-C50: grained and filtered featurizers. *)
From Verif Require Import Base M_Archive M_Codec M_Estimator M_Stats M_Pipeline M_Keyed S_Keyed M_Grain S_Grain M_Filter L_Grain L_Grain2 L_Grain3 L_Grain4 L_Grain5 L_Filter L_OnePass.

(** C47.  [exec] and [flush] are those of any inner transformer; [keqb], [klt] compare grains; [rows] is any interleaving.
    When the run succeeds, what is delivered for a grain is what a transformer of its own delivers on its rows alone: the
    one stored for it, or a newly created one. *)
Theorem C47_own_rows : forall (K S A B : Type) (keqb klt : K -> K -> bool), key_order keqb klt ->
  forall (exec : S -> A -> list B * res S) (flush : S -> list B * res S) (g : grain K S) (rows : list (K * A)) (o : list (K * B)),
  map_ordered klt (g_map g) -> delivered (grain_tr keqb klt exec flush g) rows = (o, Ok tt) ->
  forall k,
    (forall s, In (k, s) (g_map g) -> delivered (mkTr S s exec flush) (of_key keqb k rows) = (of_key keqb k o, Ok tt)) /\
    (~ has_key k (g_map g) -> of_key keqb k rows <> [] ->
       exists s, g_create g = Some (Ok s) /\ delivered (mkTr S s exec flush) (of_key keqb k rows) = (of_key keqb k o, Ok tt)) /\
    (~ has_key k (g_map g) -> of_key keqb k rows = [] -> of_key keqb k o = []).
Proof. exact @grain_outputs. Qed.
Print Assumptions C47_own_rows.

(** It does succeed when every grain has a transformer that succeeds on its own rows. *)
Theorem C47_succeeds : forall (K S A B : Type) (keqb klt : K -> K -> bool), key_order keqb klt ->
  forall (exec : S -> A -> list B * res S) (flush : S -> list B * res S) (g : grain K S) (rows : list (K * A)),
  map_ordered klt (g_map g) ->
  (forall k s, In (k, s) (g_map g) -> exists ok, delivered (mkTr S s exec flush) (of_key keqb k rows) = (ok, Ok tt)) ->
  (forall k, ~ has_key k (g_map g) -> of_key keqb k rows <> [] ->
     exists s ok, g_create g = Some (Ok s) /\ delivered (mkTr S s exec flush) (of_key keqb k rows) = (ok, Ok tt)) ->
  exists o, delivered (grain_tr keqb klt exec flush g) rows = (o, Ok tt).
Proof. exact @grain_succeeds. Qed.
Print Assumptions C47_succeeds.

(** A grain without a transformer, and no creation on demand: the call throws and delivers nothing. *)
Theorem C47_unknown_grain : forall (K S A B : Type) (keqb klt : K -> K -> bool), key_order keqb klt ->
  forall (exec : S -> A -> list B * res S) (flush : S -> list B * res S) (g : grain K S) (k : K) (a : A),
  ~ has_key k (g_map g) -> g_create g = None ->
  t_exec (grain_tr keqb klt exec flush g) g (k, a) = ([], Throw RuntimeError).
Proof. exact (fun K S A B keqb klt H exec flush => grain_unknown keqb klt H exec). Qed.
Print Assumptions C47_unknown_grain.

(** When a run fails, it fails in the way the failing grain's rows alone do, and up to that row every grain got what its rows
    alone get. *)
Theorem C47_failure : forall (K S A B : Type) (keqb klt : K -> K -> bool), key_order keqb klt ->
  forall (exec : S -> A -> list B * res S) (flush : S -> list B * res S) (g : grain K S) (rows : list (K * A)) o r,
  run_exec (grain_tr keqb klt exec flush g) g rows = (o, r) -> is_ok r = false ->
  exists p k a q, rows = p ++ (k, a) :: q /\
    same_failure r (snd (run_exec (grain_tr keqb klt exec flush g) g (only keqb k (p ++ [(k, a)])))) /\
    forall k', of_key keqb k' o = of_key keqb k' (fst (run_exec (grain_tr keqb klt exec flush g) g (only keqb k' (p ++ [(k, a)])))).
Proof. exact (fun K S A B keqb klt H exec flush => grain_failure keqb klt H exec). Qed.
Print Assumptions C47_failure.

(** The constructors. *)
Theorem C47_constructors : forall (K S : Type) (m : list (K * S)) (c : option (res S)),
  (m = [] -> grain_of_map m c = Throw InvalidArgument) /\ (m <> [] -> grain_of_map m c = Ok (mkGrain true m c)) /\
  @grain_of_create K S None = Throw InvalidArgument.
Proof. exact grain_ctors. Qed.
Print Assumptions C47_constructors.

(** The grains of the library's own grained featurizers. *)
Theorem C47_string_grains : key_order names_eqb names_lt.
Proof. exact names_order. Qed.
Print Assumptions C47_string_grains.

(** A running sum that refuses negative numbers and delivers the sum again when flushed. *)
Definition sum_exec (s a : Z) : list Z * res Z := if a <? 0 then ([], Throw InvalidArgument) else ([s + a], Ok (s + a)).
Definition sum_flush (s : Z) : list Z * res Z := ([s * 1000], Ok s).
Definition A' : list (list Z) := [[65]].  Definition B' : list (list Z) := [[66];[]].  Definition C' : list (list Z) := [[67]].
Example C47_case :
  let g := mkGrain true [(A', 10); (B', 20)] None in
  let t := grain_tr names_eqb names_lt sum_exec sum_flush in
  map_ordered names_lt (g_map g) /\
  delivered (t g) [(B', 1); (A', 2); (B', 3)] = ([(B', 21); (A', 12); (B', 24); (A', 12000); (B', 24000)], Ok tt) /\
  delivered (mkTr Z 20 sum_exec sum_flush) [1; 3] = ([21; 24; 24000], Ok tt) /\
  delivered (t g) [(B', 1); (C', 2); (B', 3)] = ([(B', 21)], Throw RuntimeError) /\
  delivered (t (mkGrain true (g_map g) (Some (Ok 7)))) [(C', 2); (C', 1)] = ([(C', 9); (C', 10); (A', 10000); (B', 20000); (C', 10000)], Ok tt) /\
  delivered (t g) [(B', 1); (A', -2); (B', 3)] = ([(B', 21)], Throw InvalidArgument).
Proof. split; [repeat constructor|]. vm_compute. repeat split. Qed.

(** C48.  The inner transformer reads back what it saved as [reload s] and leaves the rest of the archive alone; the grain type has a
    round trip (C04).  Without creation on demand, [n] cycles keep every grain's transformer, and each load stops where the
    save stopped. *)
Theorem C48_cycles : forall (K S : Type) (keqb klt : K -> K -> bool), key_order keqb klt ->
  forall (kenc : K -> list Z) (kdec : parser K) (save : S -> list Z) (load : parser S) (kok : K -> Prop) (sok : S -> Prop) (reload : S -> S),
  (forall k rest, kok k -> kdec (kenc k ++ rest) = Ok (k, rest)) ->
  (forall s rest, sok s -> load (save s ++ rest) = Ok (reload s, rest) /\ sok (reload s)) ->
  forall (m : list (K * S)) (g : grain K S), map_ordered klt m -> Z.of_nat (length m) < 2 ^ 64 -> Forall (fun p => kok (fst p) /\ sok (snd p)) m ->
  grain_of_map m None = Ok g ->
  (exists bs, grain_save kenc save g = Ok bs /\
     forall further, grain_load keqb klt kdec load (bs ++ further) = Ok (mkGrain true (map (fun p => (fst p, reload (snd p))) m) None, further)) /\
  forall n, cycles (grain_save kenc save) (grain_load keqb klt kdec load) n g =
            Ok (mkGrain true (map (fun p => (fst p, Nat.iter n reload (snd p))) m) None).
Proof. exact @grain_cycles. Qed.
Print Assumptions C48_cycles.
(** In particular transformers that read back as they were saved are all still there. *)
Theorem C48_kept : forall (K S : Type) (keqb klt : K -> K -> bool), key_order keqb klt ->
  forall (kenc : K -> list Z) (kdec : parser K) (save : S -> list Z) (load : parser S) (kok : K -> Prop) (sok : S -> Prop),
  (forall k rest, kok k -> kdec (kenc k ++ rest) = Ok (k, rest)) ->
  (forall s rest, sok s -> load (save s ++ rest) = Ok (s, rest)) ->
  forall (m : list (K * S)) (g : grain K S), map_ordered klt m -> Z.of_nat (length m) < 2 ^ 64 -> Forall (fun p => kok (fst p) /\ sok (snd p)) m ->
  grain_of_map m None = Ok g ->
  forall n, cycles (grain_save kenc save) (grain_load keqb klt kdec load) n g = Ok g.
Proof. exact @grain_kept. Qed.
Print Assumptions C48_kept.
Theorem C48_string_grains : forall (k : list (list Z)) rest, wt (TVector TString) (VList (map VStr k)) = true -> names_dec (names_enc k ++ rest) = Ok (k, rest).
Proof. exact names_roundtrip. Qed.
Print Assumptions C48_string_grains.

(** With creation on demand one cycle keeps every trained grain, and grains created later start as the saved template. *)
Theorem C48_first_cycle_partial : forall (K S : Type) (keqb klt : K -> K -> bool), key_order keqb klt ->
  forall (kenc : K -> list Z) (kdec : parser K) (save : S -> list Z) (load : parser S) (kok : K -> Prop) (sok : S -> Prop) (reload : S -> S),
  (forall k rest, kok k -> kdec (kenc k ++ rest) = Ok (k, rest)) ->
  (forall s rest, sok s -> load (save s ++ rest) = Ok (reload s, rest) /\ sok (reload s)) ->
  forall (m : list (K * S)) (s0 : S) (g : grain K S), map_ordered klt m -> Z.of_nat (length m) < 2 ^ 64 -> Forall (fun p => kok (fst p) /\ sok (snd p)) m ->
  sok s0 -> save s0 <> [] ->
  grain_of_map m (Some (Ok s0)) = Ok g ->
  exists g', cycles (grain_save kenc save) (grain_load keqb klt kdec load) 1 g = Ok g' /\
    g_map g' = map (fun p => (fst p, reload (snd p))) m /\ g_create g' = Some (Ok (reload s0)).
Proof. exact @grain_first_cycle. Qed.
Print Assumptions C48_first_cycle_partial.

(** C48 is false beyond that: _hadTransformersWhenCreated is set the wrong way round by the loading constructor (line 637), so the
    second cycle loses every trained grain, whatever they are. *)
Theorem C48_second_cycle_refuted : forall (K S : Type) (keqb klt : K -> K -> bool), key_order keqb klt ->
  forall (kenc : K -> list Z) (kdec : parser K) (save : S -> list Z) (load : parser S) (kok : K -> Prop) (sok : S -> Prop) (reload : S -> S),
  (forall k rest, kok k -> kdec (kenc k ++ rest) = Ok (k, rest)) ->
  (forall s rest, sok s -> load (save s ++ rest) = Ok (reload s, rest) /\ sok (reload s)) ->
  (forall s, sok s -> save s <> []) ->
  forall (m : list (K * S)) (s0 : S) (g : grain K S), map_ordered klt m -> Z.of_nat (length m) < 2 ^ 64 -> Forall (fun p => kok (fst p) /\ sok (snd p)) m ->
  sok s0 ->
  grain_of_map m (Some (Ok s0)) = Ok g ->
  exists g', cycles (grain_save kenc save) (grain_load keqb klt kdec load) 2 g = Ok g' /\ g_map g' = [].
Proof. exact @grain_second_cycle. Qed.
Print Assumptions C48_second_cycle_refuted.
(** And with creation on demand a load leaves the bytes of the template unread, so whatever was saved behind the grained
    transformer (another stage of a pipeline, another grain) is read from the wrong place. *)
Theorem C48_position_refuted : forall (K S : Type) (keqb klt : K -> K -> bool), key_order keqb klt ->
  forall (kenc : K -> list Z) (kdec : parser K) (save : S -> list Z) (load : parser S) (kok : K -> Prop) (sok : S -> Prop) (reload : S -> S),
  (forall k rest, kok k -> kdec (kenc k ++ rest) = Ok (k, rest)) ->
  (forall s rest, sok s -> load (save s ++ rest) = Ok (reload s, rest) /\ sok (reload s)) ->
  forall (m : list (K * S)) (s0 : S) (g : grain K S), map_ordered klt m -> Z.of_nat (length m) < 2 ^ 64 -> Forall (fun p => kok (fst p) /\ sok (snd p)) m ->
  sok s0 -> save s0 <> [] ->
  grain_of_map m (Some (Ok s0)) = Ok g ->
  exists bs, grain_save kenc save g = Ok bs /\
    forall further, exists g', grain_load keqb klt kdec load (bs ++ further) = Ok (g', save s0 ++ further).
Proof. exact @grain_position. Qed.
Print Assumptions C48_position_refuted.
(** A grained transformer that was made without grains does not save the ones it has created since. *)
Theorem C48_created_not_saved : forall (K S : Type) (keqb klt : K -> K -> bool) (kenc : K -> list Z) (kdec : parser K) (save : S -> list Z) (load : parser S) (sok : S -> Prop) (reload : S -> S),
  (forall s rest, sok s -> load (save s ++ rest) = Ok (reload s, rest) /\ sok (reload s)) ->
  forall (m : list (K * S)) (s0 : S), sok s0 -> save s0 <> [] ->
  exists g', cycles (grain_save kenc save) (grain_load keqb klt kdec load) 1 (mkGrain false m (Some (Ok s0))) = Ok g' /\ g_map g' = [].
Proof. exact @grain_created_not_saved. Qed.
Print Assumptions C48_created_not_saved.
Example C48_case :
  let save := le_bytes 4 in let load := get_fixed 4 in
  let m := [(A', 10); (B', 20)] in
  let cyc := cycles (grain_save names_enc save) (grain_load names_eqb names_lt names_dec load) in
  cyc 5%nat (mkGrain true m None) = Ok (mkGrain true m None) /\
  cyc 1%nat (mkGrain true m (Some (Ok 7))) = Ok (mkGrain false m (Some (Ok 7))) /\
  cyc 2%nat (mkGrain true m (Some (Ok 7))) = Ok (mkGrain true [] (Some (Ok 7))).
Proof. vm_compute. repeat split. Qed.

(** C49.  Any inner estimator [I] (with [s0] the state of a new one, [ann] its annotation), any interleaving, any batching; [MX] is the
    grained estimator's own limit.  Every grain that occurs among the first [MX] rows gets the estimator that training on its rows
    alone gives, and the annotation says the same; the others get none. *)
Theorem C49_own_rows : forall (K S In Tr Ann : Type) (keqb klt : K -> K -> bool), key_order keqb klt ->
  forall (I : impl S In Tr) (s0 : S) (ann : S -> option Ann) (MX : nat) (batches : list (list (K * In))) (c : option (res Tr)) (e : est (gest K S Ann)),
  (1 <= MX)%nat -> Forall (fun b => b <> []) batches ->
  train (grain_impl keqb klt I s0 ann c) (est_new (gest_new MX false)) batches = Ok e ->
  forall k, let rows := of_key keqb k (firstn MX (concat batches)) in
    (rows = [] -> k_find keqb (ge_map (e_impl e)) k = None /\ (forall l, ge_ann (e_impl e) = Some l -> k_find keqb l k = None)) /\
    (rows <> [] -> exists ek, train_alone I s0 rows = Ok ek /\ k_find keqb (ge_map (e_impl e)) k = Some ek /\
        (match ge_ann (e_impl e) with Some l => k_find keqb l k | None => None end) = ann (e_impl ek)).
Proof. exact @gtrain_own. Qed.
Print Assumptions C49_own_rows.
Theorem C49_succeeds : forall (K S In Tr Ann : Type) (keqb klt : K -> K -> bool), key_order keqb klt ->
  forall (I : impl S In Tr) (s0 : S) (ann : S -> option Ann) (MX : nat) (batches : list (list (K * In))) (c : option (res Tr)),
  (1 <= MX)%nat -> Forall (fun b => b <> []) batches ->
  (forall k, of_key keqb k (firstn MX (concat batches)) <> [] -> exists ek, train_alone I s0 (of_key keqb k (firstn MX (concat batches))) = Ok ek) ->
  exists e, train (grain_impl keqb klt I s0 ann c) (est_new (gest_new MX false)) batches = Ok e.
Proof. exact @gtrain_ok. Qed.
Print Assumptions C49_succeeds.
(** The training of these theorems ([S_Grain.train]: the data once) is what the training loop (M_Pipeline.train, TestHelpers.h:43-75) does with a grained
    estimator: it never asks for a second pass. *)
Theorem C49_training_loop : forall (K S In Tr Ann : Type) (keqb klt : K -> K -> bool) (I : impl S In Tr) (s0 : S) (ann : S -> option Ann) (c : option (res Tr))
  (batches : list (list (K * In))) (fuel : nat) (e : est (gest K S Ann)), batches <> [] -> (length batches < fuel)%nat ->
  M_Pipeline.train (grain_impl keqb klt I s0 ann c) batches fuel e = Some (S_Grain.train (grain_impl keqb klt I s0 ann c) e batches).
Proof. exact @grain_loop. Qed.
Print Assumptions C49_training_loop.
(** For the estimators that only compute an annotation (C13, C18-C26): the annotation of a grain is the one its own estimator computes
    from its rows, in order. *)
Theorem C49_annotations : forall (K P In A : Type) (keqb klt : K -> K -> bool), key_order keqb klt ->
  forall (pol : policy P In A) (mx MX : nat) (batches : list (list (K * In))) (e : est (gest K tonly A)),
  (1 <= mx)%nat -> (1 <= MX)%nat -> Forall (fun b => b <> []) batches ->
  train (grain_impl keqb klt (tonly_impl pol) (tonly_new pol mx true None) (fun s => t_ann s) None) (est_new (gest_new MX false)) batches = Ok e ->
  forall k, let rows := of_key keqb k (firstn MX (concat batches)) in
    match ge_ann (e_impl e) with
    | None => rows = []
    | Some l => (rows = [] -> k_find keqb l k = None) /\ (rows <> [] -> trained pol mx [rows] = Ok (k_find keqb l k) /\ k_find keqb l k <> None)
    end.
Proof. exact @gtrain_annotations. Qed.
Print Assumptions C49_annotations.
(** The grained transformer made after training holds, for every grain, the transformer that grain's estimator makes. *)
Theorem C49_transformers : forall (K S In Tr Ann : Type) (keqb klt : K -> K -> bool), key_order keqb klt ->
  forall (I : impl S In Tr) (s0 : S) (ann : S -> option Ann) (MX : nat) (batches : list (list (K * In))) (c : option (res Tr)) (e : est (gest K S Ann)) (g : grain K Tr),
  (1 <= MX)%nat -> Forall (fun b => b <> []) batches ->
  train (grain_impl keqb klt I s0 ann c) (est_new (gest_new MX false)) batches = Ok e ->
  snd (create_transformer (grain_impl keqb klt I s0 ann c) e) = Ok g ->
  g_create g = c /\ map_ordered klt (g_map g) /\
  forall k, let rows := of_key keqb k (firstn MX (concat batches)) in
    (rows = [] -> ~ has_key k (g_map g)) /\
    (rows <> [] -> exists ek t, train_alone I s0 rows = Ok ek /\ snd (create_transformer I ek) = Ok t /\ List.In (k, t) (g_map g)).
Proof. exact @gtrain_transformers. Qed.
Print Assumptions C49_transformers.
(** No grain seen and no creation on demand: no transformer. *)
Theorem C49_nothing_to_make : forall (K S In Tr Ann : Type) (keqb klt : K -> K -> bool) (I : impl S In Tr) (s0 : S) (ann : S -> option Ann) (MX : nat) (e : est (gest K S Ann)),
  train (grain_impl keqb klt I s0 ann None) (est_new (gest_new MX false)) [] = Ok e ->
  snd (create_transformer (grain_impl keqb klt I s0 ann None) e) = Throw RuntimeError.
Proof. exact @gtrain_nothing. Qed.
Print Assumptions C49_nothing_to_make.
Example C49_case :
  let pol := simple_policy 0 (fun s x => if x <? 0 then Throw InvalidArgument else Ok (s + x)) (fun s => Ok s) in
  let tr mx MX bs := rmap (fun e => ge_ann (e_impl e)) (train (grain_impl names_eqb names_lt (tonly_impl pol) (tonly_new pol mx true None) (fun s => t_ann s) None) (est_new (gest_new MX false)) bs) in
  tr 9%nat 9%nat [[(B', 1); (A', 2)]; [(B', 3)]] = Ok (Some [(A', 2); (B', 4)]) /\
  tr 2%nat 9%nat [[(B', 1); (A', 2)]; [(B', 3); (B', 30)]] = Ok (Some [(A', 2); (B', 4)]) /\
  tr 9%nat 2%nat [[(B', 1); (A', 2); (B', 3)]] = Ok (Some [(A', 2); (B', 1)]) /\
  tr 9%nat 9%nat [[(B', 1); (A', -2)]; [(B', 3)]] = Throw InvalidArgument.
Proof. vm_compute. repeat split. Qed.

(** C50.  Row by row, the filter delivers the row followed by each output of the inner transformer on the selected columns; it fails
    when that fails. *)
Theorem C50_rows : forall (V : Type) (idx : list nat) (d : V) (t : transformer (list V) (list V)) (rows : list (list V)),
  Forall (fun x => Forall (fun i => (i < length x)%nat) idx) rows ->
  exists sel, Forall2 (selected idx) rows sel /\
    forall s, row_by_row (t_exec (filter_tr idx d t)) s rows =
      (map (fun p => map (fun o => fst p ++ o) (snd p)) (combine rows (fst (row_by_row (t_exec t) s sel))), snd (row_by_row (t_exec t) s sel)).
Proof. exact @filter_rows_spec. Qed.
Print Assumptions C50_rows.
Theorem C50_row_by_row : forall (X A B : Type) (step : X -> A -> list B * res X) (l : list A) (x : X),
  M_Pipeline.feed step x l = (concat (fst (row_by_row step x l)), snd (row_by_row step x l)).
Proof. exact row_by_row_feed. Qed.
Print Assumptions C50_row_by_row.
(** Flushing: allowed for inner transformers that deliver nothing when flushed; for the others it throws, so their last
    outputs are lost. *)
Theorem C50_flush : forall (V : Type) (idx : list nat) (d : V) (t : transformer (list V) (list V)) s,
  (forall r, t_flush t s = ([], r) -> t_flush (filter_tr idx d t) s = ([], r)) /\
  (fst (t_flush t s) <> [] -> t_flush (filter_tr idx d t) s = ([], Throw RuntimeError)).
Proof. exact (fun V idx d t s => conj (filter_flush_quiet idx d t s) (filter_flush_refused idx d t s _ eq_refl)). Qed.
Print Assumptions C50_flush.
(** Training a filter is training the inner estimator on the selected columns, row by row. *)
Theorem C50_training : forall (V : Type) (idx : list nat) (d : V) (S Tr : Type) (I : impl S (list V) Tr),
  (forall s xs, snd (i_fit I s xs) <> Ok FitReset) ->
  forall (batches : list (list (list V))) (s0 : S),
  Forall (fun b => b <> []) batches -> Forall (fun x => Forall (fun i => (i < length x)%nat) idx) (concat batches) ->
  exists sel, Forall2 (selected idx) (concat batches) sel /\
    rmap e_impl (train (filter_impl idx d I) (est_new (est_new s0)) batches) = train_alone I s0 sel.
Proof. exact @filter_train_spec. Qed.
Print Assumptions C50_training.
Theorem C50_save_load : forall (T : Type) (save : T -> list Z) (load : parser T) (t : T) (bs : list Z),
  filter_save save t = save t /\ filter_load load bs = load bs.
Proof. exact (fun T save load t bs => conj eq_refl eq_refl). Qed.
Print Assumptions C50_save_load.
Example C50_case :
  let add := mkTr unit tt (fun s x => match x with [a; b] => ([[a + b]; [a - b]], Ok s) | _ => ([], UB) end) (fun s => ([], Ok s)) in
  Forall (fun x => Forall (fun i => (i < length x)%nat) [2;0]%nat) [[1;2;3];[4;5;6]] /\
  delivered (filter_tr [2;0]%nat 0 add) [[1;2;3];[4;5;6]] = ([[1;2;3;4];[1;2;3;2];[4;5;6;10];[4;5;6;2]], Ok tt) /\
  delivered (filter_tr [2;0]%nat 0 (mkTr unit tt (t_exec add) (fun s => ([[9]], Ok s)))) [[1;2;3]] = ([[1;2;3;4];[1;2;3;2]], Throw RuntimeError) /\
  rmap (fun e => t_ann (e_impl (e_impl e))) (train (filter_impl [2]%nat 0 (tonly_impl (simple_policy 0 (fun s x => Ok (s + nth 0 x 0)) (fun s => Ok s)))) (est_new (est_new (tonly_new (simple_policy 0 (fun s x => Ok (s + nth 0 x 0)) (fun s => Ok s)) 2%nat true None)))
     [[[1;2;3];[4;5;6]];[[7;8;9]]]) = Ok (Some 9).
Proof. split; [repeat constructor|]. vm_compute. repeat split. Qed.
