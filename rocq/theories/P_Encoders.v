(** C31-C34: encoders and sparse vectors. *)
From Verif Require Import Base M_Estimator M_Stats S_Stats M_Encoders S_Encoders L_Encoders L_Murmur.

(** C34. *)
Theorem C34_sparse_vector : forall (V : Type) (n : Z) (values : list (V * Z)), 0 <= n ->
  (values <> [] /\ Z.of_nat (length values) <= n /\ StronglySorted Z.lt (map snd values) ->
     sparse_make n values = Ok (mkSparse n values)) /\
  (~ (values <> [] /\ Z.of_nat (length values) <= n /\ StronglySorted Z.lt (map snd values)) ->
     sparse_make n values = Throw InvalidArgument).
Proof. exact @sparse_make_spec. Qed.
Print Assumptions C34_sparse_vector.
Theorem C34_single_value : forall (V : Type) (n : Z) (v : V) (i : Z), 0 <= n -> 0 <= i ->
  (i < n -> single_make n v i = Ok (mkSingle n v i)) /\ (n <= i -> single_make n v i = Throw InvalidArgument).
Proof. exact @single_make_spec. Qed.
Print Assumptions C34_single_value.
(** The indexes of a sparse vector are not compared with its length. *)
Example C34_index_not_bounded : sparse_make 2 [(true, 7)] = Ok (mkSparse 2 [(true, 7)]).
Proof. reflexivity. Qed.
Example C34_case : sparse_make 5 [(10, 0); (20, 3); (30, 4)] = Ok (mkSparse 5 [(10, 0); (20, 3); (30, 4)])
  /\ sparse_make 5 [(10, 0); (20, 0)] = Throw InvalidArgument /\ single_make 3 10 2 = Ok (mkSingle 3 10 2).
Proof. repeat split. Qed.

(** C31.  Trained on the items of any batches ([n] distinct values), whatever the iteration order [h'] of the histogram. *)
Theorem C31_one_hot : forall (T : Type) (eqb ltb : T -> T -> bool), total_order eqb ltb ->
  forall (mx : nat) (bs : list (list T)) (n : nat) (missing : bool),
  proper_training mx bs -> distinct_count (items mx bs) n -> Z.of_nat n <= 2 ^ 32 -> n <> 0%nat ->
  let len := Z.of_nat n + (if missing then 1 else 0) in
  exists h, trained (hist_policy eqb) mx bs = Ok (Some h) /\
  forall h', Permutation h h' ->
  exists e, onehot_make (create_index_map eqb ltb h' []) missing = Ok e /\
  exists pos : T -> Z,
    (forall x, In x (items mx bs) -> onehot_execute eqb e x = Ok (mkSingle len 1 (pos x)) /\ (if missing then 1 else 0) <= pos x < len) /\
    (forall x y, In x (items mx bs) -> In y (items mx bs) -> pos x = pos y -> x = y) /\
    (forall x, ~ In x (items mx bs) -> onehot_execute eqb e x = if missing then Ok (mkSingle len 1 0) else Throw InvalidArgument).
Proof. exact @onehot_trained. Qed.
Print Assumptions C31_one_hot.
Theorem C31_untrained_rejected : forall (T : Type) (missing : bool), onehot_make (@nil (T * Z)) missing = Throw InvalidArgument.
Proof. reflexivity. Qed.
(** With user-supplied labels that are not 0..n-1, encoding a known value may throw. *)
Theorem C31_sparse_labels_refuted : exists (labels : list (Z * Z)) x, NoDup (map fst labels) /\ NoDup (map snd labels) /\
  In x (map fst labels) /\ exists e, onehot_make labels false = Ok e /\ onehot_execute Z.eqb e x = Throw InvalidArgument.
Proof. exact onehot_sparse_labels. Qed.
Print Assumptions C31_sparse_labels_refuted.
Example C31_case : exists h e, trained (hist_policy Z.eqb) 9 [[30;10];[20;30]] = Ok (Some h) /\
  onehot_make (create_index_map Z.eqb Z.ltb h []) true = Ok e /\
  map (onehot_execute Z.eqb e) [10;20;30;99] = [Ok (mkSingle 4 1 1); Ok (mkSingle 4 1 2); Ok (mkSingle 4 1 3); Ok (mkSingle 4 1 0)] /\
  distinct_count (items 9 [[30;10];[20;30]]) 3.
Proof. do 2 eexists. repeat split. exists [30;10;20]. repeat split; cbn; try tauto. repeat constructor; cbn; lia. Qed.

(** C32. *)
Theorem C32_label_encoder : forall (T : Type) (eqb ltb : T -> T -> bool), total_order eqb ltb ->
  forall (mx : nat) (bs : list (list T)) (n : nat) (missing : bool),
  proper_training mx bs -> distinct_count (items mx bs) n -> Z.of_nat n < 2 ^ 32 ->
  exists h, trained (hist_policy eqb) mx bs = Ok (Some h) /\
  forall h', Permutation h h' ->
  exists e, label_make (create_index_map eqb ltb h' []) missing = Ok e /\
  exists label : T -> Z,
    (forall x, In x (items mx bs) -> label_execute eqb e x = Ok (label x + (if missing then 1 else 0)) /\ 0 <= label x < Z.of_nat n) /\
    (forall x y, In x (items mx bs) -> In y (items mx bs) -> label x = label y -> x = y) /\
    (forall i, 0 <= i < Z.of_nat n -> exists x, In x (items mx bs) /\ label x = i) /\
    (forall x, ~ In x (items mx bs) -> label_execute eqb e x = if missing then Ok 0 else Throw InvalidArgument).
Proof. exact @label_trained. Qed.
Print Assumptions C32_label_encoder.
Theorem C32_numericalize : forall (T : Type) (eqb ltb : T -> T -> bool), total_order eqb ltb ->
  forall (mx : nat) (bs : list (list T)) (n : nat),
  proper_training mx bs -> distinct_count (items mx bs) n -> Z.of_nat n <= 2 ^ 32 ->
  exists h, trained (hist_policy eqb) mx bs = Ok (Some h) /\
  forall h', Permutation h h' ->
  let numericalize := numericalize_execute eqb (create_index_map eqb ltb h' []) in
  (forall x, In x (items mx bs) <-> exists l, numericalize x = Some l) /\
  (forall x l, numericalize x = Some l -> 0 <= l < Z.of_nat n) /\
  (forall x y l, numericalize x = Some l -> numericalize y = Some l -> x = y) /\
  (forall l, 0 <= l < Z.of_nat n -> exists x, numericalize x = Some l) /\
  (forall x y lx ly, numericalize x = Some lx -> numericalize y = Some ly -> (ltb x y = true <-> lx < ly)).
Proof. exact @numericalize_trained. Qed.
Print Assumptions C32_numericalize.
(** At 2^32 labels with missing values allowed the last label wraps to 0, the label of unseen values. *)
Theorem C32_label_wraps_refuted : forall x : Z, label_execute Z.eqb (mkEncoder [(x, 2 ^ 32 - 1)] true) x = Ok 0.
Proof. exact label_wraps. Qed.
Print Assumptions C32_label_wraps_refuted.
Example C32_case : exists h e, trained (hist_policy Z.eqb) 9 [[30;10];[20;30]] = Ok (Some h) /\
  label_make (create_index_map Z.eqb Z.ltb h []) true = Ok e /\
  map (label_execute Z.eqb e) [10;20;30;99] = [Ok 1; Ok 2; Ok 3; Ok 0] /\
  map (numericalize_execute Z.eqb (create_index_map Z.eqb Z.ltb h [])) [10;20;30;99] = [Some 0; Some 1; Some 2; None].
Proof. do 2 eexists. repeat split. Qed.

(** C33.  [key]: the bytes of the string or of the fixed-size object. *)
Theorem C33_hash_one_hot : forall (seed cols : Z) (key : list Z) t,
  0 <= seed < 2 ^ 32 -> 0 <= cols < 2 ^ 32 -> bytes_ok key = true -> Z.of_nat (length key) < 2 ^ 31 ->
  hash_onehot_make seed cols = Ok t ->
  hash_onehot_execute t key = Ok (mkSingle cols 1 (murmur3 key seed mod cols)) /\ 0 <= murmur3 key seed mod cols < cols.
Proof. exact (fun seed cols key t => hash_onehot_spec seed cols t key). Qed.
Print Assumptions C33_hash_one_hot.
Theorem C33_no_columns_rejected : forall seed, hash_onehot_make seed 0 = Throw RuntimeError.
Proof. reflexivity. Qed.
(** The hash is MurmurHash3 x86_32; in the model a read outside of [key] is UB. *)
Theorem C33_murmur : forall (key : list Z) (seed : Z), bytes_ok key = true -> Z.of_nat (length key) < 2 ^ 31 -> 0 <= seed < 2 ^ 32 ->
  murmur_hash key seed = Ok (murmur3 key seed) /\ 0 <= murmur3 key seed < 2 ^ 32.
Proof. exact murmur_spec. Qed.
Print Assumptions C33_murmur.
(** The hash used for unordered sets and maps of string vectors. *)
Theorem C33_container_hash : forall keys, Forall (fun k => bytes_ok k = true /\ Z.of_nat (length k) < 2 ^ 31) keys ->
  container_hash keys = Ok (fold_left (fun h k => murmur3 k h) keys 0) /\ 0 <= fold_left (fun h k => murmur3 k h) keys 0 < 2 ^ 32.
Proof. exact container_hash_ok. Qed.
Print Assumptions C33_container_hash.
(** Strings of 2^31 bytes: the int length is negative and the loop reads outside of the string. *)
Theorem C33_long_strings_refuted : exists key, bytes_ok key = true /\ Z.of_nat (length key) = 2 ^ 31 /\
  forall seed, murmur_hash key seed = UB.
Proof. exact murmur_refuted. Qed.
Print Assumptions C33_long_strings_refuted.
(** Published test vectors: "", "hello", "hello, world", "The quick brown fox jumps over the lazy dog". *)
Example C33_case : murmur_hash [] 0 = Ok 0 /\ murmur_hash [] 1 = Ok 0x514E28B7 /\
  murmur_hash [104;101;108;108;111] 0 = Ok 0x248bfa47 /\
  murmur_hash [104;101;108;108;111;44;32;119;111;114;108;100] 0 = Ok 0x149bbb7f /\
  murmur_hash [0xFF;0xFF;0xFF;0xFF] 0 = Ok 0x76293B50 /\ murmur_hash [0x21;0x43;0x65;0x87] 0x5082EDEE = Ok 0x2362F9DE /\
  murmur_hash [0x21;0x43;0x65] 0 = Ok 0x7E4A8634 /\ murmur_hash [0x21;0x43] 0 = Ok 0xA0F7B07A /\ murmur_hash [0x21] 0 = Ok 0x72661CF4 /\
  exists t, hash_onehot_make 2 100 = Ok t /\ hash_onehot_execute t [104;105] = Ok (mkSingle 100 1 (murmur3 [104;105] 2 mod 100)).
Proof. do 9 (split; [vm_compute; reflexivity|]). exists (mkHashOneHot 2 100). split; vm_compute; reflexivity. Qed.
