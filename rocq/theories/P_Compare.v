(** C87: comparing transformers with [==].  [k_eq holidays k v v']: the transformers of kind [k] with the parameters [v] and [v'] are equal to
    C++; [alike]: they are the same values to a user (S_Compare: -0 is 0, the order of an unordered container does not matter); [numeric]: without
    NaN.  [has_eq k]: [==] compares the saved members (all kinds but matrices, dates, and those without members). *)
From Coq Require Import Reals.
From Flocq Require Import Core.Core IEEE754.BinarySingleNaN.
From Verif Require Import M_Encoders M_Pipeline M_Impute M_Scale S_Order M_CompareTr S_CompareTr L_Order3 L_Order7 L_CompareTr L_CompareTr2.
From Verif Require Import Base M_Archive M_Codec M_Save M_Matrix S_Compare M_Compare M_MatrixEq L_Save L_Compare2 L_Compare3 L_MatrixEq.
Local Open Scope Z_scope.

(** Equal is: the same values, without a NaN among them. *)
Theorem C87_equal : forall hol k v v', has_eq k = true -> wt (k_ty k) v = true -> wt (k_ty k) v' = true ->
  (k_eq hol k v v' = true <-> numeric (k_ty k) v = true /\ alike (k_ty k) v v').
Proof. exact k_eq_alike. Qed.
Print Assumptions C87_equal.
(** The same for the members of any other transformer: any value of types without matrices. *)
Theorem C87_members : forall t, comparable t = true -> forall a b, wt t a = true -> wt t b = true -> (cpp_eq t a b = true <-> numeric t a = true /\ alike t a b).
Proof. exact eq_alike. Qed.
Print Assumptions C87_members.
(** [alike] means the same: it is an equivalence relation, and so is [==] among transformers without NaN. *)
Theorem C87_alike : forall t, (comparable t = true -> forall a, wt t a = true -> alike t a a) /\ (forall a b, alike t a b -> alike t b a) /\ (forall a b c, alike t a b -> alike t b c -> alike t a c).
Proof. exact (fun t => conj (alike_refl t) (conj (alike_sym t) (alike_trans t))). Qed.
Print Assumptions C87_alike.
Theorem C87_equivalence : forall hol k, has_eq k = true ->
  (forall v, wt (k_ty k) v = true -> numeric (k_ty k) v = true -> k_eq hol k v v = true) /\
  (forall v v', wt (k_ty k) v = true -> wt (k_ty k) v' = true -> k_eq hol k v v' = true -> k_eq hol k v' v = true) /\
  (forall v v' v'', wt (k_ty k) v = true -> wt (k_ty k) v' = true -> wt (k_ty k) v'' = true -> k_eq hol k v v' = true -> k_eq hol k v' v'' = true -> k_eq hol k v v'' = true).
Proof. exact k_eq_equivalence. Qed.
Print Assumptions C87_equivalence.
(** A loaded transformer equals the one that was saved. *)
Theorem C87_loaded : forall hol k v further, has_eq k = true -> wt (k_ty k) v = true -> k_construct k v = Ok v -> numeric (k_ty k) v = true ->
  exists v', k_load k (k_save k v ++ further) = Ok (v', further) /\ k_eq hol k v' v = true /\ k_eq hol k v v' = true.
Proof. exact k_eq_loaded. Qed.
Print Assumptions C87_loaded.
(** Tables (labels of the encoders, document frequencies) are equal exactly if they give the same for every key. *)
Theorem C87_tables : forall k x, keyable k = true -> comparable x = true -> forall l l', wt (TUMap k x) (VMap l) = true -> wt (TUMap k x) (VMap l') = true ->
  numeric (TUMap k x) (VMap l) = true -> numeric (TUMap k x) (VMap l') = true -> (cpp_eq (TUMap k x) (VMap l) (VMap l') = true <-> same_table k x l l').
Proof. exact tables. Qed.
Print Assumptions C87_tables.
(** Date transformers are equal exactly if their countries have the same holidays. *)
Theorem C87_dates : forall hol known c c', let table s := match s with [] => [] | _ => hol s end in
  wt (TUMap (TSInt 8) TString) (VMap (table c)) = true -> wt (TUMap (TSInt 8) TString) (VMap (table c')) = true ->
  (k_eq hol (KDateTime known) (VStr c) (VStr c') = true <-> same_table (TSInt 8) TString (table c) (table c')).
Proof. exact date_times. Qed.
Print Assumptions C87_dates.
(** Projections: [==] is reflexive and symmetric, and equal ones have matrices of the same size that agree in every cell up to the tolerance. *)
Theorem C87_matrices : forall a b, mat_eq a a /\ (mat_eq a b -> mat_eq b a) /\
  (mat_eq a b -> rows a = rows b /\ cols a = cols b /\ forall i j, (i < rows a)%nat -> (j < cols a)%nat -> (Rabs (entry a i j - entry b i j) <= TOLERANCE)%R).
Proof. exact (fun a b => conj (mat_eq_refl a) (conj (mat_eq_sym a b) (mat_eq_close a b))). Qed.
Print Assumptions C87_matrices.
(** Label encoders and one-hot encoders that are equal give the same for every value; of label encoders without missing values and of numericalize
    only those that are equal do. *)
Theorem C87_encoders : forall k, keyable k = true -> forall hol e e', wt (k_ty (KLabelEncoder k)) (members_of e) = true -> wt (k_ty (KLabelEncoder k)) (members_of e') = true ->
  k_eq hol (KLabelEncoder k) (members_of e) (members_of e') = true ->
  forall x, label_execute (key_eq k) e x = label_execute (key_eq k) e' x /\ onehot_execute (key_eq k) e x = onehot_execute (key_eq k) e' x.
Proof. exact encoders_equal. Qed.
Print Assumptions C87_encoders.
Theorem C87_label_encoder : forall k, keyable k = true -> forall hol e e', e_missing e = false -> e_missing e' = false ->
  wt (k_ty (KLabelEncoder k)) (members_of e) = true -> wt (k_ty (KLabelEncoder k)) (members_of e') = true ->
  numeric (k_ty (KLabelEncoder k)) (members_of e) = true -> numeric (k_ty (KLabelEncoder k)) (members_of e') = true ->
  (k_eq hol (KLabelEncoder k) (members_of e) (members_of e') = true <-> forall x, label_execute (key_eq k) e x = label_execute (key_eq k) e' x).
Proof. exact labels_same. Qed.
Print Assumptions C87_label_encoder.
Theorem C87_numericalize : forall k, keyable k = true -> forall hol l l', wt (k_ty (KNumericalize k)) (table_of l) = true -> wt (k_ty (KNumericalize k)) (table_of l') = true ->
  numeric (k_ty (KNumericalize k)) (table_of l) = true -> numeric (k_ty (KNumericalize k)) (table_of l') = true ->
  (k_eq hol (KNumericalize k) (table_of l) (table_of l') = true <-> forall x, numericalize_execute (key_eq k) l x = numericalize_execute (key_eq k) l' x).
Proof. exact numericalize_same. Qed.
Print Assumptions C87_numericalize.
(** Min-max scalers that are equal give the same number for every value: of one floating point type, single precision scaled in double precision, integers. *)
Theorem C87_min_max_scaler :
  (forall (p e : Z) (Hp : Prec_gt_0 p) (Hm : Prec_lt_emax p e) (s s' : binary_float p e * binary_float p e) x, mm_eq s s' = true -> same_number (mm_exec same_ty s x) (mm_exec same_ty s' x)) /\
  (forall (s s' : float32 * float32) x, mm_eq s s' = true -> same_number (mm_exec float_to_double s x) (mm_exec float_to_double s' x)) /\
  (forall (p e : Z) (Hp : Prec_gt_0 p) (Hm : Prec_lt_emax p e) (t : numty p e Z) s s' x, mm_int_eq s s' = true -> mm_exec t s x = mm_exec t s' x).
Proof. exact mm_equal_results. Qed.
Print Assumptions C87_min_max_scaler.
(** Pipelines are equal exactly if their transformers are, one by one. *)
Theorem C87_pipeline_stages : forall A B (l : line A B) (v w : members l), line_eq l v w = true <-> one_by_one l v w.
Proof. exact @pipeline_stages. Qed.
Print Assumptions C87_pipeline_stages.
(** Pipelines of any length: [==] is an equivalence relation if those of the transformers are, and if equal transformers of each class answer all calls
    alike, whatever calls are made, so do equal pipelines: the same results for all rows, the same exceptions. *)
Theorem C87_pipeline_equivalence : forall A B (l : line A B), each_class eq_equivalence l -> equivalence (line_eq l).
Proof. exact @pipeline_equivalence. Qed.
Print Assumptions C87_pipeline_equivalence.
Theorem C87_pipelines : forall A B (l : line A B), each_class eq_sound l -> forall v w, line_eq l v w = true ->
  same_behaviour (compile (line_chain l v)) (compile (line_chain l w)) /\ same_output (compile (line_chain l v)) (compile (line_chain l w)).
Proof. exact (fun A B l H v w E => conj (pipeline_same l H v w E) (same_delivered _ _ (pipeline_same l H v w E))). Qed.
Print Assumptions C87_pipelines.
(** Sparse vectors are equal exactly if they are of the same size and have equal values at the same indexes. *)
Theorem C87_sparse : forall V (veq : V -> V -> bool) n l s n' l' s', sparse_make n l = Ok s -> sparse_make n' l' = Ok s' ->
  (sparse_eq veq s s' = true <-> sp_elements s = sp_elements s' /\ forall i, opt_eq veq (value_at s i) (value_at s' i) = true).
Proof. exact @sparse_same. Qed.
Print Assumptions C87_sparse.
(** Not promised, and shown: transformers that remember values compare equal whatever they remember. *)
Theorem C87_memory_refuted : ~ (forall v w : option Z * option Z, c_eq (forward_fill Z.eqb) v w = true -> same_output (c_make (forward_fill Z.eqb) v) (c_make (forward_fill Z.eqb) w)).
Proof. exact memory_refuted. Qed.
Print Assumptions C87_memory_refuted.
(** Not promised, and shown: a transformer with a NaN does not equal itself ... *)
Theorem C87_nan_refuted : ~ (forall hol k v, has_eq k = true -> wt (k_ty k) v = true -> k_construct k v = Ok v -> k_eq hol k v v = true).
Proof. exact nan_refuted. Qed.
Print Assumptions C87_nan_refuted.
(** ... and for projections [==] is not transitive, and the results of equal ones may differ by more than 1. *)
Theorem C87_tolerance_refuted : ~ (forall a b c, mat_eq a b -> mat_eq b c -> mat_eq a c) /\
  ~ (forall a b x, mat_eq a b -> match pca_execute a x, pca_execute b x with Ok y, Ok z => forall i j, (i < rows y)%nat -> (j < cols y)%nat -> (Rabs (entry y i j - entry z i j) <= 1)%R | _, _ => True end).
Proof. exact mat_eq_refuted. Qed.
Print Assumptions C87_tolerance_refuted.

(** Label encoders with the labels of "b" and "ab": in another order equal, with another label not. *)
Example C87_case :
  let table l := VPair (VMap l) (VBool true) in let b := VStr [98] in let ab := VStr [97; 98] in let k := KLabelEncoder TString in
  let v := table [(b, VInt 1); (ab, VInt 0)] in
  has_eq k = true /\ wt (k_ty k) v = true /\ numeric (k_ty k) v = true /\ k_construct k v = Ok v /\ keyable TString = true /\
  k_eq (fun _ => []) k v (table [(ab, VInt 0); (b, VInt 1)]) = true /\ k_eq (fun _ => []) k v (table [(ab, VInt 0); (b, VInt 2)]) = false /\
  k_eq (fun _ => []) k v (table [(ab, VInt 0)]) = false /\ k_eq (fun _ => []) k v (VPair (VMap [(ab, VInt 0); (b, VInt 1)]) (VBool false)) = false /\
  k_eq (fun _ => []) (KMaxAbs (TFloat 8)) (VFloat 0) (VFloat 9223372036854775808) = true /\
  k_eq (fun c => if str_eqb c [65] then [(VInt 1, VStr [88])] else []) (KDateTime (fun _ => true)) (VStr [65]) (VStr [66]) = false.
Proof. vm_compute. repeat split; reflexivity. Qed.
(** A pipeline of an imputer (equal: the same value) and an adder, with an estimator that is no transformer between them; sparse vectors. *)
Example C87_pipeline_case :
  let fill := mkClass Z Z.eqb (fun v => per_value (fun x : option Z => match x with Some y => y | None => v end)) in
  let add := mkClass Z Z.eqb (fun v => per_value (fun x => x + v)) in
  let l := ThenTr fill (ThenOther (EndTr add)) in
  each_class eq_sound l /\ each_class eq_equivalence l /\
  line_eq l (5, 1) (5, 1) = true /\ line_eq l (5, 1) (5, 2) = false /\ line_eq l (5, 1) (4, 1) = false /\
  delivered (compile (line_chain l (5, 1))) [None; Some 7] = ([6; 8], Ok tt) /\
  line_eq (EndTr (forward_fill Z.eqb)) (None, Some 1) (None, None) = true /\
  (exists s s', sparse_make 9 [(1, 2); (0, 4)] = Ok s /\ sparse_make 9 [(1, 2)] = Ok s' /\ sparse_eq Z.eqb s s = true /\ sparse_eq Z.eqb s s' = false).
Proof.
  intros fill add l. assert (S : forall X Y (f : Z -> X -> Y), eq_sound X Y (mkClass Z Z.eqb (fun v => per_value (f v)))).
  { intros X Y f v w E. cbn in E. apply Z.eqb_eq in E. subst w. apply same_refl. }
  assert (Q : forall X Y m, eq_equivalence X Y (mkClass Z Z.eqb m)).
  { intros X Y m. split; [exact Z.eqb_refl|]. split; [exact Z.eqb_sym|]. intros u v w. cbn. rewrite !Z.eqb_eq. intros -> ->. reflexivity. }
  split; [split; [apply S|apply S]|]. split; [split; [apply Q|apply Q]|]. repeat split; try reflexivity.
  eexists. eexists. repeat split; reflexivity.
Qed.
