From Verif Require Import Base L_List M_Estimator M_Stats S_Stats L_Estimator L_Stats L_Stats2 L_Stats3 M_Encoders S_Encoders L_Archive.

(** * Sparse vectors *)
Lemma sparse_ordered_iff {V} (l : list (V * Z)) : forall prev,
  sparse_ordered false prev l = true <-> StronglySorted Z.lt (prev :: map snd l).
Proof.
  induction l as [|[v i] r IH]; intros prev; cbn [sparse_ordered map snd].
  - split; auto. intros _. constructor; constructor.
  - cbn [negb]. rewrite andb_true_r. destruct (Z.leb_spec i prev).
    + split; [discriminate|]. intros H1. inversion H1 as [|? ? _ HF]; subst. inversion HF; subst. lia.
    + rewrite IH. split; intros H1.
      * constructor; [exact H1|]. inversion H1 as [|? ? _ HF]; subst. constructor; [lia|].
        eapply Forall_impl; [|exact HF]. cbn. intros; lia.
      * inversion H1; assumption.
Qed.
Lemma sparse_ordered_first {V} (l : list (V * Z)) prev :
  sparse_ordered true prev l = true <-> StronglySorted Z.lt (map snd l).
Proof.
  destruct l as [|[v i] r]; cbn [sparse_ordered map snd].
  - split; auto. intros _. constructor.
  - cbn [negb]. rewrite andb_false_r. apply sparse_ordered_iff.
Qed.
Lemma sparse_make_spec {V} n (values : list (V * Z)) : 0 <= n ->
  (values <> [] /\ Z.of_nat (length values) <= n /\ StronglySorted Z.lt (map snd values) ->
     sparse_make n values = Ok (mkSparse n values)) /\
  (~ (values <> [] /\ Z.of_nat (length values) <= n /\ StronglySorted Z.lt (map snd values)) ->
     sparse_make n values = Throw InvalidArgument).
Proof.
  intros Hn. unfold sparse_make. split.
  - intros (H1 & H2 & H3). destruct values as [|x r]; [congruence|].
    destruct (Z.eqb_spec n 0); [subst; cbn [length] in H2; lia|].
    destruct (Z.ltb_spec n (Z.of_nat (length (x :: r)))); [lia|].
    apply (sparse_ordered_first _ 0) in H3. rewrite H3. reflexivity.
  - intros H. destruct (Z.eqb_spec n 0); [reflexivity|].
    destruct (Z.ltb_spec n (Z.of_nat (length values))); [reflexivity|].
    destruct values as [|x r]; [reflexivity|].
    destruct (sparse_ordered true 0 (x :: r)) eqn:E; [|reflexivity].
    exfalso. apply H. repeat split; [discriminate|lia|]. apply (sparse_ordered_first _ 0). exact E.
Qed.
Lemma single_make_spec {V} n (v : V) i : 0 <= n -> 0 <= i ->
  (i < n -> single_make n v i = Ok (mkSingle n v i)) /\ (n <= i -> single_make n v i = Throw InvalidArgument).
Proof.
  intros Hn Hi. unfold single_make. split; intros H; destruct (Z.eqb_spec n 0); try lia; auto;
    destruct (Z.leb_spec n i); auto; lia.
Qed.

(** * Label maps *)
Section Labels.
  Context {T : Type} (eqb : T -> T -> bool).
  Hypothesis Heq : forall x y, eqb x y = true <-> x = y.

  Lemma m_find_in (m : list (T * Z)) k v : NoDup (map fst m) -> (m_find eqb m k = Some v <-> In (k, v) m).
  Proof.
    induction m as [|[x w] r IH]; cbn [m_find map fst]; intros Hn.
    - split; [discriminate|contradiction].
    - inversion Hn as [|? ? Hx Hr]; subst. destruct (eqb x k) eqn:E.
      + apply Heq in E. subst x. split.
        * intros [= ->]. now left.
        * intros [[= ->]|Hin]; [reflexivity|]. exfalso. apply Hx. change k with (fst (k, v)). now apply in_map.
      + rewrite (IH Hr). split; [now right|]. intros [[= -> ->]|Hin]; [|exact Hin].
        exfalso. assert (eqb k k = true) by now apply Heq. congruence.
  Qed.
  Lemma m_find_none (m : list (T * Z)) k : m_find eqb m k = None <-> ~ In k (map fst m).
  Proof.
    induction m as [|[x w] r IH]; cbn [m_find map fst In].
    - split; auto.
    - destruct (eqb x k) eqn:E.
      + apply Heq in E. subst x. split; [discriminate|]. intros H. exfalso. apply H. now left.
      + rewrite IH. split; intros H; [|tauto]. intros [->|Hin]; [|tauto].
        assert (eqb k k = true) by now apply Heq. congruence.
  Qed.

  (** A dense label map: labels 0..n-1, each once. *)
  Definition dense (m : list (T * Z)) : Prop :=
    NoDup (map fst m) /\ Permutation (map snd m) (map Z.of_nat (seq 0 (length m))).

  Lemma dense_range m k v : dense m -> In (k, v) m -> 0 <= v < Z.of_nat (length m).
  Proof using Type. clear Heq eqb.
    intros [_ Hp] Hin. apply (in_map snd) in Hin. cbn [snd] in Hin.
    apply (Permutation_in _ Hp) in Hin. apply in_map_iff in Hin. destruct Hin as [n [<- Hn]]. apply in_seq in Hn. lia.
  Qed.
  Lemma nodup_map_inj {A B} (f : A -> B) (l : list A) x y : NoDup (map f l) -> In x l -> In y l -> f x = f y -> x = y.
  Proof using Type. clear Heq eqb.
    induction l as [|a r IH]; cbn; intros Hn Hx Hy Hf; [contradiction|].
    inversion Hn as [|? ? Ha Hr]; subst.
    destruct Hx as [->|Hx], Hy as [->|Hy]; auto.
    - exfalso. apply Ha. rewrite Hf. now apply in_map.
    - exfalso. apply Ha. rewrite <- Hf. now apply in_map.
  Qed.
  Lemma dense_inj m k1 k2 v : dense m -> In (k1, v) m -> In (k2, v) m -> k1 = k2.
  Proof using Type. clear Heq eqb.
    intros [_ Hp] H1 H2. enough ((k1, v) = (k2, v)) by congruence.
    eapply (nodup_map_inj snd); eauto. eapply Permutation_NoDup; [symmetry; exact Hp|].
    apply FinFun.Injective_map_NoDup; [intros a b; lia|apply seq_NoDup].
  Qed.
  Lemma dense_surj m i : dense m -> 0 <= i < Z.of_nat (length m) -> exists k, In (k, i) m.
  Proof using Type. clear Heq eqb.
    intros [_ Hp] Hi. assert (Hin : In i (map Z.of_nat (seq 0 (length m)))).
    { apply in_map_iff. exists (Z.to_nat i). split; [lia|]. apply in_seq. lia. }
    apply (Permutation_in _ (Permutation_sym Hp)) in Hin. apply in_map_iff in Hin. destruct Hin as [[k v] [<- Hk]]. eauto.
  Qed.

  Lemma onehot_dense m missing : dense m -> m <> [] -> Z.of_nat (length m) < 2 ^ 64 - 1 ->
    let off := if missing : bool then 1 else 0 in
    let n := Z.of_nat (length m) + off in
    exists e, onehot_make m missing = Ok e /\
    exists pos : T -> Z,
      (forall x, In x (map fst m) -> onehot_execute eqb e x = Ok (mkSingle n 1 (pos x)) /\ off <= pos x < n) /\
      (forall x y, In x (map fst m) -> In y (map fst m) -> pos x = pos y -> x = y) /\
      (forall x l, In (x, l) m -> pos x = l + off) /\
      (forall x, ~ In x (map fst m) -> onehot_execute eqb e x = if missing then Ok (mkSingle n 1 0) else Throw InvalidArgument).
  Proof.
    intros Hd Hne Hlen off n.
    exists (mkEncoder m missing). split; [destruct m; [congruence|reflexivity]|].
    assert (Hlen0 : 0 < Z.of_nat (length m)) by (destruct m; [congruence|cbn [length]; lia]).
    assert (Hn : u64 (Z.of_nat (length m) + off) = n) by (unfold u64, n, off; apply Z.mod_small; destruct missing; lia).
    exists (fun x => match m_find eqb m x with Some l => l + off | None => 0 end).
    assert (Hfind : forall x, In x (map fst m) -> exists l, In (x, l) m /\ m_find eqb m x = Some l).
    { intros x Hx. apply in_map_iff in Hx. destruct Hx as [[a l] [<- Hin]]. exists l. split; [exact Hin|].
      now apply m_find_in; [apply Hd|]. }
    repeat split.
    - destruct (Hfind x H) as (l & Hin & Hf). unfold onehot_execute. cbn [e_labels e_missing]. rewrite Hf. cbn [bind].
      fold off. rewrite Hn. pose proof (dense_range m x l Hd Hin).
      assert (Hu : u64 (l + off) = l + off) by (unfold u64, off; apply Z.mod_small; destruct missing; lia).
      rewrite Hu. apply (single_make_spec n 1 (l + off)); unfold n, off; destruct missing; lia.
    - destruct (Hfind x H) as (l & Hin & Hf). rewrite Hf. pose proof (dense_range m x l Hd Hin). lia.
    - destruct (Hfind x H) as (l & Hin & Hf). rewrite Hf. pose proof (dense_range m x l Hd Hin). unfold n. lia.
    - intros x y Hx Hy Hp. destruct (Hfind x Hx) as (l & Hin & Hf). destruct (Hfind y Hy) as (l' & Hin' & Hf').
      rewrite Hf, Hf' in Hp. assert (l = l') by lia. subst l'. exact (dense_inj m x y l Hd Hin Hin').
    - intros x l Hin. apply (m_find_in m x l (proj1 Hd)) in Hin. rewrite Hin. reflexivity.
    - intros x Hx. apply m_find_none in Hx. unfold onehot_execute. cbn [e_labels e_missing]. rewrite Hx.
      destruct missing; cbn [bind]; [|reflexivity]. cbv beta iota zeta. unfold off in Hn. rewrite Hn.
      apply (single_make_spec n 1 0); unfold n, off; lia.
  Qed.

  Lemma label_dense m missing : dense m -> Z.of_nat (length m) < 2 ^ 32 ->
    let off := if missing : bool then 1 else 0 in
    exists e, label_make m missing = Ok e /\
      (forall x l, In (x, l) m -> label_execute eqb e x = Ok (l + off)) /\
      (forall x, ~ In x (map fst m) -> label_execute eqb e x = if missing then Ok 0 else Throw InvalidArgument).
  Proof.
    intros Hd Hlen off. exists (mkEncoder m missing). split; [reflexivity|]. split.
    - intros x l Hin. pose proof (dense_range m x l Hd Hin). apply (m_find_in m x l (proj1 Hd)) in Hin.
      unfold label_execute. cbn [e_labels e_missing]. rewrite Hin. f_equal. unfold u32, off. apply Z.mod_small.
      destruct missing; lia.
    - intros x Hx. apply m_find_none in Hx. unfold label_execute. cbn [e_labels e_missing]. rewrite Hx. now destruct missing.
  Qed.
End Labels.

Section Trained.
  Context {T : Type} (eqb ltb : T -> T -> bool).
  Hypothesis Hto : total_order eqb ltb.

  Lemma trained_dense mx bs h h' : proper_training mx bs -> trained (hist_policy eqb) mx bs = Ok (Some h) -> Permutation h h' ->
    Z.of_nat (length h) <= 2 ^ 32 ->
    dense (create_index_map eqb ltb h' []).
  Proof.
    intros Hp Ht Hperm Hl.
    destruct (hist_spec eqb (proj1 Hto) mx bs Hp) as (h0 & Ht0 & Hnd & Hin & Hc). rewrite Ht in Ht0. injection Ht0 as <-.
    assert (Hnd' : NoDup (map fst h')) by (eapply Permutation_NoDup; [apply Permutation_map; exact Hperm|exact Hnd]).
    destruct (index_map_spec T eqb ltb Hto h' [] Hnd' (NoDup_nil _)) as (H1 & H2 & _ & _ & H5).
    split; [exact H1|]. apply H5; [constructor|].
    assert (Hlen : length (create_index_map eqb ltb h' []) = length h').
    { rewrite <- (map_length fst (create_index_map _ _ _ _)), <- (map_length fst h').
      apply Permutation_length. apply NoDup_Permutation; auto. intros k. rewrite H2. cbn. tauto. }
    rewrite Hlen. rewrite <- (Permutation_length Hperm). exact Hl.
  Qed.

  Lemma trained_encoder_map mx bs n : proper_training mx bs -> distinct_count (items mx bs) n -> Z.of_nat n <= 2 ^ 32 ->
    exists h, trained (hist_policy eqb) mx bs = Ok (Some h) /\
    forall h', Permutation h h' ->
    let m := create_index_map eqb ltb h' [] in
    dense m /\ length m = n /\ (forall k, In k (map fst m) <-> In k (items mx bs)) /\
    (forall k, In k (items mx bs) -> exists r, distinct_count (filter (fun x => ltb x k) (items mx bs)) r /\ In (k, Z.of_nat r) m).
  Proof.
    intros Hp (d & Hd1 & Hd2 & Hd3) Hn.
    destruct (hist_spec eqb (proj1 Hto) mx bs Hp) as (h & Ht & Hnd & Hin & Hc). exists h. split; [exact Ht|].
    intros h' Hperm m.
    assert (Hlh : length h = n).
    { rewrite <- (map_length fst h), <- Hd3. apply Permutation_length. apply NoDup_Permutation; auto.
      intros k. rewrite Hin, Hd2. tauto. }
    assert (Hdense : dense m) by (apply (trained_dense mx bs h h'); auto; rewrite Hlh; exact Hn).
    destruct (trained_index_map T eqb ltb Hto mx bs Hp h h' Ht Hperm) as (H1 & H2 & H3). fold m in H1, H2, H3.
    assert (Hlm : length m = n).
    { rewrite <- (map_length fst m), <- Hd3. apply Permutation_length. apply NoDup_Permutation; auto.
      intros k. rewrite H2, Hd2. tauto. }
    split; [exact Hdense|]. split; [exact Hlm|]. split; [exact H2|].
    - intros k Hk. destruct (H3 k Hk) as (r & Hr & Hi). exists r. split; [exact Hr|].
      replace (Z.of_nat r) with (Z.of_nat r mod 2 ^ 32); [exact Hi|]. apply Z.mod_small. split; [lia|].
      (* r < n: the distinct smaller values together with k are distinct values of the items *)
      destruct Hr as (d' & Ha & Hb & Hcc).
      assert (Hle : (length (k :: d') <= length d)%nat).
      { apply NoDup_incl_length.
        - constructor; [|exact Ha]. intros Hbad. apply Hb in Hbad. apply filter_In in Hbad. destruct Hbad as [_ Hbad].
          destruct Hto as (_ & Hirr & _). rewrite Hirr in Hbad. discriminate.
        - intros x [<-|Hx]; [apply Hd2; exact Hk|]. apply Hb in Hx. apply filter_In in Hx. apply Hd2. tauto. }
      cbn [length] in Hle. lia.
  Qed.
End Trained.

Lemma onehot_trained (T : Type) (eqb ltb : T -> T -> bool) : total_order eqb ltb ->
  forall (mx : nat) (bs : list (list T)) (n : nat) (missing : bool),
  proper_training mx bs -> distinct_count (items mx bs) n -> Z.of_nat n <= 2 ^ 32 -> n <> 0%nat ->
  let len := Z.of_nat n + (if missing then 1 else 0) in
  exists h, trained (hist_policy eqb) mx bs = Ok (Some h) /\
  forall h', Permutation h h' ->
  exists e, onehot_make (create_index_map eqb ltb h' []) missing = Ok e /\
  exists pos : T -> Z,
    (forall x, In x (items mx bs) -> onehot_execute eqb e x = Ok (mkSingle len 1 (pos x)) /\ (if missing then 1 else 0) <= pos x < len) /\
    (forall x y, In x (items mx bs) -> In y (items mx bs) -> pos x = pos y -> x = y) /\
    (forall x, ~ In x (items mx bs) -> onehot_execute eqb e x = if missing then Ok (mkSingle len 1 0) else Throw InvalidArgument).
Proof.
  intros Hto mx bs n missing Hp Hd Hn Hn0 len.
  destruct (trained_encoder_map eqb ltb Hto mx bs n Hp Hd Hn) as (h & Ht & H). exists h. split; [exact Ht|].
  intros h' Hperm. destruct (H h' Hperm) as (Hde & Hlen & Hin & _).
  assert (Hne : create_index_map eqb ltb h' [] <> []) by (intros E; rewrite E in Hlen; cbn in Hlen; congruence).
  destruct (onehot_dense eqb (proj1 Hto) _ missing Hde Hne ltac:(lia)) as (e & He & pos & H1 & H2 & _ & H4).
  rewrite Hlen in *. exists e. split; [exact He|]. exists pos. split; [|split].
  - intros x Hx. apply Hin in Hx. exact (H1 x Hx).
  - intros x y Hx Hy. apply Hin in Hx, Hy. now apply H2.
  - intros x Hx. apply H4. intros Hbad. apply Hx, Hin, Hbad.
Qed.

Lemma onehot_sparse_labels : exists (labels : list (Z * Z)) x, NoDup (map fst labels) /\ NoDup (map snd labels) /\
  In x (map fst labels) /\ exists e, onehot_make labels false = Ok e /\ onehot_execute Z.eqb e x = Throw InvalidArgument.
Proof.
  exists [(10, 0); (20, 2)], 20. repeat split.
  - repeat constructor; cbn; lia.
  - repeat constructor; cbn; lia.
  - right; left; reflexivity.
  - eexists. split; reflexivity.
Qed.

Lemma label_trained (T : Type) (eqb ltb : T -> T -> bool) : total_order eqb ltb ->
  forall (mx : nat) (bs : list (list T)) (n : nat) (missing : bool),
  proper_training mx bs -> distinct_count (items mx bs) n -> Z.of_nat n < 2 ^ 32 ->
  exists h, trained (hist_policy eqb) mx bs = Ok (Some h) /\
  forall h', Permutation h h' ->
  exists e, label_make (create_index_map eqb ltb h' []) missing = Ok e /\
  exists label : T -> Z,
    (forall x, In x (items mx bs) -> label_execute eqb e x = Ok (label x + (if missing then 1 else 0)) /\ 0 <= label x < Z.of_nat n) /\
    (forall x y, In x (items mx bs) -> In y (items mx bs) -> label x = label y -> x = y) /\
    (forall i, 0 <= i < Z.of_nat n -> exists x, In x (items mx bs) /\ label x = i) /\
    (forall x, ~ In x (items mx bs) -> label_execute eqb e x = if missing then Ok 0 else Throw InvalidArgument).
Proof.
  intros Hto mx bs n missing Hp Hd Hn.
  destruct (trained_encoder_map eqb ltb Hto mx bs n Hp Hd ltac:(lia)) as (h & Ht & H). exists h. split; [exact Ht|].
  intros h' Hperm. destruct (H h' Hperm) as (Hde & Hlen & Hin & _). set (m := create_index_map eqb ltb h' []) in *.
  destruct (label_dense eqb (proj1 Hto) m missing Hde ltac:(lia)) as (e & He & H1 & H2).
  exists e. split; [exact He|].
  exists (fun x => match m_find eqb m x with Some l => l | None => -1 end).
  assert (Hf : forall x, In x (items mx bs) -> exists l, In (x, l) m /\ m_find eqb m x = Some l).
  { intros x Hx. apply Hin in Hx. apply in_map_iff in Hx. destruct Hx as [[a l] [<- Hl]]. exists l. split; [exact Hl|].
    now apply (m_find_in eqb (proj1 Hto) m a l (proj1 Hde)). }
  split; [|split; [|split]].
  - intros x Hx. destruct (Hf x Hx) as (l & Hl & ->). split; [now apply H1|]. rewrite <- Hlen. exact (dense_range m x l Hde Hl).
  - intros x y Hx Hy. destruct (Hf x Hx) as (l & Hl & ->). destruct (Hf y Hy) as (l' & Hl' & ->). intros <-.
    exact (dense_inj m x y l Hde Hl Hl').
  - intros i Hi. rewrite <- Hlen in Hi. destruct (dense_surj m i Hde Hi) as [x Hx]. exists x. split.
    + apply Hin. change x with (fst (x, i)). now apply in_map.
    + apply (m_find_in eqb (proj1 Hto) m x i (proj1 Hde)) in Hx. now rewrite Hx.
  - intros x Hx. apply H2. intros Hbad. apply Hx, Hin, Hbad.
Qed.

Lemma label_wraps : forall x : Z, label_execute Z.eqb (mkEncoder [(x, 2 ^ 32 - 1)] true) x = Ok 0.
Proof. intros x. unfold label_execute. cbn [m_find e_labels e_missing]. rewrite Z.eqb_refl. reflexivity. Qed.

Lemma numericalize_trained (T : Type) (eqb ltb : T -> T -> bool) : total_order eqb ltb ->
  forall (mx : nat) (bs : list (list T)) (n : nat),
  proper_training mx bs -> distinct_count (items mx bs) n -> Z.of_nat n <= 2 ^ 32 ->
  exists h, trained (hist_policy eqb) mx bs = Ok (Some h) /\
  forall h', Permutation h h' ->
  let numericalize := numericalize_execute eqb (create_index_map eqb ltb h' []) in
  (forall x, In x (items mx bs) <-> exists l, numericalize x = Some l) /\
  (forall x l, numericalize x = Some l -> 0 <= l < Z.of_nat n) /\
  (forall x y l, numericalize x = Some l -> numericalize y = Some l -> x = y) /\
  (forall l, 0 <= l < Z.of_nat n -> exists x, numericalize x = Some l) /\
  (forall x y lx ly, numericalize x = Some lx -> numericalize y = Some ly -> (ltb x y = true <-> lx < ly)).
Proof.
  intros Hto mx bs n Hp Hd Hn.
  destruct (trained_encoder_map eqb ltb Hto mx bs n Hp Hd Hn) as (h & Ht & H). exists h. split; [exact Ht|].
  intros h' Hperm. destruct (H h' Hperm) as (Hde & Hlen & Hin & Hrank). set (m := create_index_map eqb ltb h' []) in *.
  cbv zeta. unfold numericalize_execute.
  assert (Hfi : forall x l, m_find eqb m x = Some l <-> In (x, l) m) by (intros; apply (m_find_in eqb (proj1 Hto) m x l (proj1 Hde))).
  split; [|split; [|split; [|split]]].
  - intros x. rewrite <- Hin. split.
    + intros Hx. apply in_map_iff in Hx. destruct Hx as [[a l] [<- Hl]]. exists l. now apply Hfi.
    + intros [l Hl]. apply Hfi in Hl. change x with (fst (x, l)). now apply in_map.
  - intros x l Hl. apply Hfi in Hl. rewrite <- Hlen. exact (dense_range m x l Hde Hl).
  - intros x y l Hx Hy. apply Hfi in Hx, Hy. exact (dense_inj m x y l Hde Hx Hy).
  - intros l Hl. rewrite <- Hlen in Hl. destruct (dense_surj m l Hde Hl) as [x Hx]. exists x. now apply Hfi.
  - (* labels are ranks *)
    assert (Hmono : forall x y lx ly, In (x, lx) m -> In (y, ly) m -> ltb x y = true -> lx < ly).
    { intros x y lx ly Hx Hy Hlt.
      assert (Hxi : In x (items mx bs)) by (apply Hin; change x with (fst (x, lx)); now apply in_map).
      assert (Hyi : In y (items mx bs)) by (apply Hin; change y with (fst (y, ly)); now apply in_map).
      destruct (Hrank x Hxi) as (rx & (dx & Hdx1 & Hdx2 & Hdx3) & Hrx).
      destruct (Hrank y Hyi) as (ry & (dy & Hdy1 & Hdy2 & Hdy3) & Hry).
      apply Hfi in Hx, Hy, Hrx, Hry. rewrite Hx in Hrx. rewrite Hy in Hry. injection Hrx as ->. injection Hry as ->.
      enough (length (x :: dx) <= length dy)%nat by (cbn [length] in *; lia).
      destruct Hto as (_ & Hirr & Htr & _).
      apply NoDup_incl_length.
      - constructor; [|exact Hdx1]. intros Hbad. apply Hdx2, filter_In in Hbad. rewrite Hirr in Hbad. now destruct Hbad.
      - intros z [<-|Hz].
        + apply Hdy2, filter_In. split; [exact Hxi|exact Hlt].
        + apply Hdx2, filter_In in Hz. apply Hdy2, filter_In. split; [tauto|]. apply (Htr z x y); [tauto|exact Hlt]. }
    intros x y lx ly Hx Hy. apply Hfi in Hx, Hy. split; [now apply Hmono|]. intros Hlt.
    destruct (ltb x y) eqn:E; [reflexivity|]. destruct (ltb y x) eqn:E2.
    + pose proof (Hmono y x ly lx Hy Hx E2). lia.
    + destruct Hto as (_ & _ & _ & Htot). pose proof (Htot x y E E2). subst y.
      apply Hfi in Hx, Hy. rewrite Hx in Hy. injection Hy as ->. lia.
Qed.
