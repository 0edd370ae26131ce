From Verif Require Import Base M_Pipeline M_Window S_Window L_List.

(** ** The circular buffer *)
Section Buf.
  Context {T : Type}.
  Implicit Types (b : cbuf T) (l : list T).

  Definition contents b : list T := skipn (b_start b) (b_data b) ++ firstn (b_start b) (b_data b).
  Definition binv b : Prop :=
    (0 < b_max b)%nat /\ (b_start b < b_max b)%nat /\ (length (b_data b) <= b_max b)%nat /\
    ((length (b_data b) < b_max b)%nat -> b_start b = O).

  Lemma lastn_all : forall n l, (length l <= n)%nat -> lastn n l = l.
  Proof using Type. intros n l H. unfold lastn. replace (length l - n)%nat with O by lia. reflexivity. Qed.
  Lemma lastn_length : forall n l, length (lastn n l) = Nat.min n (length l).
  Proof using Type. intros n l. unfold lastn. rewrite skipn_length. lia. Qed.
  Lemma lastn_snoc : forall n l v, lastn n (lastn n l ++ [v]) = lastn n (l ++ [v]).
  Proof using Type.
    intros n l v. unfold lastn. rewrite !app_length, skipn_length. cbn [length].
    rewrite !skipn_app, skipn_skipn, skipn_length. f_equal; f_equal; lia.
  Qed.

  Lemma contents_length : forall b, length (contents b) = length (b_data b).
  Proof using Type. intros b. unfold contents. rewrite app_length, skipn_length, firstn_length. lia. Qed.

  Lemma set_nth_split : forall l i v, (i < length l)%nat -> set_nth l i v = firstn i l ++ v :: skipn (S i) l.
  Proof using Type.
    induction l as [|x l IH]; intros [|i] v H; cbn in H; try lia; [reflexivity|]. cbn [set_nth firstn skipn app]. f_equal.
    rewrite IH by lia. reflexivity.
  Qed.
  Lemma set_nth_length : forall l i v, length (set_nth l i v) = length l.
  Proof using Type. induction l as [|x l IH]; intros [|i] v; cbn; auto. Qed.
  Lemma skipn_cons_nth : forall l i, (i < length l)%nat -> exists x, skipn i l = x :: skipn (S i) l.
  Proof using Type. induction l as [|x l IH]; intros [|i] H; cbn in H; try lia; [eexists; reflexivity|]. apply IH. lia. Qed.

  Lemma binv_new : forall n b, buf_new n = Ok b -> binv b /\ contents b = [] /\ b_max b = n.
  Proof using Type.
    intros n b. unfold buf_new. destruct (Nat.eqb_spec n 0); [discriminate|]. intros [= <-]. unfold binv. cbn. repeat split; auto; lia.
  Qed.
  Lemma binv_push : forall b v, binv b -> binv (buf_push b v) /\ contents (buf_push b v) = lastn (b_max b) (contents b ++ [v]) /\
    b_max (buf_push b v) = b_max b.
  Proof using Type.
    intros [n st d] v [H1 [H2 [H3 H4]]]. cbn [b_max b_start b_data] in *. unfold buf_push. cbn [b_max b_start b_data].
    destruct (Nat.eqb_spec (length d) n) as [E|E].
    - split; [|split]; [| |reflexivity].
      + unfold binv. cbn [b_max b_start b_data]. rewrite set_nth_length. split; [exact H1|]. split; [apply Nat.mod_upper_bound; lia|]. lia.
      + unfold contents. cbn [b_start b_data]. rewrite set_nth_split by lia.
        destruct (skipn_cons_nth d st ltac:(lia)) as [x Hx].
        assert (Hl : length (firstn st d) = st) by (rewrite firstn_length; lia).
        unfold lastn. rewrite !app_length, skipn_length, firstn_length. cbn [length].
        replace (length d - st + Nat.min st (length d) + 1 - n)%nat with 1%nat by lia.
        assert (Htl : (st + 1 = n)%nat -> skipn (S st) d = []) by (intros; apply skipn_all2; lia).
        rewrite Hx. remember (skipn (S st) d) as tl eqn:Etl. cbn [app skipn].
        destruct (Nat.eq_dec (st + 1) n) as [F|F].
        * rewrite F, Nat.mod_same by lia. cbn [skipn firstn]. rewrite app_nil_r.
          rewrite (Htl F). reflexivity.
        * rewrite Nat.mod_small by lia. replace (st + 1)%nat with (S st) by lia.
          rewrite skipn_app, firstn_app, Hl. rewrite (skipn_all2 (firstn st d)) by lia. rewrite (firstn_all2 (firstn st d)) by lia.
          replace (S st - st)%nat with 1%nat by lia. cbn [skipn firstn app]. rewrite <- app_assoc. reflexivity.
    - assert (st = O) by (apply H4; lia). subst st. split; [|split]; [| |reflexivity].
      + unfold binv. cbn [b_max b_start b_data]. rewrite app_length. cbn. repeat split; try lia; auto.
      + unfold contents. cbn [b_start b_data skipn firstn]. rewrite !app_nil_r. symmetry. apply lastn_all. rewrite app_length. cbn. lia.
  Qed.
  Lemma binv_clear : forall b, binv b -> binv (buf_clear b) /\ contents (buf_clear b) = [] /\ b_max (buf_clear b) = b_max b.
  Proof using Type. intros b [H1 [H2 [H3 H4]]]. unfold binv. cbn. repeat split; auto; lia. Qed.

  Lemma nth_contents : forall b j, binv b -> (j < length (b_data b))%nat ->
    nth_error (b_data b) ((b_start b + j) mod b_max b) = nth_error (contents b) j.
  Proof using Type.
    intros [n st d] j [H1 [H2 [H3 H4]]] Hj. cbn [b_max b_start b_data] in *. unfold contents. cbn [b_start b_data].
    destruct (Nat.lt_ge_cases (st + j) (length d)) as [H|H].
    - rewrite Nat.mod_small by lia. rewrite nth_error_app1 by (rewrite skipn_length; lia).
      rewrite <- (firstn_skipn st d) at 1. rewrite nth_error_app2 by (rewrite firstn_length; lia). rewrite firstn_length. f_equal. lia.
    - destruct (Nat.eq_dec (length d) n) as [E|E]; [|specialize (H4 ltac:(lia)); lia].
      replace ((st + j) mod n)%nat with (st + j - n)%nat.
      2:{ symmetry. replace (st + j)%nat with ((st + j - n) + 1 * n)%nat by lia. rewrite Nat.mod_add by lia. rewrite Nat.mod_small; lia. }
      rewrite nth_error_app2 by (rewrite skipn_length; lia). rewrite skipn_length.
      replace (j - (length d - st))%nat with (st + j - n)%nat by lia.
      rewrite <- (firstn_skipn st d) at 1. rewrite nth_error_app1 by (rewrite firstn_length; lia). reflexivity.
  Qed.

  Lemma next_mod : forall n s, (n <> 0)%nat -> ((s mod n + 1) mod n = (s + 1) mod n)%nat.
  Proof using Type. intros n s H. rewrite Nat.add_mod_idemp_l by exact H. reflexivity. Qed.

  Lemma firstn_skipn_cons : forall l off m x, nth_error l off = Some x -> firstn (S m) (skipn off l) = x :: firstn m (skipn (S off) l).
  Proof using Type.
    intros l off m x H. assert (off < length l)%nat by (apply nth_error_Some; congruence).
    revert l m H H0. induction off as [|off IH]; intros [|y l] m H H0; cbn in H0; try lia.
    - cbn in H. injection H as ->. reflexivity.
    - cbn [skipn]. apply (IH l m); [exact H|lia].
  Qed.

  Lemma walk_ok : forall b, binv b -> forall m k off fuel e,
    (off + k + m <= length (b_data b))%nat -> (m <= fuel)%nat ->
    it_null e = false -> it_at_end e = true -> it_index e = ((b_start b + (off + k + m)) mod b_max b)%nat ->
    it_walk b fuel (mkIt false (b_max b) ((b_start b + (off + k)) mod b_max b) (k + m) k) e = Ok (firstn m (skipn (off + k) (contents b))).
  Proof using Type.
    intros b Hb. induction m as [|m IH]; intros k off fuel e Hle Hf En Ee Ei.
    - assert (He : it_eq (mkIt false (b_max b) ((b_start b + (off + k)) mod b_max b) (k + 0) k) e = true).
      { unfold it_eq. rewrite Ee, En, Ei. unfold it_at_end. cbn [it_cur it_max it_null it_index].
        rewrite !Nat.add_0_r, !Nat.eqb_refl. reflexivity. }
      destruct fuel; cbn [it_walk]; rewrite He; reflexivity.
    - destruct fuel as [|fuel]; [lia|]. cbn [it_walk].
      assert (Hne : it_eq (mkIt false (b_max b) ((b_start b + (off + k)) mod b_max b) (k + S m) k) e = false).
      { unfold it_eq. rewrite Ee. unfold it_at_end. cbn [it_cur it_max]. destruct (Nat.eqb_spec k (k + S m)); [lia|]. reflexivity. }
      rewrite Hne. unfold it_deref. cbn [it_null it_index]. rewrite nth_contents by (auto; lia).
      destruct (nth_error (contents b) (off + k)) as [x|] eqn:Ex.
      2:{ apply nth_error_None in Ex. rewrite contents_length in Ex. lia. }
      cbn [bind]. unfold it_next. cbn [it_null it_size it_index it_max it_cur].
      rewrite next_mod by (destruct Hb; lia).
      replace (b_start b + (off + k) + 1)%nat with (b_start b + (off + (k + 1)))%nat by lia.
      replace (k + S m)%nat with ((k + 1) + m)%nat by lia.
      rewrite (IH (k + 1)%nat off fuel e); [| lia | lia | exact En | exact Ee |].
      + cbn [bind]. rewrite (firstn_skipn_cons _ _ _ _ Ex). do 3 f_equal. f_equal. lia.
      + rewrite Ei. f_equal. f_equal. lia.
  Qed.

  Lemma end_index : forall b, binv b -> (length (b_data b) <> 0)%nat ->
    it_null (buf_end b) = false /\ it_at_end (buf_end b) = true /\ it_index (buf_end b) = ((b_start b + length (b_data b)) mod b_max b)%nat.
  Proof using Type.
    intros b [H1 [H2 [H3 H4]]] Hn. unfold buf_end, buf_size. destruct (Nat.eqb_spec (length (b_data b)) 0); [lia|].
    split; [reflexivity|]. split; [reflexivity|]. cbn [it_new it_index].
    destruct (Nat.eqb_spec (length (b_data b)) (b_max b)) as [E|E].
    - rewrite E. replace (b_start b + b_max b)%nat with (b_start b + 1 * b_max b)%nat by lia. rewrite Nat.mod_add by lia. symmetry. now apply Nat.mod_small.
    - rewrite (H4 ltac:(lia)). cbn [plus]. symmetry. apply Nat.mod_small. lia.
  Qed.

  Lemma sub_ok : forall b n off, binv b -> buf_sub b n off = Ok (firstn n (skipn off (contents b))).
  Proof using Type.
    intros b n off Hb. unfold buf_sub, buf_range. unfold buf_size. pose proof (contents_length b) as Hc.
    destruct (Nat.eqb_spec (length (b_data b)) 0) as [E|E].
    - assert (contents b = []) as -> by (apply length_zero_iff_nil; lia). rewrite skipn_nil, firstn_nil. reflexivity.
    - destruct (end_index b Hb E) as [E1 [E2 E3]]. destruct (Nat.ltb_spec (length (b_data b)) off) as [H|H].
      + rewrite (skipn_all2 (contents b)) by lia. rewrite firstn_nil. cbn [fst snd it_walk].
        unfold it_eq. rewrite E2, eqb_reflx, Nat.eqb_refl. reflexivity.
      + destruct (Nat.ltb_spec (length (b_data b)) (n + off)) as [H'|H']; cbn [fst snd].
        * pose proof (walk_ok b Hb (length (b_data b) - off) 0 off (S (b_max b)) (buf_end b)) as W.
          rewrite Nat.add_0_r in W. cbn [plus] in W. unfold it_new. rewrite W; auto.
          -- f_equal. rewrite !firstn_all2; auto; rewrite skipn_length; lia.
          -- lia.
          -- destruct Hb as [? [? [? ?]]]. lia.
          -- rewrite E3. f_equal. lia.
        * pose proof (walk_ok b Hb n 0 off (S (b_max b)) (it_new (b_max b) 0 ((b_start b + n + off) mod b_max b))) as W.
          rewrite Nat.add_0_r in W. cbn [plus] in W. unfold it_new at 1. rewrite W; auto.
          -- lia.
          -- destruct Hb as [? [? [? ?]]]. lia.
          -- cbn [it_new it_index]. f_equal. lia.
  Qed.
  Lemma elements_ok : forall b, binv b -> buf_elements b = Ok (contents b).
  Proof using Type.
    intros b Hb. unfold buf_elements, buf_begin. unfold buf_size. pose proof (contents_length b) as Hc.
    destruct (Nat.eqb_spec (length (b_data b)) 0) as [E|E].
    - assert (contents b = []) as -> by (apply length_zero_iff_nil; lia). unfold buf_end, buf_size. rewrite E. reflexivity.
    - destruct (end_index b Hb E) as [E1 [E2 E3]].
      pose proof (walk_ok b Hb (length (b_data b)) 0 0 (S (b_max b)) (buf_end b)) as W. cbn [plus] in W. rewrite Nat.add_0_r in W.
      unfold it_new. rewrite <- (Nat.mod_small (b_start b) (b_max b)) at 1 by (destruct Hb as [? [? ?]]; lia).
      rewrite W; auto; try lia.
      + cbn [skipn]. rewrite firstn_all2 by lia. reflexivity.
      + destruct Hb as [? [? [? ?]]]. lia.
  Qed.
  Lemma take_ok : forall b, binv b -> forall m off mi ci, (off + m <= length (b_data b))%nat ->
    it_take b m (mkIt false (b_max b) ((b_start b + off) mod b_max b) mi ci) = Ok (firstn m (skipn off (contents b))).
  Proof using Type.
    intros b Hb. induction m as [|m IH]; intros off mi ci H; [reflexivity|]. cbn [it_take]. unfold it_deref. cbn [it_null it_index].
    rewrite nth_contents by (auto; lia). destruct (nth_error (contents b) off) as [x|] eqn:Ex.
    2:{ apply nth_error_None in Ex. rewrite contents_length in Ex. lia. }
    cbn [bind]. unfold it_next. cbn [it_null it_size it_index it_max it_cur]. rewrite next_mod by (destruct Hb; lia).
    replace (b_start b + off + 1)%nat with (b_start b + S off)%nat by lia. rewrite IH by lia. cbn [bind].
    now rewrite (firstn_skipn_cons _ _ _ _ Ex).
  Qed.
  Lemma range_take_ok : forall b n off, binv b -> (off + n <= length (b_data b))%nat -> (n <> 0)%nat ->
    it_take b n (fst (buf_range b n off)) = Ok (firstn n (skipn off (contents b))).
  Proof using Type.
    intros b n off Hb H Hn. unfold buf_range. unfold buf_size.
    destruct (Nat.eqb_spec (length (b_data b)) 0) as [E|E]; [lia|].
    destruct (Nat.ltb_spec (length (b_data b)) off); [lia|]. destruct (Nat.ltb_spec (length (b_data b)) (n + off)); [lia|].
    cbn [fst]. unfold it_new. apply take_ok; auto.
  Qed.

  (** Histories. *)
  Lemma history : forall n b0 (ops : list (bop T)), buf_new n = Ok b0 ->
    let b := fold_left bstep ops b0 in
    binv b /\ contents b = lastn n (pushed ops) /\ b_max b = n.
  Proof using Type.
    intros n b0 ops H0. destruct (binv_new n b0 H0) as [A [B C]].
    induction ops as [|o ops IH] using rev_ind.
    - cbn. split; [exact A|]. split; [rewrite B; reflexivity|exact C].
    - cbv zeta in *. unfold pushed in *. rewrite !fold_left_app. cbn [fold_left]. destruct IH as [I1 [I2 I3]].
      set (b := fold_left bstep ops b0) in *. set (l := fold_left _ ops []) in *. destruct o as [v|]; cbn [bstep].
      + destruct (binv_push b v I1) as [P1 [P2 P3]]. split; [exact P1|]. split; [|congruence].
        rewrite P2, I2, I3. apply lastn_snoc.
      + destruct (binv_clear b I1) as [P1 [P2 P3]]. split; [exact P1|]. split; [|congruence]. rewrite P2. reflexivity.
  Qed.
  Lemma buffer_spec : forall n b0 (ops : list (bop T)), buf_new n = Ok b0 ->
    let b := fold_left bstep ops b0 in
    buf_size b = Nat.min n (length (pushed ops)) /\
    buf_full b = Nat.leb n (length (pushed ops)) /\
    buf_elements b = Ok (lastn n (pushed ops)) /\
    forall k off, buf_sub b k off = Ok (firstn k (skipn off (lastn n (pushed ops)))).
  Proof using Type.
    intros n b0 ops H0. destruct (history n b0 ops H0) as [I1 [I2 I3]]. cbv zeta. set (b := fold_left bstep ops b0) in *.
    pose proof (contents_length b) as Hl. rewrite I2, lastn_length in Hl.
    split; [unfold buf_size; lia|]. split.
    { unfold buf_full, buf_size. rewrite I3, <- Hl. destruct (Nat.leb_spec n (length (pushed ops))); destruct (Nat.eqb_spec (Nat.min n (length (pushed ops))) n); auto; lia. }
    split; [rewrite elements_ok by exact I1; now rewrite I2|]. intros k off. rewrite sub_ok by exact I1. now rewrite I2.
  Qed.
End Buf.
