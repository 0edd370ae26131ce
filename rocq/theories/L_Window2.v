From Verif Require Import Base M_Archive M_Codec M_Save M_Pipeline M_Window S_Window L_List L_Codec L_Save L_Window.

Lemma mapM_ok : forall (A B : Type) (g : A -> res B) (f : A -> B) l, (forall x, In x l -> g x = Ok (f x)) -> mapM g l = Ok (map f l).
Proof.
  intros A B g f l H. induction l as [|x l IH]; [reflexivity|]. cbn [mapM map]. rewrite H by (left; reflexivity). cbn [bind].
  rewrite IH by (intros; apply H; now right). reflexivity.
Qed.
Lemma firstn_app_le : forall (A : Type) k (a b : list A), (k <= length a)%nat -> firstn k (a ++ b) = firstn k a.
Proof. intros A k a b H. rewrite firstn_app. replace (k - length a)%nat with O by lia. cbn [firstn]. apply app_nil_r. Qed.
Lemma skipn_firstn : forall (A : Type) m n (l : list A), skipn m (firstn n l) = firstn (n - m) (skipn m l).
Proof.
  intros A m n l. apply skipn_firstn_comm.
Qed.

(** ** Rolling windows *)
Section Rolling.
  Context {I O : Type}.
  Variables (calc : list I -> res O) (null : O) (h mx mn : nat).
  Hypothesis Hh : (1 <= h)%nat.
  Hypothesis Hmn : (1 <= mn <= mx)%nat.
  Hypothesis Hu : Z.of_nat (h + mx) < 2 ^ 32.
  Let cap := (h + mx)%nat.

  Lemma cell_ok : forall (b : cbuf I) (l : list I) (t o : nat), binv b -> b_max b = cap -> contents b = lastn cap l ->
    length l = (t + 1)%nat -> (o < h)%nat ->
    rw_cell calc null b h mx mn o =
      if Nat.ltb (length (rows_up_to l h t o)) mn then Ok null else calc (window l h mx t o).
  Proof using Hh Hmn Hu.
    intros b l t o Hb Hm Hc Hl Ho. pose proof (contents_length b) as HL. rewrite Hc, lastn_length, Hl in HL.
    unfold rw_cell. unfold buf_size, buf_capacity. rewrite Hm, <- HL.
    assert (E1 : u32 (Z.of_nat h - Z.of_nat o) = Z.of_nat (h - o)). { unfold u32. rewrite Z.mod_small; lia. }
    rewrite E1.
    assert (E2 : u32 (Z.of_nat (h - o) + Z.of_nat mn) = Z.of_nat (h - o + mn)). { unfold u32. rewrite Z.mod_small; lia. }
    rewrite E2.
    assert (E3 : u32 (u32 (Z.of_nat mx + Z.of_nat h) - Z.of_nat o) = Z.of_nat (mx + h - o)).
    { unfold u32. rewrite (Z.mod_small (Z.of_nat mx + Z.of_nat h)) by lia. rewrite Z.mod_small; lia. }
    rewrite E3.
    assert (E4 : length (rows_up_to l h t o) = (t + 1 + o - h)%nat). { unfold rows_up_to. rewrite firstn_length. lia. }
    rewrite E4. unfold cap in *.
    destruct (Z.ltb_spec (Z.of_nat (Nat.min (h + mx) (t + 1))) (Z.of_nat (h - o + mn))) as [H|H];
      destruct (Nat.ltb_spec (t + 1 + o - h) mn) as [H'|H']; try lia; [reflexivity|].
    destruct (Z.ltb_spec (Z.of_nat (Nat.min (h + mx) (t + 1))) (Z.of_nat (mx + h - o))) as [G|G].
    - assert (G1 : Z.to_nat (Z.of_nat (Nat.min (h + mx) (t + 1)) - Z.of_nat (h - o)) = (t + 1 + o - h)%nat) by lia. rewrite G1.
      change (Z.to_nat 0) with 0%nat. pose proof (sub_ok b (t + 1 + o - h) 0 Hb) as S1. unfold buf_sub in S1.
      destruct (buf_range b (t + 1 + o - h) 0) as [i e]. cbn [fst snd] in S1. rewrite Hm in S1. rewrite S1. cbn [bind]. f_equal.
      rewrite Hc. cbn [skipn]. rewrite lastn_all by lia. unfold window, rows_up_to. symmetry. apply lastn_all. rewrite firstn_length. lia.
    - assert (G2 : u64 (Z.of_nat o - u64 (Z.of_nat (h + mx) - Z.of_nat (Nat.min (h + mx) (t + 1)))) = Z.of_nat (o - (h + mx - Nat.min (h + mx) (t + 1)))).
      { unfold u64. rewrite (Z.mod_small (Z.of_nat (h + mx) - _)) by lia. rewrite Z.mod_small; lia. }
      rewrite G2. rewrite !Nat2Z.id. set (st := (o - (h + mx - Nat.min (h + mx) (t + 1)))%nat) in *.
      pose proof (sub_ok b mx st Hb) as S1. unfold buf_sub in S1.
      destruct (buf_range b mx st) as [i e]. cbn [fst snd] in S1. rewrite Hm in S1. rewrite S1. cbn [bind]. f_equal.
      rewrite Hc. unfold window, lastn. fold (rows_up_to l h t o). rewrite E4. unfold rows_up_to. rewrite skipn_firstn, skipn_skipn, Hl.
      replace (t + 1 + o - h - (t + 1 + o - h - mx))%nat with mx by lia. f_equal. f_equal. unfold st. lia.
  Qed.

  Variable f : list I -> O.
  Definition out_row (l : list I) (t : nat) : list O := map (window_output f null l h mx mn t) (seq 0 h).

  Lemma rows_app : forall (a b : list I) t o, (t < length a)%nat -> (o < h)%nat -> rows_up_to (a ++ b) h t o = rows_up_to a h t o.
  Proof using Type. intros a b t o H Ho. unfold rows_up_to. apply firstn_app_le. clear -H Ho. lia. Qed.

  Lemma rolling_run : forall (rest done : list I) (b : cbuf I), binv b -> b_max b = cap -> contents b = lastn cap done ->
    (forall t o, (length done <= t < length (done ++ rest))%nat -> (o < h)%nat -> (mn <= length (rows_up_to (done ++ rest) h t o))%nat ->
       calc (window (done ++ rest) h mx t o) = Ok (f (window (done ++ rest) h mx t o))) ->
    exists b', feed (rw_exec calc null h mx mn) b rest = (map (out_row (done ++ rest)) (seq (length done) (length rest)), Ok b') /\
      binv b' /\ b_max b' = cap.
  Proof using Hh Hmn Hu.
    induction rest as [|x rest IH]; intros done b Hb Hm Hc Hcalc.
    - exists b. auto.
    - destruct (binv_push b x Hb) as [P1 [P2 P3]]. set (b1 := buf_push b x) in *.
      assert (Hc1 : contents b1 = lastn cap (done ++ [x])) by (rewrite P2, Hm, Hc; apply lastn_snoc).
      assert (Eapp : done ++ x :: rest = (done ++ [x]) ++ rest) by (rewrite <- app_assoc; reflexivity).
      destruct (IH (done ++ [x]) b1 P1) as [b' [R1 [R2 R3]]]; [congruence|exact Hc1| |].
      { intros t o Ht Ho. rewrite <- Eapp in *. apply Hcalc; auto. rewrite app_length in Ht. cbn in Ht. rewrite app_length in *. cbn in *. lia. }
      exists b'. split; [|auto]. cbn [feed]. unfold rw_exec at 1. fold b1.
      assert (Hrow : mapM (rw_cell calc null b1 h mx mn) (seq 0 h) = Ok (out_row (done ++ x :: rest) (length done))).
      { apply mapM_ok. intros o Ho. apply in_seq in Ho.
        rewrite (cell_ok b1 (done ++ [x]) (length done) o); auto; [|congruence|rewrite app_length; reflexivity|lia].
        assert (Hr : rows_up_to (done ++ x :: rest) h (length done) o = rows_up_to (done ++ [x]) h (length done) o)
          by (rewrite Eapp; apply rows_app; [rewrite app_length; cbn; lia|lia]).
        specialize (Hcalc (length done) o).
        unfold window_output, window in *. rewrite Hr in *.
        destruct (Nat.ltb_spec (length (rows_up_to (done ++ [x]) h (length done) o)) mn); [reflexivity|].
        apply Hcalc; try lia. rewrite app_length. cbn. lia. }
      rewrite Hrow, R1. cbn [length seq map app]. rewrite <- Eapp. rewrite app_length. cbn [length]. rewrite Nat.add_1_r. reflexivity.
  Qed.

  Lemma rolling_spec : exists tr, rolling_window calc null h mx mn = Ok tr /\
    forall l : list I,
    (forall t o, (t < length l)%nat -> (o < h)%nat -> (mn <= length (rows_up_to l h t o))%nat ->
       calc (window l h mx t o) = Ok (f (window l h mx t o))) ->
    run_all tr (t_cur tr) l = (map (out_row l) (seq 0 (length l)), Ok (t_cur tr)).
  Proof using Hh Hmn Hu.
    unfold rolling_window. destruct (Nat.ltb_spec h 1); [lia|]. destruct (Nat.ltb_spec mx 1); [lia|].
    destruct (Nat.ltb_spec mn 1); [lia|]. destruct (Nat.ltb_spec mx mn); [lia|].
    assert (E : Z.to_nat (u32 (Z.of_nat h + Z.of_nat mx)) = cap). { unfold u32, cap. rewrite Z.mod_small; lia. }
    rewrite E. unfold buf_new. destruct (Nat.eqb_spec cap 0); [unfold cap in *; lia|]. cbn [bind].
    eexists. split; [reflexivity|]. intros l Hcalc. unfold run_all, run_exec. cbn [t_exec t_cur t_flush t_state].
    destruct (rolling_run l [] (mkBuf cap 0 [])) as [b' [R1 [R2 R3]]].
    - unfold binv. cbn. unfold cap. repeat split; lia.
    - reflexivity.
    - reflexivity.
    - intros t o Ht. cbn in Ht. apply Hcalc. lia.
    - cbn [app length] in R1. rewrite R1. rewrite app_nil_r. unfold buf_clear. rewrite R3. reflexivity.
  Qed.
End Rolling.

(** ** Lag and lead *)
Section Lag.
  Context {T : Type}.
  Variable null : T.

  Lemma fold_min_add : forall c l x, fold_left Z.min (map (fun d => d + c) l) (x + c) = fold_left Z.min l x + c.
  Proof using Type. intros c. induction l as [|y l IH]; intros x; [reflexivity|]. cbn [map fold_left]. rewrite <- IH. f_equal. lia. Qed.
  Lemma fold_max_add : forall c l x, fold_left Z.max (map (fun d => d + c) l) (x + c) = fold_left Z.max l x + c.
  Proof using Type. intros c. induction l as [|y l IH]; intros x; [reflexivity|]. cbn [map fold_left]. rewrite <- IH. f_equal. lia. Qed.
  Lemma fold_min_le : forall l x, fold_left Z.min l x <= x /\ forall y, In y l -> fold_left Z.min l x <= y.
  Proof using Type.
    induction l as [|z l IH]; intros x; cbn [fold_left]; [split; [lia|intros y []]|]. destruct (IH (Z.min x z)) as [A B].
    split; [lia|]. intros y [-> |H]; [lia|auto].
  Qed.
  Lemma fold_max_ge : forall l x, x <= fold_left Z.max l x /\ forall y, In y l -> y <= fold_left Z.max l x.
  Proof using Type.
    induction l as [|z l IH]; intros x; cbn [fold_left]; [split; [lia|intros y []]|]. destruct (IH (Z.max x z)) as [A B].
    split; [lia|]. intros y [-> |H]; [lia|auto].
  Qed.
  Lemma zmin_le : forall l y, In y l -> zmin l <= y.
  Proof using Type. intros [|x l] y H; [destruct H|]. cbn [zmin]. destruct (fold_min_le l x) as [A B]. destruct H as [-> |H]; auto. Qed.
  Lemma zmax_ge : forall l y, In y l -> y <= zmax l.
  Proof using Type. intros [|x l] y H; [destruct H|]. cbn [zmax]. destruct (fold_max_ge l x) as [A B]. destruct H as [-> |H]; auto. Qed.

  Lemma match_ne : forall (X : Type) (l : list Z) (a b : X), l <> [] -> match l with [] => a | _ :: _ => b end = b.
  Proof using Type. intros X [|x l] a b H; congruence. Qed.

  Variables (horizon : Z) (deltas : list Z).
  Hypothesis Hh : 1 <= horizon.
  Hypothesis Hd : deltas <> [].
  Let L := Z.max 0 (- zmin deltas).
  Let M := Z.max 0 (zmax deltas).
  Hypothesis Hu : horizon + L + M < 2 ^ 32.
  Let cap := Z.to_nat (horizon + L + M).
  Let h := Z.to_nat horizon.

  Definition lag0 : lag T := init_buffer null (mkLag horizon L (map (fun d => d + L) deltas) (mkBuf cap 0 [])).

  Lemma zmin_shift : zmin (map (fun d => d + L) deltas) - L = zmin deltas.
  Proof using Hh Hd Hu. clear Hu. destruct deltas as [|x r]; [congruence|]. cbn [zmin map]. rewrite fold_min_add. apply Z.add_simpl_r. Qed.
  Lemma zmax_shift : zmax (map (fun d => d + L) deltas) - L = zmax deltas.
  Proof using Hh Hd Hu. clear Hu. destruct deltas as [|x r]; [congruence|]. cbn [zmax map]. rewrite fold_max_add. apply Z.add_simpl_r. Qed.
  Lemma zmin_zmax : zmin deltas <= zmax deltas.
  Proof using Hh Hd Hu. destruct deltas as [|x r] eqn:E; [congruence|]. pose proof (zmin_le deltas x). pose proof (zmax_ge deltas x). rewrite E in *. cbn in *. specialize (H (or_introl eq_refl)). specialize (H0 (or_introl eq_refl)). lia. Qed.

  Lemma lag_new_ok : lag_new null horizon deltas = Ok lag0.
  Proof using Hh Hd Hu.
    unfold lag_new. destruct (Z.eqb_spec horizon 0); [lia|]. pose proof zmin_zmax as Hz. pose proof (zmin_le deltas) as Hmin. pose proof (zmax_ge deltas) as Hmax.
    assert (E1 : u32 (- Z.min (zmin deltas) 0) = L). { unfold u32. rewrite Z.mod_small; unfold L, M in *; lia. }
    assert (E2 : map (fun d => u32 (d + L)) deltas = map (fun d => d + L) deltas).
    { apply map_ext_in. intros d H. specialize (Hmin d H). specialize (Hmax d H). unfold u32. apply Z.mod_small. unfold L, M in *. lia. }
    assert (E3 : u64 (horizon + u64 (if zmax deltas <? 0 then - zmin deltas else if 0 <=? zmin deltas then zmax deltas else zmax deltas - zmin deltas)) = horizon + L + M).
    { unfold u64. destruct (Z.ltb_spec (zmax deltas) 0); [|destruct (Z.leb_spec 0 (zmin deltas))];
        rewrite (Z.mod_small (_ (zmin deltas))) || rewrite (Z.mod_small (zmax deltas)) || rewrite (Z.mod_small (zmax deltas - zmin deltas)); unfold L, M in *; try lia; rewrite Z.mod_small; lia. }
    rewrite match_ne by exact Hd. cbv zeta. rewrite E1, E2, E3. fold cap. unfold buf_new.
    destruct (Nat.eqb_spec cap 0); [unfold cap, L, M in *; lia|]. reflexivity.
  Qed.

  (** [st]: all values pushed since the buffer was created or cleared. *)
  Definition represents (t : lag T) (st : list T) : Prop :=
    lag_horizon t = horizon /\ lag_delta t = L /\ lag_offsets t = map (fun d => d + L) deltas /\
    binv (lag_buf t) /\ b_max (lag_buf t) = cap /\ contents (lag_buf t) = lastn cap st.

  Lemma push_nulls_ok : forall n b st, binv b -> b_max b = cap -> contents b = lastn cap st ->
    binv (push_nulls null n b) /\ b_max (push_nulls null n b) = cap /\ contents (push_nulls null n b) = lastn cap (st ++ repeat null n).
  Proof using Hh Hd Hu.
    induction n; intros b st H1 H2 H3; cbn [push_nulls repeat]; [rewrite app_nil_r; auto|].
    destruct (binv_push b null H1) as [P1 [P2 P3]]. replace (st ++ null :: repeat null n) with ((st ++ [null]) ++ repeat null n) by (rewrite <- app_assoc; reflexivity).
    apply IHn; auto; [congruence|]. rewrite P2, H2, H3. apply lastn_snoc.
  Qed.
  Let P := repeat null (Z.to_nat (horizon - 1 + L)).
  Lemma init_ok : forall b, binv b -> b_max b = cap -> contents b = [] ->
    represents (init_buffer null (mkLag horizon L (map (fun d => d + L) deltas) b)) P.
  Proof using Hh Hd Hu.
    intros b H1 H2 H3. unfold represents, init_buffer. cbn [lag_horizon lag_delta lag_offsets lag_buf].
    split; [reflexivity|]. split; [reflexivity|]. split; [reflexivity|].
    unfold lag_min. cbn [lag_offsets lag_delta]. rewrite zmin_shift.
    destruct (push_nulls_ok (Z.to_nat (horizon - 1)) b [] H1 H2 H3) as [A [B C]].
    destruct (Z.ltb_spec (zmin deltas) 0).
    - destruct (push_nulls_ok (Z.to_nat (- zmin deltas)) _ _ A B C) as [A' [B' C']]. split; [exact A'|]. split; [exact B'|].
      rewrite C'. f_equal. cbn [app]. rewrite <- repeat_app. unfold P. f_equal. unfold L. lia.
    - split; [exact A|]. split; [exact B|]. rewrite C. cbn [app]. unfold P. do 2 f_equal. unfold L. lia.
  Qed.
  Lemma lag0_ok : represents lag0 P.
  Proof using Hh Hd Hu. apply init_ok; [|reflexivity|reflexivity]. unfold binv. cbn. unfold cap, L, M. repeat split; lia. Qed.

  (** The matrix read off the stream. *)
  Definition mat (st : list T) (m : nat) : list (list T) :=
    map (fun d => firstn h (skipn (m + Z.to_nat (d + L)) st)) deltas.
  Lemma mat_app : forall a b m, (m + cap <= length a)%nat -> mat (a ++ b) m = mat a m.
  Proof using Hh Hd Hu.
    intros a b m H. unfold mat. apply map_ext_in. intros d Hin. pose proof (zmin_le deltas d Hin). pose proof (zmax_ge deltas d Hin).
    assert (m + Z.to_nat (d + L) + h <= length a)%nat by (unfold cap, h, L, M in *; lia).
    rewrite skipn_app. rewrite firstn_app_le by (rewrite skipn_length; lia). reflexivity.
  Qed.

  Lemma step_ok : forall t st x, represents t st -> exists t', represents t' (st ++ [x]) /\
    lag_step t x = (if Nat.leb cap (length st + 1) then [mat (st ++ [x]) (length st + 1 - cap)] else [], Ok t').
  Proof using Hh Hd Hu.
    intros t st x [R1 [R2 [R3 [R4 [R5 R6]]]]]. destruct (binv_push (lag_buf t) x R4) as [P1 [P2 P3]].
    unfold lag_step. set (b := buf_push (lag_buf t) x) in *. set (t' := mkLag _ _ _ b).
    assert (Hc : contents b = lastn cap (st ++ [x])) by (rewrite P2, R5, R6; apply lastn_snoc).
    exists t'. split.
    - unfold represents. cbn [t' lag_horizon lag_delta lag_offsets lag_buf]. repeat split; auto; try apply P1. congruence.
    - pose proof (contents_length b) as Hl. rewrite Hc, lastn_length, app_length in Hl. cbn [length] in Hl.
      unfold buf_full, buf_size. rewrite P3, R5, <- Hl.
      destruct (Nat.eqb_spec (Nat.min cap (length st + 1)) cap) as [E|E]; destruct (Nat.leb_spec cap (length st + 1)) as [F|F]; try lia; cbn [negb]; [|reflexivity].
      rewrite R1, R3.
      assert (Hm : mapM (fun o => it_take b (Z.to_nat horizon) (fst (buf_range b (Z.to_nat horizon) (Z.to_nat o)))) (map (fun d => d + L) deltas)
                   = Ok (mat (st ++ [x]) (length st + 1 - cap))).
      { unfold mat. rewrite (mapM_ok _ _ _ (fun o => firstn h (skipn (length st + 1 - cap + Z.to_nat o) (st ++ [x])))).
        - rewrite map_map. reflexivity.
        - intros o Ho. apply in_map_iff in Ho. destruct Ho as [d [<- Hin]]. pose proof (zmin_le deltas d Hin). pose proof (zmax_ge deltas d Hin).
          fold h. rewrite range_take_ok; [|exact P1| |unfold h; lia].
          2:{ rewrite <- Hl. unfold cap, h, L, M in *. lia. }
          rewrite Hc. unfold lastn. rewrite skipn_skipn, app_length. cbn [length]. do 2 f_equal. f_equal. lia. }
      rewrite Hm. reflexivity.
  Qed.
  Lemma feed_ok : forall q st t, represents t st -> exists t', represents t' (st ++ q) /\
    feed (lag_step (T := T)) t q = (map (mat (st ++ q)) (seq (length st + 1 - cap) (length st + length q + 1 - cap - (length st + 1 - cap))), Ok t').
  Proof using Hh Hd Hu.
    induction q as [|x q IH]; intros st t R.
    - exists t. rewrite app_nil_r. split; [exact R|]. cbn [feed length]. rewrite Nat.add_0_r, Nat.sub_diag. reflexivity.
    - destruct (step_ok t st x R) as [t1 [R1 E1]]. destruct (IH (st ++ [x]) t1 R1) as [t2 [R2 E2]].
      assert (Eapp : st ++ x :: q = (st ++ [x]) ++ q) by (rewrite <- app_assoc; reflexivity).
      exists t2. rewrite Eapp. split; [exact R2|]. cbn [feed]. rewrite E1, E2. rewrite app_length. cbn [length].
      destruct (Nat.leb_spec cap (length st + 1)) as [F|F].
      + replace (length st + S (length q) + 1 - cap - (length st + 1 - cap))%nat with (S (length st + 1 + length q + 1 - cap - (length st + 1 + 1 - cap))) by lia.
        cbn [seq map app]. rewrite (mat_app (st ++ [x]) q) by (rewrite app_length; cbn; lia).
        replace (S (length st + 1 - cap))%nat with (length st + 1 + 1 - cap)%nat by lia. reflexivity.
      + cbn [app]. replace (length st + 1 + 1 - cap)%nat with O by lia. replace (length st + 1 - cap)%nat with O by lia.
        do 2 f_equal. f_equal. lia.
  Qed.
  Lemma lag_steps_feed : forall n (t : lag T), lag_steps null n t = feed (lag_step (T := T)) t (repeat null n).
  Proof using Hh Hd Hu. induction n; intros t; cbn [lag_steps repeat feed]; [reflexivity|]. destruct (lag_step t null) as [o [t'|e|]]; try reflexivity. rewrite IHn. reflexivity. Qed.

  Lemma firstn_skipn_nth : forall (s : list T) k n, (k + n <= length s)%nat -> firstn n (skipn k s) = map (fun c => nth (k + c) s null) (seq 0 n).
  Proof using Hh Hd Hu.
    intros s k n. revert k. induction n as [|n IH]; intros k H; [reflexivity|].
    destruct (nth_error s k) as [x|] eqn:E; [|apply nth_error_None in E; lia].
    rewrite (firstn_skipn_cons _ _ _ _ E). cbn [seq map]. rewrite Nat.add_0_r, (nth_error_nth s k null E). f_equal.
    rewrite IH by lia. rewrite <- seq_shift, map_map. apply map_ext. intros c. f_equal. lia.
  Qed.
  Lemma mat_spec : forall (l : list T) m, (m < length l)%nat -> mat (P ++ l ++ repeat null (Z.to_nat M)) m = lag_matrix null l horizon deltas m.
  Proof using Hh Hd Hu.
    intros l m Hm. unfold mat, lag_matrix. apply map_ext_in. intros d Hin. pose proof (zmin_le deltas d Hin) as A. pose proof (zmax_ge deltas d Hin) as B.
    rewrite firstn_skipn_nth.
    2:{ rewrite !app_length. unfold P. rewrite !repeat_length. unfold h, L, M in *. lia. }
    fold h. apply map_ext_in. intros c Hc. apply in_seq in Hc. unfold input_at.
    destruct (Z.ltb_spec (Z.of_nat m + d - (horizon - 1 - Z.of_nat c)) 0) as [F|F].
    - rewrite app_nth1 by (unfold P; rewrite repeat_length; unfold L in *; lia). unfold P. apply nth_repeat.
    - rewrite app_nth2 by (unfold P; rewrite repeat_length; unfold L in *; lia). unfold P. rewrite repeat_length.
      replace (m + Z.to_nat (d + L) + c - Z.to_nat (horizon - 1 + L))%nat with (Z.to_nat (Z.of_nat m + d - (horizon - 1 - Z.of_nat c))) by (unfold L in *; lia).
      set (i := Z.to_nat _). destruct (Nat.lt_ge_cases i (length l)) as [G|G].
      + now rewrite app_nth1.
      + rewrite app_nth2 by lia. rewrite nth_repeat. symmetry. apply nth_overflow. lia.
  Qed.

  Lemma lag_spec : exists tr, lag_lead null horizon deltas = Ok tr /\
    forall l : list T, run_all tr (t_cur tr) l = (map (lag_matrix null l horizon deltas) (seq 0 (length l)), Ok (t_cur tr)).
  Proof using Hh Hd Hu.
    unfold lag_lead. rewrite lag_new_ok. cbn [bind]. eexists. split; [reflexivity|]. intros l.
    unfold run_all, run_exec. cbn [t_exec t_cur t_flush t_state].
    assert (HP : length P = Z.to_nat (horizon - 1 + L)) by (unfold P; apply repeat_length).
    destruct (feed_ok l P lag0 lag0_ok) as [t1 [R1 E1]]. rewrite E1.
    unfold lag_flush.
    assert (Hmax : lag_max t1 = zmax deltas). { destruct R1 as [_ [R12 [R13 _]]]. unfold lag_max. rewrite R12, R13. apply zmax_shift. }
    rewrite Hmax.
    assert (HM : (if 0 <? zmax deltas then Z.to_nat (zmax deltas) else O) = Z.to_nat M). { unfold M. destruct (Z.ltb_spec 0 (zmax deltas)); lia. }
    rewrite HM, lag_steps_feed.
    destruct (feed_ok (repeat null (Z.to_nat M)) (P ++ l) t1 R1) as [t2 [R2 E2]]. rewrite E2. rewrite repeat_length, app_length.
    assert (Hcap : cap = (length P + 1 + Z.to_nat M)%nat) by (rewrite HP; unfold cap, L, M; lia).
    f_equal.
    - replace (length P + 1 - cap)%nat with O by lia. rewrite Nat.sub_0_r.
      replace (length P + length l + 1 - cap)%nat with (length l - Z.to_nat M)%nat by lia.
      replace (length P + length l + Z.to_nat M + 1 - cap - (length l - Z.to_nat M))%nat with (length l - (length l - Z.to_nat M))%nat by lia.
      set (a := (length l - Z.to_nat M)%nat).
      replace (seq 0 (length l)) with (seq 0 a ++ seq a (length l - a)).
      2:{ rewrite <- (Nat.add_0_l a) at 2. rewrite <- seq_app. f_equal. lia. }
      rewrite map_app. f_equal.
      + apply map_ext_in. intros m Hin. apply in_seq in Hin. rewrite <- (mat_spec l m) by lia. rewrite app_assoc. symmetry. apply mat_app. rewrite app_length. lia.
      + apply map_ext_in. intros m Hin. apply in_seq in Hin. rewrite <- app_assoc. apply mat_spec. lia.
    - f_equal. destruct R2 as [R21 [R22 [R23 [R24 [R25 _]]]]]. rewrite R21, R22, R23. unfold lag0, buf_clear. rewrite R25. reflexivity.
  Qed.

  Lemma lag_saved_ok : forall t st, represents t st -> lag_saved t = (horizon, deltas).
  Proof using Hh Hd Hu.
    intros t st [R1 [R2 [R3 _]]]. unfold lag_saved. rewrite R1, R2, R3, map_map. f_equal. rewrite <- (map_id deltas) at 2. apply map_ext. intros; lia.
  Qed.
  Lemma ints_map : forall l, ints (map VInt l) = l.
  Proof using Hh Hd Hu. intros l. unfold ints. rewrite map_map. apply map_id. Qed.
  Lemma lag_reload : forall t st further, represents t st -> Z.of_nat (length deltas) < 2 ^ 32 ->
    lag_load null (lag_save t ++ further) = Ok (lag0, further).
  Proof using Hh Hd Hu.
    intros t st further R Hn. unfold lag_save, lag_load. rewrite (lag_saved_ok t st R). cbn [fst snd]. rewrite <- !app_assoc, read_version_ok. cbn [bind snd].
    rewrite dec_roundtrip.
    - cbn [bind fst snd]. rewrite ints_map, lag_new_ok. reflexivity.
    - change (fits_u 4 horizon && (len32 (map VInt deltas) && forallb (wt (TSInt 8)) (map VInt deltas)) = true).
      apply andb_true_intro. split; [unfold fits_u; change (two_pow8 4) with (2 ^ 32); unfold L, M in *; lia|].
      apply andb_true_intro. split; [unfold len32; rewrite map_length; lia|].
      apply forallb_forall. intros v Hv. apply in_map_iff in Hv. destruct Hv as [d [<- Hin]].
      pose proof (zmin_le deltas d Hin). pose proof (zmax_ge deltas d Hin). change (fits_s 8 d && (1 <=? 8) = true).
      unfold fits_s. change (two_pow8 8 / 2) with (2 ^ 63). unfold L, M in *. lia.
  Qed.
  Lemma lag_save_load : exists t0, lag_new null horizon deltas = Ok t0 /\
    forall (l : list T) o t further, feed (lag_step (T := T)) t0 l = (o, Ok t) -> Z.of_nat (length deltas) < 2 ^ 32 ->
      lag_load null (lag_save t ++ further) = Ok (t0, further).
  Proof using Hh Hd Hu.
    exists lag0. split; [apply lag_new_ok|]. intros l o t further F Hn. destruct (feed_ok l P lag0 lag0_ok) as [t1 [R1 E1]].
    rewrite E1 in F. injection F as _ <-. exact (lag_reload t1 _ further R1 Hn).
  Qed.
End Lag.

Lemma lag_rejects : forall (T : Type) (null : T) (horizon : Z) (deltas : list Z),
  lag_new null 0 deltas = Throw InvalidArgument /\ lag_new null (Z.succ (Z.abs horizon)) [] = Throw InvalidArgument.
Proof.
  intros T null horizon deltas. split; [reflexivity|]. unfold lag_new. destruct (Z.eqb_spec (Z.succ (Z.abs horizon)) 0); [lia|reflexivity].
Qed.
