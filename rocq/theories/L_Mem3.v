(** Proofs about M_Mem: rows of numbers, grains with matrices, the list of countries. *)
From Verif Require Import Base M_Date M_Mem S_Mem L_Mem L_Mem2.
Open Scope Z_scope.

Definition row_owned (p : option Z) (r : list Z) (o : heap) : Prop :=
  match r with [] => p = None /\ o = [] | _ => exists c, p = Some c /\ o = [(c, map Num r)] end.
Definition name_owned (p : option Z) (s : list Z) (o : heap) : Prop := exists c, p = Some c /\ o = [(c, map Num s ++ [Num 0])].
Definition lag_owned (p q : option Z) (x : list (list Z) * matrix) (o : heap) : Prop :=
  exists a d ns no, p = Some a /\ q = Some d /\ o = (d, map Num (m_data (snd x))) :: no ++ [(a, map Ptr ns)] /\
                    owned_list name_owned ns (fst x) no.
Fixpoint owned_lags (ps qs : list (option Z)) (l : list (list (list Z) * matrix)) (o : heap) : Prop :=
  match ps, qs, l with
  | [], [], [] => o = []
  | p :: ps', q :: qs', x :: l' => exists o1 o2, o = o2 ++ o1 /\ lag_owned p q x o1 /\ owned_lags ps' qs' l' o2
  | _, _, _ => False
  end.
Definition size_cell (x : list (list Z) * matrix) : cell := Num (Z.of_nat (length (fst x))).
Definition cols_cell (x : list (list Z) * matrix) : cell := Num (Z.of_nat (m_cols (snd x))).
Definition rows_cell (x : list (list Z) * matrix) : cell := Num (Z.of_nat (m_rows (snd x))).
Definition count_cell (r : list Z) : cell := Num (Z.of_nat (length r)).

Lemma nth_mid {A : Type} (u v : list A) (x : A) : nth_error (u ++ x :: v) (length u) = Some x.
Proof. rewrite nth_error_app2 by lia. rewrite Nat.sub_diag. reflexivity. Qed.
Lemma nth_ptr (ps qs : list (option Z)) (q : option Z) : nth_error (map Ptr (ps ++ q :: qs)) (length ps) = Some (Ptr q).
Proof. rewrite map_app. cbn [map]. rewrite <- (map_length Ptr ps). apply nth_mid. Qed.
Lemma nth_map {X : Type} (f : X -> cell) (u v : list X) (x : X) (n : nat) : n = length u -> nth_error (map f (u ++ x :: v)) n = Some (f x).
Proof. intros ->. rewrite map_app. cbn [map]. rewrite <- (map_length f u). apply nth_mid. Qed.

Ltac laps := cbn [app]; repeat (rewrite <- app_assoc; cbn [app]); reflexivity.

Section Kinds.
  Variable place : nat -> list Z -> option Z.
  Hypothesis Hplace : allocator place.
  Variable what : list Z.

  (* -------------------------------------------------- rows of numbers -------------------------------------------------- *)
  Lemma put_rows_trip (a b : Z) (ys : heap) (l : list (list Z)) : forall (i : nat) (ps : list (option Z)) (dn : list (list Z)) (xs : heap),
    length ps = i -> length dn = i ->
    trip place (xs ++ (b, map count_cell dn ++ repeat Junk (length l)) :: (a, map Ptr ps ++ repeat Junk (length l)) :: ys)
      (put_rows place a b i l)
      (fun _ post => exists qs new, post = new ++ xs ++ (b, map count_cell (dn ++ l)) :: (a, map Ptr (ps ++ qs)) :: ys /\
                                    owned_list row_owned qs l new) (fun _ => True).
  Proof.
    induction l as [|r l IH]; intros i ps dn xs Hi Hd; cbn [put_rows length repeat].
    - apply trip_done. exists [], []. rewrite !app_nil_r. split; reflexivity.
    - eapply trip_thn with (Q1 := fun _ post => exists q o, row_owned q r o /\
        post = o ++ xs ++ (b, map count_cell dn ++ Junk :: repeat Junk (length l)) :: (a, map Ptr ps ++ Ptr q :: repeat Junk (length l)) :: ys).
      { destruct r as [|c r].
        - eapply trip_mono.
          + eapply (trip_store_at place _ (xs ++ [(b, map count_cell dn ++ Junk :: repeat Junk (length l))]) ys a i (map Ptr ps)
                     (repeat Junk (length l)) Junk (Ptr None) (fun _ => True)).
            * rewrite <- app_assoc. reflexivity.
            * rewrite map_length. exact Hi.
          + intros _ post _ ->. exists None, []. split; [split; reflexivity|]. rewrite <- app_assoc. reflexivity.
          + auto.
        - eapply trip_thn; [apply (trip_new place Hplace); exact I|]. intros d post -> _. eapply trip_thn.
          { eapply (trip_store_at place _ ((d, repeat Junk (length (c :: r))) :: xs ++ [(b, map count_cell dn ++ Junk :: repeat Junk (length l))])
                     ys a i (map Ptr ps) (repeat Junk (length l)) Junk (Ptr (Some d)) (fun _ => True)).
            - cbn [app]. rewrite <- app_assoc. reflexivity.
            - rewrite map_length. exact Hi. }
          intros _ post -> _. eapply trip_mono.
          + eapply (trip_eq place _ ([] ++ (d, repeat Junk (length (map Num (c :: r)))) ::
              xs ++ (b, map count_cell dn ++ Junk :: repeat Junk (length l)) :: (a, map Ptr ps ++ Ptr (Some d) :: repeat Junk (length l)) :: ys)).
            * rewrite map_length. cbn [app]. rewrite <- app_assoc. reflexivity.
            * apply (trip_fill_all place _ _ d (fun _ => True)).
          + intros _ post _ ->. exists (Some d), [(d, map Num (c :: r))]. split; [exists d; split; reflexivity|]. reflexivity.
          + auto. }
      intros _ post (q & o & Ho & ->) _. eapply trip_thn.
      { eapply (trip_store_at place _ (o ++ xs) _ b i (map count_cell dn) (repeat Junk (length l)) Junk (count_cell r) (fun _ => True)).
        - rewrite <- app_assoc. reflexivity.
        - rewrite map_length. exact Hd. }
      intros _ post -> _. eapply trip_eq; [|eapply trip_mono; [apply (IH (S i) (ps ++ [q]) (dn ++ [r]) (o ++ xs))|..]].
      + rewrite !map_app. cbn [map]. rewrite <- !app_assoc. cbn [app]. reflexivity.
      + rewrite app_length. cbn [length]. lia.
      + rewrite app_length. cbn [length]. lia.
      + intros _ post _ (qs & new & -> & Hq). exists (q :: qs), (new ++ o). rewrite <- !app_assoc. cbn [app].
        split; [reflexivity|]. exists o, new. split; [reflexivity|]. split; assumption.
      + auto.
  Qed.
  Definition rows_owned (l : list (list Z)) (o : option Z * option Z * nat) (owned : heap) : Prop :=
    let '(p, q, n) := o in n = length l /\
    match l with
    | [] => p = None /\ q = None /\ owned = []
    | _ => exists a b ps new, p = Some a /\ q = Some b /\ owned = new ++ [(b, map count_cell l); (a, map Ptr ps)] /\
                              owned_list row_owned ps l new
    end.
  Lemma out_rows_trip (l : list (list Z)) : trip place [] (out_rows place l) (rows_owned l) (fun _ => True).
  Proof.
    unfold out_rows. destruct l as [|x l].
    - apply trip_done. split; [reflexivity|]. repeat split; reflexivity.
    - eapply trip_thn; [apply (trip_new place Hplace); exact I|]. intros a post -> _.
      eapply trip_thn; [apply (trip_new place Hplace); exact I|]. intros b post -> _. eapply trip_thn.
      { apply (put_rows_trip a b [] (x :: l) 0 [] [] [] eq_refl eq_refl). }
      intros _ post (qs & new & -> & Hq) _. apply trip_done. split; [reflexivity|]. exists a, b, qs, new. auto.
  Qed.
  Lemma row_removes (h : heap) (ks : list Z) (p : option Z) (r : list Z) (o : heap) :
    well h -> row_owned p r o -> incl o h -> (forall k, In k (map fst o) -> ~ In k ks) ->
    removes h ks (map fst o) (match p with None => done tt | Some c => delete_array c end).
  Proof using Type.
    intros Hw Ho Hi Hk. unfold row_owned in *. destruct r as [|c r].
    - destruct Ho as [-> ->]. apply removes_done.
    - destruct Ho as (a & -> & ->). cbn [map fst]. apply (removes_delete h ks a (map Num (c :: r)) Hw).
      + apply Hi. left. reflexivity.
      + apply Hk. left. reflexivity.
  Qed.
  Lemma free_rows_removes (h : heap) (a b : Z) (l0 : list (list Z)) (ps0 : list (option Z)) :
    well h -> In (a, map Ptr ps0) h -> In (b, map count_cell l0) h ->
    forall (l dn : list (list Z)) (ps qs : list (option Z)) (o : heap) (ks : list Z),
    ps0 = ps ++ qs -> l0 = dn ++ l -> length ps = length dn -> owned_list row_owned qs l o -> NoDup (map fst o) -> incl o h ->
    (forall k, In k (map fst o) -> ~ In k ks) -> ~ In a ks -> ~ In a (map fst o) -> ~ In b ks -> ~ In b (map fst o) ->
    removes h ks (map fst o) (free_rows a b (length ps) (length l)).
  Proof using Type.
    intros Hw Ha Hb. induction l as [|r l IH]; intros dn ps [|q qs] o ks Ep El Hl Ho Hn Hi Hk Hak Hao Hbk Hbo;
      cbn [owned_list] in Ho; try contradiction; cbn [free_rows length].
    - subst o. apply removes_done.
    - destruct Ho as (o1 & o2 & -> & H1 & H2). destruct (nodup_app _ _ Hn) as (Hn2 & Hn1 & D).
      rewrite map_app in Hk, Hao, Hbo |- *.
      apply (removes_load_ptr h ks _ a _ (length ps) q _ Hw Ha Hak); [rewrite Ep; apply nth_ptr|].
      apply (removes_load_num h ks _ b _ (length ps) (Z.of_nat (length r)) _ Hw Hb Hbk); [rewrite El; exact (nth_map count_cell dn l r _ Hl)|].
      unfold consistent. apply removes_require.
      { rewrite Nat2Z.id. unfold row_owned in H1. destruct r; [destruct H1 as [-> _]; reflexivity|destruct H1 as (? & -> & _); reflexivity]. }
      apply removes_thn.
      + apply (row_removes h ks q r o1 Hw H1).
        * intros x Hx. apply Hi, in_or_app. right. exact Hx.
        * intros k Hx. apply Hk, in_or_app. right. exact Hx.
      + replace (S (length ps)) with (length (ps ++ [q])) by (rewrite app_length; cbn [length]; lia).
        apply (IH (dn ++ [r]) (ps ++ [q]) qs o2).
        * rewrite <- app_assoc. exact Ep.
        * rewrite <- app_assoc. exact El.
        * rewrite !app_length. cbn [length]. lia.
        * exact H2.
        * exact Hn2.
        * intros x Hx. apply Hi, in_or_app. left. exact Hx.
        * intros k Hx G. apply in_app_or in G as [G|G]; [exact (D k Hx G)|]. apply (Hk k); [apply in_or_app; left; exact Hx|exact G].
        * intros G. apply in_app_or in G as [G|G]; [|exact (Hak G)]. apply Hao, in_or_app. right. exact G.
        * intros G. apply Hao, in_or_app. left. exact G.
        * intros G. apply in_app_or in G as [G|G]; [|exact (Hbk G)]. apply Hbo, in_or_app. right. exact G.
        * intros G. apply Hbo, in_or_app. left. exact G.
  Qed.
  Lemma rows_given (l : list (list Z)) :
    handed_over place what (out_rows place l) (fun o => let '(p, q, n) := o in destroy_rows p q n) (shows_rows l) /\
    ends place what (out_rows place l).
  Proof.
    assert (T := out_rows_trip l). split; [|exact (ends_of place Hplace what _ _ _ T)].
    refine (glue place what _ _ _ _ _ T _).
    intros [[p q] n] owned h [Hc Ho] Hn Hw Hi. unfold shows_rows, destroy_rows, consistent, same_nullness.
    destruct l as [|x l]; subst n.
    - destruct Ho as (-> & -> & ->). split; [split; [reflexivity|split; reflexivity]|]. exists []. split; [reflexivity|].
      apply removes_require; [reflexivity|]. apply removes_require; [reflexivity|]. apply removes_done.
    - destruct Ho as (a & b & ps & new & -> & -> & -> & Hq).
      assert (Ia : In (a, map Ptr ps) h) by (apply Hi, in_or_app; right; right; left; reflexivity).
      assert (Ib : In (b, map count_cell (x :: l)) h) by (apply Hi, in_or_app; right; left; reflexivity).
      assert (In_ : incl new h) by (intros y Hy; apply Hi, in_or_app; left; exact Hy).
      destruct (nodup_app _ _ Hn) as (Hn1 & Hn2 & D).
      assert (Ha : ~ In a (map fst new)) by (intros G; apply (D a G); right; left; reflexivity).
      assert (Hb : ~ In b (map fst new)) by (intros G; apply (D b G); left; reflexivity).
      assert (Hab : a <> b) by (intros ->; cbn [map fst] in Hn2; inversion_clear Hn2 as [|? ? G _]; apply G; left; reflexivity).
      split.
      { split; [reflexivity|]. exists ps. split; [exists a; split; [reflexivity|exact Ia]|]. split; [exists b; split; [reflexivity|exact Ib]|].
        apply (owned_matched row_owned _ h) with (o := new); [|exact Hq|exact In_].
        intros p r o Hr Hio. unfold row_owned in Hr. destruct r; [exact (proj1 Hr)|]. destruct Hr as (c & -> & ->).
        exists c. split; [reflexivity|]. apply Hio. left. reflexivity. }
      exists ([b] ++ [a] ++ map fst new). split.
      { intros k. rewrite map_app, !in_app_iff. cbn [map fst In]. tauto. }
      apply removes_require; [reflexivity|]. apply removes_require; [reflexivity|].
      rewrite app_assoc. apply removes_thn.
      + apply (free_rows_removes h a b (x :: l) ps Hw Ia Ib (x :: l) [] [] ps new [] eq_refl eq_refl eq_refl Hq Hn1 In_);
          [intros k _ []|intros []|exact Ha|intros []|exact Hb].
      + apply removes_thn.
        * apply (removes_delete h _ a _ Hw Ia). rewrite app_nil_r. exact Ha.
        * apply (removes_delete h _ b _ Hw Ib). rewrite app_nil_r. intros [G|G]; [exact (Hab G)|exact (Hb G)].
  Qed.

  (* -------------------------------------------------- names -------------------------------------------------- *)
  Lemma put_names_trip (a : Z) (ys : heap) (l : list (list Z)) : forall (i : nat) (ps : list (option Z)) (xs : heap), length ps = i ->
    trip place (xs ++ (a, map Ptr ps ++ repeat Junk (length l)) :: ys) (put_names place a i l)
      (fun _ post => exists qs new, post = new ++ xs ++ (a, map Ptr (ps ++ qs)) :: ys /\ owned_list name_owned qs l new) (fun _ => True).
  Proof.
    induction l as [|s l IH]; intros i ps xs Hi; cbn [put_names length repeat].
    - apply trip_done. exists [], []. rewrite !app_nil_r. split; reflexivity.
    - eapply trip_thn; [apply (trip_new place Hplace); exact I|]. intros c post -> _. eapply trip_thn.
      { eapply (trip_store_at place _ ((c, repeat Junk (S (length s))) :: xs) ys a i (map Ptr ps) (repeat Junk (length l)) Junk (Ptr (Some c)) (fun _ => True)).
        - reflexivity.
        - rewrite map_length. exact Hi. }
      intros _ post -> _. eapply trip_thn.
      { eapply (trip_eq place _ ([] ++ (c, [] ++ repeat Junk (length (map Num s)) ++ [Junk]) ::
                  xs ++ (a, map Ptr ps ++ Ptr (Some c) :: repeat Junk (length l)) :: ys)).
        - cbn [app]. rewrite map_length, junk_last. reflexivity.
        - apply (trip_fill place [] _ c (fun _ => True) (map Num s) 0 [] [Junk] eq_refl). }
      intros _ post -> _. eapply trip_thn.
      { eapply (trip_store_at place _ [] _ c _ (map Num s) [] Junk (Num 0) (fun _ => True)); [reflexivity|apply map_length]. }
      intros _ post -> _. eapply trip_eq; [|eapply trip_mono; [apply (IH (S i) (ps ++ [Some c]) ((c, map Num s ++ [Num 0]) :: xs))|..]].
      + rewrite map_app. cbn [map app]. rewrite <- !app_assoc. cbn [app]. reflexivity.
      + rewrite app_length. cbn [length]. lia.
      + intros _ post _ (qs & new & -> & Hq). exists (Some c :: qs), (new ++ [(c, map Num s ++ [Num 0])]). rewrite <- !app_assoc. cbn [app].
        split; [reflexivity|]. exists [(c, map Num s ++ [Num 0])], new. split; [reflexivity|]. split; [exists c; split; reflexivity|exact Hq].
      + auto.
  Qed.
  Lemma name_shows (h : heap) (p : option Z) (s : list Z) (o : heap) : name_owned p s o -> incl o h -> string_at h p s.
  Proof using Type. intros (c & -> & ->) Hi. exists c. split; [reflexivity|]. apply Hi. left. reflexivity. Qed.
  Lemma free_names_removes (h : heap) (a : Z) (ps0 : list (option Z)) : well h -> In (a, map Ptr ps0) h ->
    forall (l : list (list Z)) (ps qs : list (option Z)) (o : heap) (ks : list Z),
    ps0 = ps ++ qs -> owned_list name_owned qs l o -> NoDup (map fst o) -> incl o h ->
    (forall k, In k (map fst o) -> ~ In k ks) -> ~ In a ks -> ~ In a (map fst o) ->
    removes h ks (map fst o) (free_names a (length ps) (length l)).
  Proof using Type.
    intros Hw Ha. induction l as [|s l IH]; intros ps [|q qs] o ks Ep Ho Hn Hi Hk Hak Hao; cbn [owned_list] in Ho; try contradiction;
      cbn [free_names length].
    - subst o. apply removes_done.
    - destruct Ho as (o1 & o2 & -> & (c & -> & ->) & H2). destruct (nodup_app _ _ Hn) as (Hn2 & Hn1 & D).
      rewrite map_app in Hk, Hao |- *. cbn [map fst] in *.
      apply (removes_load_ptr h ks _ a _ (length ps) (Some c) _ Hw Ha Hak); [rewrite Ep; apply nth_ptr|].
      apply removes_thn.
      + apply (removes_delete h ks c (map Num s ++ [Num 0]) Hw).
        * apply Hi, in_or_app. right. left. reflexivity.
        * apply Hk, in_or_app. right. left. reflexivity.
      + replace (S (length ps)) with (length (ps ++ [Some c])) by (rewrite app_length; cbn [length]; lia).
        apply (IH (ps ++ [Some c]) qs o2).
        * rewrite <- app_assoc. exact Ep.
        * exact H2.
        * exact Hn2.
        * intros x Hx. apply Hi, in_or_app. left. exact Hx.
        * intros k Hx G. apply in_app_or in G as [G|G]; [exact (D k Hx G)|]. apply (Hk k); [apply in_or_app; left; exact Hx|exact G].
        * intros G. apply in_app_or in G as [G|G]; [|exact (Hak G)]. apply Hao, in_or_app. right. exact G.
        * intros G. apply Hao, in_or_app. left. exact G.
  Qed.

  (* -------------------------------------------------- grains with matrices -------------------------------------------------- *)
  Lemma put_lags_trip (a b c d e : Z) (ys : heap) (l : list (list (list Z) * matrix)) :
    forall (i : nat) (ps qs : list (option Z)) (dn : list (list (list Z) * matrix)) (xs : heap),
    length ps = i -> length qs = i -> length dn = i ->
    trip place
      (xs ++ (e, map Ptr qs ++ repeat Junk (length l)) :: (d, map rows_cell dn ++ repeat Junk (length l)) ::
             (c, map cols_cell dn ++ repeat Junk (length l)) :: (b, map size_cell dn ++ repeat Junk (length l)) ::
             (a, map Ptr ps ++ repeat Junk (length l)) :: ys)
      (put_lags place (mkLag a b c d e) i l)
      (fun _ post => exists ps' qs' new,
         post = new ++ xs ++ (e, map Ptr (qs ++ qs')) :: (d, map rows_cell (dn ++ l)) :: (c, map cols_cell (dn ++ l)) ::
                             (b, map size_cell (dn ++ l)) :: (a, map Ptr (ps ++ ps')) :: ys /\
         owned_lags ps' qs' l new) (fun _ => True).
  Proof.
    induction l as [|[names m] l IH]; intros i ps qs dn xs Hp Hq Hd; cbn [put_lags length repeat g_names g_sizes g_cols g_rows g_data].
    - apply trip_done. exists [], [], []. rewrite !app_nil_r. split; reflexivity.
    - eapply trip_thn; [apply (trip_new place Hplace); exact I|]. intros n post -> _. eapply trip_thn.
      { eapply (trip_store_at place _ ((n, repeat Junk (length names)) :: xs ++
                 [(e, map Ptr qs ++ Junk :: repeat Junk (length l)); (d, map rows_cell dn ++ Junk :: repeat Junk (length l));
                  (c, map cols_cell dn ++ Junk :: repeat Junk (length l)); (b, map size_cell dn ++ Junk :: repeat Junk (length l))])
                 ys a i (map Ptr ps) (repeat Junk (length l)) Junk (Ptr (Some n)) (fun _ => True)).
        - laps.
        - rewrite map_length. exact Hp. }
      intros _ post -> _. eapply trip_thn.
      { eapply trip_eq; [|eapply (put_names_trip n) with (i := O) (ps := []) (xs := []); reflexivity]. cbn [app map]. reflexivity. }
      intros _ post (ns & no & -> & Hns) _. cbn [app]. eapply trip_thn.
      { eapply (trip_store_at place _ (no ++ (n, map Ptr ns) :: xs ++
                 [(e, map Ptr qs ++ Junk :: repeat Junk (length l)); (d, map rows_cell dn ++ Junk :: repeat Junk (length l));
                  (c, map cols_cell dn ++ Junk :: repeat Junk (length l))])
                 ((a, map Ptr ps ++ Ptr (Some n) :: repeat Junk (length l)) :: ys)
                 b i (map size_cell dn) (repeat Junk (length l)) Junk (Num (Z.of_nat (length names))) (fun _ => True)).
        - laps.
        - rewrite map_length. exact Hd. }
      intros _ post -> _. eapply trip_thn; [apply (out_matrix_trip place Hplace); exact I|].
      intros x post (data & -> & ->) _. cbn [fst snd]. eapply trip_thn.
      { eapply (trip_store_at place _ ((data, map Num (m_data m)) :: no ++ (n, map Ptr ns) :: xs)
                 ((d, map rows_cell dn ++ Junk :: repeat Junk (length l)) :: (c, map cols_cell dn ++ Junk :: repeat Junk (length l)) ::
                  (b, map size_cell dn ++ Num (Z.of_nat (length names)) :: repeat Junk (length l)) ::
                  (a, map Ptr ps ++ Ptr (Some n) :: repeat Junk (length l)) :: ys)
                 e i (map Ptr qs) (repeat Junk (length l)) Junk (Ptr (Some data)) (fun _ => True)).
        - laps.
        - rewrite map_length. exact Hq. }
      intros _ post -> _. eapply trip_thn.
      { eapply (trip_store_at place _ ((data, map Num (m_data m)) :: (no ++ (n, map Ptr ns) :: xs) ++
                 [(e, map Ptr qs ++ Ptr (Some data) :: repeat Junk (length l)); (d, map rows_cell dn ++ Junk :: repeat Junk (length l))])
                 ((b, map size_cell dn ++ Num (Z.of_nat (length names)) :: repeat Junk (length l)) ::
                  (a, map Ptr ps ++ Ptr (Some n) :: repeat Junk (length l)) :: ys)
                 c i (map cols_cell dn) (repeat Junk (length l)) Junk (Num (Z.of_nat (m_cols m))) (fun _ => True)).
        - laps.
        - rewrite map_length. exact Hd. }
      intros _ post -> _. eapply trip_thn.
      { eapply (trip_store_at place _ ((data, map Num (m_data m)) :: (no ++ (n, map Ptr ns) :: xs) ++
                 [(e, map Ptr qs ++ Ptr (Some data) :: repeat Junk (length l))])
                 ((c, map cols_cell dn ++ Num (Z.of_nat (m_cols m)) :: repeat Junk (length l)) ::
                  (b, map size_cell dn ++ Num (Z.of_nat (length names)) :: repeat Junk (length l)) ::
                  (a, map Ptr ps ++ Ptr (Some n) :: repeat Junk (length l)) :: ys)
                 d i (map rows_cell dn) (repeat Junk (length l)) Junk (Num (Z.of_nat (m_rows m))) (fun _ => True)).
        - laps.
        - rewrite map_length. exact Hd. }
      intros _ post -> _.
      eapply trip_eq; [|eapply trip_mono;
        [apply (IH (S i) (ps ++ [Some n]) (qs ++ [Some data]) (dn ++ [(names, m)]) ((data, map Num (m_data m)) :: no ++ (n, map Ptr ns) :: xs))|..]].
      + rewrite !map_app. cbn [map app]. unfold rows_cell, cols_cell, size_cell. cbn [fst snd]. laps.
      + rewrite app_length. cbn [length]. lia.
      + rewrite app_length. cbn [length]. lia.
      + rewrite app_length. cbn [length]. lia.
      + intros _ post _ (ps' & qs' & new & -> & Hl).
        exists (Some n :: ps'), (Some data :: qs'), (new ++ (data, map Num (m_data m)) :: no ++ [(n, map Ptr ns)]). split.
        * laps.
        * exists ((data, map Num (m_data m)) :: no ++ [(n, map Ptr ns)]), new. split; [reflexivity|]. split; [|exact Hl].
          exists n, data, ns, no. auto.
      + auto.
  Qed.
End Kinds.
