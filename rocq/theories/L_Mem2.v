(** Proofs about M_Mem: strings, time points, sparse vectors, matrices, arrays of numbers and of strings, saved bytes. *)
From Verif Require Import Base M_Date M_Mem S_Mem L_Mem.
Open Scope Z_scope.

Lemma junk_last (n : nat) : repeat Junk (S n) = repeat Junk n ++ [Junk].
Proof. cbn [repeat]. apply repeat_cons. Qed.

Definition string_owned (p : option Z) (s : list Z) (o : heap) : Prop :=
  match s with [] => p = None /\ o = [] | _ => exists a, p = Some a /\ o = [(a, map Num s ++ [Num 0])] end.

(** Elements of an array and the arrays they own. *)
Fixpoint owned_list {X : Type} (E : option Z -> X -> heap -> Prop) (ps : list (option Z)) (l : list X) (o : heap) : Prop :=
  match ps, l with
  | [], [] => o = []
  | p :: ps', x :: l' => exists o1 o2, o = o2 ++ o1 /\ E p x o1 /\ owned_list E ps' l' o2
  | _, _ => False
  end.
Lemma owned_matched {X : Type} (E : option Z -> X -> heap -> Prop) (P : option Z -> X -> Prop) (h : heap) :
  (forall p x o, E p x o -> incl o h -> P p x) -> forall (l : list X) (ps : list (option Z)) (o : heap),
  owned_list E ps l o -> incl o h -> matched P ps l.
Proof.
  intros HP. induction l as [|x l IH]; intros [|p ps] o Ho Hi; cbn [owned_list matched] in *; try contradiction; [exact I|].
  destruct Ho as (o1 & o2 & -> & H1 & H2). split.
  - apply (HP p x o1 H1). intros y Hy. apply Hi, in_or_app. right. exact Hy.
  - apply (IH ps o2 H2). intros y Hy. apply Hi, in_or_app. left. exact Hy.
Qed.
Lemma owned_length {X : Type} (E : option Z -> X -> heap -> Prop) : forall (l : list X) (ps : list (option Z)) (o : heap),
  owned_list E ps l o -> length ps = length l.
Proof.
  induction l as [|x l IH]; intros [|p ps] o Ho; cbn [owned_list] in *; try contradiction; [reflexivity|].
  destruct Ho as (o1 & o2 & _ & _ & H2). cbn [length]. f_equal. exact (IH ps o2 H2).
Qed.
Lemma nodup_app (xs ys : heap) : NoDup (map fst (xs ++ ys)) ->
  NoDup (map fst xs) /\ NoDup (map fst ys) /\ forall k, In k (map fst xs) -> ~ In k (map fst ys).
Proof.
  intros Hn. split; [exact (nodup_app_l _ _ Hn)|]. split; [exact (nodup_app_r _ _ Hn)|]. induction xs as [|[k b] xs IH]; intros j Hj; [contradiction|].
  cbn [app map fst] in *. inversion_clear Hn as [|? ? H1 H2]. destruct Hj as [<-|Hj]; [|exact (IH H2 j Hj)].
  intros G. apply H1. rewrite map_app. apply in_or_app. right. exact G.
Qed.
Lemma fst_in (h o : heap) (a : Z) (b : list cell) : In (a, b) o -> In a (map fst o).
Proof. intros Hi. apply in_map_iff. exists (a, b). split; [reflexivity|exact Hi]. Qed.

Section Kinds.
  Variable place : nat -> list Z -> option Z.
  Hypothesis Hplace : allocator place.
  Variable what : list Z.

  Lemma trip_eq {A : Type} (pre pre' : heap) (m : act A) (Q : A -> heap -> Prop) (R : heap -> Prop) :
    pre = pre' -> trip place pre' m Q R -> trip place pre m Q R.
  Proof using Type. intros -> H. exact H. Qed.
  Lemma trip_store_at (pre xs ys : heap) (a : Z) (i : nat) (u v : list cell) (x c : cell) (R : heap -> Prop) :
    pre = xs ++ (a, u ++ x :: v) :: ys -> length u = i ->
    trip place pre (store a i c) (fun _ post => post = xs ++ (a, u ++ c :: v) :: ys) R.
  Proof using Type. intros -> Hi. apply trip_store. exact Hi. Qed.

  (* -------------------------------------------------- strings -------------------------------------------------- *)
  Lemma out_string_trip (s : list Z) (pre : heap) (R : heap -> Prop) : R pre ->
    trip place pre (out_string place s) (fun p post => exists o, post = o ++ pre /\ string_owned p s o) R.
  Proof.
    intros HR. unfold out_string. destruct s as [|c s].
    - apply trip_done. exists []. split; [reflexivity|]. split; reflexivity.
    - eapply trip_thn; [apply (trip_new place Hplace); exact HR|]. intros a post -> _.
      eapply trip_thn.
      + eapply (trip_eq _ ([] ++ (a, [] ++ repeat Junk (length (map Num (c :: s))) ++ [Junk]) :: pre)).
        { cbn [app]. rewrite map_length, junk_last. reflexivity. }
        apply (trip_fill place [] pre a R (map Num (c :: s)) 0 [] [Junk] eq_refl).
      + intros _ post -> _. eapply trip_thn.
        * eapply (trip_store_at _ [] pre a _ (map Num (c :: s)) [] Junk (Num 0)); [reflexivity|apply map_length].
        * intros _ post -> _. apply trip_done. exists [(a, map Num (c :: s) ++ [Num 0])]. split; [reflexivity|].
          exists a. split; reflexivity.
  Qed.
  Lemma string_shows (h : heap) (p : option Z) (s : list Z) (o : heap) : string_owned p s o -> incl o h -> string_or_null h p s.
  Proof using Type.
    intros Ho Hi. unfold string_owned, string_or_null in *. destruct s as [|c s]; [exact (proj1 Ho)|].
    destruct Ho as (a & -> & ->). exists a. split; [reflexivity|]. apply Hi. left. reflexivity.
  Qed.
  Lemma string_removes (h : heap) (ks : list Z) (p : option Z) (s : list Z) (o : heap) :
    well h -> string_owned p s o -> incl o h -> (forall k, In k (map fst o) -> ~ In k ks) ->
    removes h ks (map fst o) (destroy_string p).
  Proof using Type.
    intros Hw Ho Hi Hk. unfold string_owned, destroy_string in *. destruct s as [|c s].
    - destruct Ho as [-> ->]. apply removes_done.
    - destruct Ho as (a & -> & ->). cbn [map fst]. apply (removes_delete h ks a (map Num (c :: s) ++ [Num 0]) Hw).
      + apply Hi. left. reflexivity.
      + apply Hk. left. reflexivity.
  Qed.
  Lemma string_given (s : list Z) :
    handed_over place what (out_string place s) destroy_string (fun h p => string_or_null h p s) /\
    ends place what (out_string place s) /\ leaks_nothing place what (out_string place s).
  Proof.
    assert (T : trip place [] (out_string place s) (fun p post => exists o, post = o ++ [] /\ string_owned p s o) (fun post => post = [])).
    { apply out_string_trip. reflexivity. }
    split; [|split; [exact (ends_of place Hplace what _ _ _ T)|exact (leaks_of place what _ _ T)]].
    refine (glue place what _ _ _ _ _ T _). intros p owned h (o & -> & Ho) Hn Hw Hi. rewrite app_nil_r in *.
    split; [exact (string_shows h p s o Ho Hi)|]. exists (map fst o). split; [reflexivity|].
    apply (string_removes h [] p s o Hw Ho Hi). intros k _ [].
  Qed.

  (* -------------------------------------------------- time points -------------------------------------------------- *)
  Definition time_owned (t : time_fields) (c : c_time) (o : heap) : Prop :=
    exists o1 o2 o3 o4, o = o4 ++ o3 ++ o2 ++ o1 /\
      c_numbers c = [year t; month t; day t; hour t; minute t; second t; am_pm t; hour12 t; day_of_week t; day_of_quarter t;
                     day_of_year t; week_of_month t; quarter_of_year t; half_of_year t; week_iso t; year_iso t; is_paid_time_off t] /\
      string_owned (c_month c) (month_label t) o1 /\ string_owned (c_am_pm c) (am_pm_label t) o2 /\
      string_owned (c_day c) (day_of_week_label t) o3 /\ string_owned (c_holiday c) (holiday_name t) o4.
  Lemma out_time_trip (t : time_fields) : trip place [] (out_time place t) (time_owned t) (fun _ => True).
  Proof.
    unfold out_time. cbv zeta.
    eapply trip_thn; [apply (out_string_trip (month_label t) [] (fun _ => True) I)|]. intros p1 post1 (o1 & -> & H1) _.
    eapply trip_thn; [apply (out_string_trip (am_pm_label t) _ (fun _ => True) I)|]. intros p2 post2 (o2 & -> & H2) _.
    eapply trip_thn; [apply (out_string_trip (day_of_week_label t) _ (fun _ => True) I)|]. intros p3 post3 (o3 & -> & H3) _.
    eapply trip_thn; [apply (out_string_trip (holiday_name t) _ (fun _ => True) I)|]. intros p4 post4 (o4 & -> & H4) _.
    apply trip_done. exists o1, o2, o3, o4. cbn [c_numbers c_month c_am_pm c_day c_holiday]. rewrite app_nil_r.
    split; [reflexivity|]. split; [reflexivity|]. auto.
  Qed.
  Lemma time_given (t : time_fields) :
    handed_over place what (out_time place t) (fun c => destroy_time (Some c)) (shows_time t) /\ ends place what (out_time place t).
  Proof.
    split; [|exact (ends_of place Hplace what _ _ _ (out_time_trip t))].
    refine (glue place what _ _ _ _ _ (out_time_trip t) _).
    intros c owned h (o1 & o2 & o3 & o4 & -> & Hnum & H1 & H2 & H3 & H4) Hn Hw Hi.
    assert (I1 : incl o1 h) by (intros x Hx; apply Hi; rewrite !in_app_iff; auto).
    assert (I2 : incl o2 h) by (intros x Hx; apply Hi; rewrite !in_app_iff; auto).
    assert (I3 : incl o3 h) by (intros x Hx; apply Hi; rewrite !in_app_iff; auto).
    assert (I4 : incl o4 h) by (intros x Hx; apply Hi; rewrite !in_app_iff; auto).
    split.
    - unfold shows_time. split; [exact Hnum|].
      split; [exact (string_shows h _ _ o1 H1 I1)|]. split; [exact (string_shows h _ _ o2 H2 I2)|].
      split; [exact (string_shows h _ _ o3 H3 I3)|exact (string_shows h _ _ o4 H4 I4)].
    - destruct (nodup_app _ _ Hn) as (_ & Hn3 & D4). destruct (nodup_app _ _ Hn3) as (_ & Hn2 & D3).
      destruct (nodup_app _ _ Hn2) as (_ & _ & D2).
      exists (map fst o4 ++ map fst o3 ++ map fst o2 ++ map fst o1). split; [intros k; rewrite !map_app; reflexivity|].
      unfold destroy_time. rewrite !app_assoc.
      apply removes_ext with (js := ((map fst o4 ++ map fst o3) ++ map fst o2) ++ map fst o1); [reflexivity|].
      apply removes_thn; [apply (string_removes h [] _ _ o1 Hw H1 I1); intros k _ []|].
      apply removes_thn.
      { apply (string_removes h _ _ _ o2 Hw H2 I2). intros k Hk. rewrite app_nil_r. apply D2. exact Hk. }
      apply removes_thn.
      { apply (string_removes h _ _ _ o3 Hw H3 I3). intros k Hk. rewrite app_nil_r, <- map_app. apply D3. exact Hk. }
      apply (string_removes h _ _ _ o4 Hw H4 I4). intros k Hk. rewrite app_nil_r, <- !map_app. apply D4. exact Hk.
  Qed.

  (* -------------------------------------------------- sparse vectors -------------------------------------------------- *)
  Definition sparse_owned (n : Z) (vs : list (Z * Z)) (o : Z * nat * Z * Z) (owned : heap) : Prop :=
    let '(elements, count, a, b) := o in elements = n /\ count = length vs /\
    owned = [(b, map (fun p => Num (snd p)) vs); (a, map (fun p => Num (fst p)) vs)].
  Lemma out_sparse_trip (n : Z) (vs : list (Z * Z)) :
    trip place [] (out_sparse place n vs) (sparse_owned n vs) (fun post => post = []).
  Proof.
    unfold out_sparse. eapply trip_thn; [apply (trip_new place Hplace); reflexivity|]. intros a post -> _.
    apply trip_guard. eapply trip_thn.
    { apply (trip_new place Hplace). exists [], [], (repeat Junk (length vs)). split; reflexivity. }
    intros b post -> Hn. apply trip_guard. eapply trip_thn.
    { eapply (trip_eq _ ([(b, repeat Junk (length vs))] ++ (a, repeat Junk (length (map (fun p : Z * Z => Num (fst p)) vs))) :: [])).
      - rewrite map_length. reflexivity.
      - apply trip_fill_all. }
    intros _ post -> _. eapply trip_thn.
    { eapply (trip_eq _ ([] ++ (b, repeat Junk (length (map (fun p : Z * Z => Num (snd p)) vs))) :: [(a, map (fun p : Z * Z => Num (fst p)) vs)])).
      - rewrite map_length. reflexivity.
      - apply trip_fill_all. }
    intros _ post -> _. apply trip_done. split; [reflexivity|]. split; reflexivity.
  Qed.
  Lemma sparse_given (n : Z) (vs : list (Z * Z)) : n <> 0 -> vs <> [] ->
    handed_over place what (out_sparse place n vs) (fun o => let '(e, c, a, b) := o in destroy_sparse e c (Some a) (Some b)) (shows_sparse n vs).
  Proof using Hplace.
    intros Hz Hv. refine (glue place what _ _ _ _ _ (out_sparse_trip n vs) _).
    intros [[[e c] a] b] owned h (-> & -> & ->) Hn Hw Hi.
    assert (Ia : In (a, map (fun p : Z * Z => Num (fst p)) vs) h) by (apply Hi; right; left; reflexivity).
    assert (Ib : In (b, map (fun p : Z * Z => Num (snd p)) vs) h) by (apply Hi; left; reflexivity).
    split.
    - unfold shows_sparse. split; [reflexivity|]. split; [reflexivity|]. split; [exists a|exists b]; split; auto.
    - exists [b; a]. split; [reflexivity|]. unfold destroy_sparse.
      apply removes_require; [apply negb_true_iff, Z.eqb_neq; exact Hz|].
      apply removes_require; [destruct vs; [contradiction|reflexivity]|].
      apply (removes_thn h [] [a] [b]).
      + apply (removes_delete h [] a _ Hw Ia). intros [].
      + apply (removes_delete h [a] b _ Hw Ib). cbn [map fst] in Hn. inversion_clear Hn as [|? ? G _]. intros [<-|[]]. apply G. left. reflexivity.
  Qed.
  Lemma sparse_safe (n : Z) (vs : list (Z * Z)) : ends place what (out_sparse place n vs) /\ leaks_nothing place what (out_sparse place n vs).
  Proof. split; [exact (ends_of place Hplace what _ _ _ (out_sparse_trip n vs))|exact (leaks_of place what _ _ (out_sparse_trip n vs))]. Qed.

  (* -------------------------------------------------- matrices -------------------------------------------------- *)
  Lemma out_matrix_trip (m : matrix) (pre : heap) (R : heap -> Prop) : R pre ->
    trip place pre (out_matrix place m)
      (fun o post => exists a, o = (m_cols m, m_rows m, a) /\ post = (a, map Num (m_data m)) :: pre) R.
  Proof.
    intros HR. unfold out_matrix. eapply trip_thn; [apply (trip_new place Hplace); exact HR|]. intros a post -> _.
    eapply trip_thn.
    { eapply (trip_eq _ ([] ++ (a, repeat Junk (length (map Num (m_data m)))) :: pre)).
      - rewrite map_length. reflexivity.
      - apply trip_fill_all. }
    intros _ post -> _. apply trip_done. exists a. split; reflexivity.
  Qed.
  Lemma matrix_given (m : matrix) :
    (proper_matrix m ->
     handed_over place what (out_matrix place m) (fun o => let '(c, r, a) := o in destroy_matrix c r (Some a)) (shows_matrix m)) /\
    ends place what (out_matrix place m) /\ leaks_nothing place what (out_matrix place m).
  Proof.
    assert (T := out_matrix_trip m [] (fun post => post = []) eq_refl).
    split; [|split; [exact (ends_of place Hplace what _ _ _ T)|exact (leaks_of place what _ _ T)]].
    intros (Hr & Hc & _). refine (glue place what _ _ _ _ _ T _).
    intros [[c r] d] owned h (a & E & ->) Hn Hw Hi. injection E as -> -> ->.
    assert (Ia : In (a, map Num (m_data m)) h) by (apply Hi; left; reflexivity).
    split.
    - split; [reflexivity|]. split; [reflexivity|]. exists a. split; [reflexivity|exact Ia].
    - exists [a]. split; [reflexivity|]. unfold destroy_matrix.
      apply removes_require.
      { apply negb_true_iff, orb_false_iff. split; apply Nat.eqb_neq; assumption. }
      apply (removes_delete h [] a _ Hw Ia). intros [].
  Qed.

  (* -------------------------------------------------- arrays of numbers, saved bytes -------------------------------------------------- *)
  Definition numbers_owned (l : list Z) (o : option Z * nat) (owned : heap) : Prop :=
    snd o = length l /\ match l with [] => fst o = None /\ owned = [] | _ => exists a, fst o = Some a /\ owned = [(a, map Num l)] end.
  Lemma out_numbers_trip (l : list Z) : trip place [] (out_numbers place l) (numbers_owned l) (fun post => post = []).
  Proof.
    unfold out_numbers. destruct l as [|x l].
    - apply trip_done. split; [reflexivity|]. split; reflexivity.
    - eapply trip_thn; [apply (trip_new place Hplace); reflexivity|]. intros a post -> _. eapply trip_thn.
      { eapply (trip_eq _ ([] ++ (a, repeat Junk (length (map Num (x :: l)))) :: [])).
        - rewrite map_length. reflexivity.
        - apply trip_fill_all. }
      intros _ post -> _. apply trip_done. split; [reflexivity|]. exists a. split; reflexivity.
  Qed.
  Lemma numbers_given (l : list Z) :
    handed_over place what (out_numbers place l) (fun o => destroy_numbers (fst o) (snd o)) (shows_numbers l) /\
    ends place what (out_numbers place l) /\ leaks_nothing place what (out_numbers place l).
  Proof.
    assert (T := out_numbers_trip l).
    split; [|split; [exact (ends_of place Hplace what _ _ _ T)|exact (leaks_of place what _ _ T)]].
    refine (glue place what _ _ _ _ _ T _).
    intros [p n] owned h [Hc Ho] Hn Hw Hi. cbn [fst snd] in *. unfold shows_numbers, destroy_numbers, consistent. cbn [fst snd].
    destruct l as [|x l]; cbn [length] in Hc; subst n.
    - destruct Ho as [-> ->]. split; [split; reflexivity|]. exists []. split; [reflexivity|].
      apply removes_require; [reflexivity|]. apply removes_done.
    - destruct Ho as (a & -> & ->). assert (Ia : In (a, map Num (x :: l)) h) by (apply Hi; left; reflexivity).
      split; [split; [reflexivity|exists a; split; [reflexivity|exact Ia]]|].
      exists [a]. split; [reflexivity|]. apply removes_require; [reflexivity|].
      apply (removes_delete h [] a _ Hw Ia). intros [].
  Qed.
  Lemma out_bytes_trip (l : list Z) :
    trip place [] (out_bytes place l) (fun o post => exists a, o = (a, length l) /\ post = [(a, map Num l)]) (fun post => post = []).
  Proof.
    unfold out_bytes. eapply trip_thn; [apply (trip_new place Hplace); reflexivity|]. intros a post -> _. eapply trip_thn.
    { eapply (trip_eq _ ([] ++ (a, repeat Junk (length (map Num l))) :: [])).
      - rewrite map_length. reflexivity.
      - apply trip_fill_all. }
    intros _ post -> _. apply trip_done. exists a. split; reflexivity.
  Qed.
  Lemma bytes_given (l : list Z) :
    (l <> [] -> handed_over place what (out_bytes place l) (fun o => destroy_bytes (Some (fst o)) (snd o)) (shows_bytes l)) /\
    ends place what (out_bytes place l) /\ leaks_nothing place what (out_bytes place l).
  Proof.
    assert (T := out_bytes_trip l).
    split; [|split; [exact (ends_of place Hplace what _ _ _ T)|exact (leaks_of place what _ _ T)]].
    intros Hl. refine (glue place what _ _ _ _ _ T _).
    intros o owned h (a & -> & ->) Hn Hw Hi. cbn [fst snd].
    assert (Ia : In (a, map Num l) h) by (apply Hi; left; reflexivity).
    split; [split; [reflexivity|exists a; split; [reflexivity|exact Ia]]|].
    exists [a]. split; [reflexivity|]. unfold destroy_bytes. apply removes_require; [destruct l; [contradiction|reflexivity]|].
    apply (removes_delete h [] a _ Hw Ia). intros [].
  Qed.

  (* -------------------------------------------------- arrays of strings -------------------------------------------------- *)
  Lemma put_strings_trip (a : Z) (ys : heap) (l : list (list Z)) : forall (i : nat) (ps : list (option Z)) (xs : heap), length ps = i ->
    trip place (xs ++ (a, map Ptr ps ++ repeat Junk (length l)) :: ys) (put_strings place a i l)
      (fun _ post => exists qs new, post = new ++ xs ++ (a, map Ptr (ps ++ qs)) :: ys /\ owned_list string_owned qs l new) (fun _ => True).
  Proof.
    induction l as [|s l IH]; intros i ps xs Hi; cbn [put_strings length repeat].
    - apply trip_done. exists [], []. rewrite !app_nil_r. split; reflexivity.
    - eapply trip_thn; [apply out_string_trip; exact I|]. intros p post (o & -> & Ho) _. eapply trip_thn.
      { eapply (trip_store_at _ (o ++ xs) ys a i (map Ptr ps) (repeat Junk (length l)) Junk (Ptr p)).
        - rewrite app_assoc. reflexivity.
        - rewrite map_length. exact Hi. }
      intros _ post -> _.
      eapply trip_eq; [|eapply trip_mono; [apply (IH (S i) (ps ++ [p]) (o ++ xs))|..]].
      + rewrite map_app. cbn [map]. rewrite <- !app_assoc. cbn [app]. reflexivity.
      + rewrite app_length. cbn [length]. rewrite Nat.add_1_r. f_equal. exact Hi.
      + intros _ post _ (qs & new & -> & Hq). exists (p :: qs), (new ++ o). split.
        * rewrite <- !app_assoc. reflexivity.
        * exists o, new. split; [reflexivity|]. split; assumption.
      + auto.
  Qed.
  Definition strings_owned (l : list (list Z)) (o : option Z * nat) (owned : heap) : Prop :=
    snd o = length l /\
    match l with
    | [] => fst o = None /\ owned = []
    | _ => exists a ps new, fst o = Some a /\ owned = new ++ [(a, map Ptr ps)] /\ owned_list string_owned ps l new
    end.
  Lemma out_strings_trip (l : list (list Z)) : trip place [] (out_strings place l) (strings_owned l) (fun _ => True).
  Proof.
    unfold out_strings. destruct l as [|x l].
    - apply trip_done. split; [reflexivity|]. split; reflexivity.
    - eapply trip_thn; [apply (trip_new place Hplace); exact I|]. intros a post -> _. eapply trip_thn.
      { apply (put_strings_trip a [] (x :: l) 0 [] [] eq_refl). }
      intros _ post (qs & new & -> & Hq) _. apply trip_done. split; [reflexivity|]. exists a, qs, new. auto.
  Qed.
  Lemma free_strings_removes (h : heap) (a : Z) (b : list cell) : well h -> In (a, b) h ->
    forall (l : list (list Z)) (ps qs : list (option Z)) (o : heap) (ks : list Z),
    b = map Ptr (ps ++ qs) -> owned_list string_owned qs l o -> NoDup (map fst o) -> incl o h ->
    (forall k, In k (map fst o) -> ~ In k ks) -> ~ In a ks -> ~ In a (map fst o) ->
    removes h ks (map fst o) (free_strings a (length ps) (length l)).
  Proof using Type.
    intros Hw Ha. induction l as [|s l IH]; intros ps [|q qs] o ks Hb Ho Hn Hi Hk Hak Hao; cbn [owned_list] in Ho; try contradiction;
      cbn [free_strings length].
    - subst o. apply removes_done.
    - destruct Ho as (o1 & o2 & -> & H1 & H2). destruct (nodup_app _ _ Hn) as (Hn2 & Hn1 & D).
      rewrite map_app in Hk, Hao |- *.
      apply (removes_load_ptr h ks _ a b (length ps) q _ Hw Ha Hak).
      { rewrite Hb, map_app. cbn [map]. rewrite nth_error_app2 by (rewrite map_length; lia). rewrite map_length, Nat.sub_diag. reflexivity. }
      apply removes_thn.
      + apply (string_removes h ks q s o1 Hw H1).
        * intros x Hx. apply Hi, in_or_app. right. exact Hx.
        * intros k Hx. apply Hk, in_or_app. right. exact Hx.
      + replace (S (length ps)) with (length (ps ++ [q])) by (rewrite app_length; cbn [length]; lia).
        apply (IH (ps ++ [q]) qs o2).
        * rewrite <- app_assoc. exact Hb.
        * exact H2.
        * exact Hn2.
        * intros x Hx. apply Hi, in_or_app. left. exact Hx.
        * intros k Hx G. apply in_app_or in G as [G|G]; [exact (D k Hx G)|]. apply (Hk k); [apply in_or_app; left; exact Hx|exact G].
        * intros G. apply in_app_or in G as [G|G]; [|exact (Hak G)]. apply Hao, in_or_app. right. exact G.
        * intros G. apply Hao, in_or_app. left. exact G.
  Qed.
  Lemma strings_given (l : list (list Z)) :
    handed_over place what (out_strings place l) (fun o => destroy_strings (fst o) (snd o)) (shows_strings l) /\
    ends place what (out_strings place l).
  Proof.
    assert (T := out_strings_trip l).
    split; [|exact (ends_of place Hplace what _ _ _ T)].
    refine (glue place what _ _ _ _ _ T _).
    intros [p n] owned h [Hc Ho] Hn Hw Hi. cbn [fst snd] in *. unfold shows_strings, destroy_strings, consistent. cbn [fst snd].
    destruct l as [|x l]; subst n.
    - destruct Ho as [-> ->]. split; [split; reflexivity|]. exists []. split; [reflexivity|].
      apply removes_require; [reflexivity|]. apply removes_done.
    - destruct Ho as (a & ps & new & -> & -> & Hq).
      assert (Ia : In (a, map Ptr ps) h) by (apply Hi, in_or_app; right; left; reflexivity).
      assert (In_ : incl new h) by (intros y Hy; apply Hi, in_or_app; left; exact Hy).
      destruct (nodup_app _ _ Hn) as (Hn1 & _ & D).
      assert (Ha : ~ In a (map fst new)) by (intros G; apply (D a G); left; reflexivity).
      split.
      { split; [reflexivity|]. exists ps. split; [exists a; split; [reflexivity|exact Ia]|].
        apply (owned_matched string_owned (string_or_null h) h (string_shows h) (x :: l) ps new Hq In_). }
      exists ([a] ++ map fst new). split.
      { intros k. rewrite map_app, !in_app_iff. cbn [map fst]. tauto. }
      apply removes_require; [reflexivity|]. apply removes_thn.
      + apply (free_strings_removes h a (map Ptr ps) Hw Ia (x :: l) [] ps new [] eq_refl Hq Hn1 In_); [intros k _ []|intros []|exact Ha].
      + apply (removes_delete h _ a _ Hw Ia). rewrite app_nil_r. exact Ha.
  Qed.
End Kinds.
