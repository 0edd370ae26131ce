(** Proofs about M_Mem: a small program logic for code that builds arrays. *)
From Verif Require Import Base M_Date M_Mem S_Mem.
Open Scope Z_scope.

Lemma find_app_r (xs r : heap) (a : Z) : ~ In a (map fst xs) -> find_block (xs ++ r) a = find_block r a.
Proof.
  induction xs as [|[k b] xs IH]; intros Hn; [reflexivity|].
  cbn [map fst In app find_block] in *. destruct (k =? a) eqn:Hk; [exfalso; apply Hn; left; lia|].
  apply IH. intros G. apply Hn. right. exact G.
Qed.
Lemma find_mid (xs ys : heap) (a : Z) (b : list cell) : ~ In a (map fst xs) -> find_block (xs ++ (a, b) :: ys) a = Some b.
Proof. intros Hn. rewrite find_app_r by exact Hn. cbn [find_block]. rewrite Z.eqb_refl. reflexivity. Qed.
Lemma set_app_r (xs r : heap) (a : Z) (b : list cell) : ~ In a (map fst xs) -> set_block (xs ++ r) a b = xs ++ set_block r a b.
Proof.
  induction xs as [|[k x] xs IH]; intros Hn; [reflexivity|].
  cbn [map fst In app set_block] in *. destruct (k =? a) eqn:Hk; [exfalso; apply Hn; left; lia|].
  f_equal. apply IH. intros G. apply Hn. right. exact G.
Qed.
Lemma set_mid (xs ys : heap) (a : Z) (b c : list cell) : ~ In a (map fst xs) -> set_block (xs ++ (a, b) :: ys) a c = xs ++ (a, c) :: ys.
Proof. intros Hn. rewrite set_app_r by exact Hn. cbn [set_block]. rewrite Z.eqb_refl. reflexivity. Qed.
Lemma free_app_r (xs r : heap) (a : Z) : ~ In a (map fst xs) -> free_block (xs ++ r) a = xs ++ free_block r a.
Proof.
  induction xs as [|[k x] xs IH]; intros Hn; [reflexivity|].
  cbn [map fst In app free_block] in *. destruct (k =? a) eqn:Hk; [exfalso; apply Hn; left; lia|].
  f_equal. apply IH. intros G. apply Hn. right. exact G.
Qed.
Lemma free_mid (xs ys : heap) (a : Z) (b : list cell) : ~ In a (map fst xs) -> free_block (xs ++ (a, b) :: ys) a = xs ++ ys.
Proof. intros Hn. rewrite free_app_r by exact Hn. cbn [free_block]. rewrite Z.eqb_refl. reflexivity. Qed.
Lemma set_cell_mid (u v : list cell) (x c : cell) : set_cell (u ++ x :: v) (length u) c = Some (u ++ c :: v).
Proof. induction u as [|y u IH]; [reflexivity|]. cbn [app length set_cell]. rewrite IH. reflexivity. Qed.
Lemma nodup_mid (xs ys : heap) (a : Z) (b : list cell) : NoDup (map fst (xs ++ (a, b) :: ys)) -> ~ In a (map fst xs) /\ ~ In a (map fst ys).
Proof.
  rewrite map_app. cbn [map fst]. intros Hn. pose proof (NoDup_remove_2 _ _ _ Hn) as Hr. rewrite in_app_iff in Hr. tauto.
Qed.
Lemma nodup_app_l (xs ys : heap) : NoDup (map fst (xs ++ ys)) -> NoDup (map fst xs).
Proof.
  induction xs as [|x xs IH]; intros Hn; [constructor|]. cbn [app map] in *. inversion_clear Hn as [|? ? H1 H2].
  constructor; [|apply IH; exact H2]. intros G. apply H1. rewrite map_app. apply in_or_app. left. exact G.
Qed.
Lemma nodup_app_r (xs ys : heap) : NoDup (map fst (xs ++ ys)) -> NoDup (map fst ys).
Proof. induction xs as [|x xs IH]; intros Hn; [exact Hn|]. cbn [app map] in *. inversion_clear Hn as [|? ? H1 H2]. exact (IH H2). Qed.
Lemma keys_set (xs : heap) (a : Z) (b : list cell) : map fst (set_block xs a b) = map fst xs.
Proof.
  induction xs as [|[k x] xs IH]; [reflexivity|]. cbn [set_block]. destruct (k =? a) eqn:Hk; cbn [map fst]; [reflexivity|].
  rewrite IH. reflexivity.
Qed.
Lemma keys_free (xs : heap) (a : Z) : NoDup (map fst xs) -> NoDup (map fst (free_block xs a)).
Proof.
  induction xs as [|[k x] xs IH]; [auto|]. cbn [free_block map fst]. intros Hn. inversion_clear Hn as [|? ? H1 H2].
  destruct (k =? a); [exact H2|]. cbn [map fst]. constructor; [|exact (IH H2)].
  intros G. apply H1. clear - G. induction xs as [|[k' x'] xs IH]; [exact G|]. cbn [free_block] in G. destruct (k' =? a).
  - cbn [map fst]. right. exact G.
  - cbn [map fst] in *. destruct G as [G|G]; [left; exact G|right; exact (IH G)].
Qed.

Section Logic.
  Variable place : nat -> list Z -> option Z.
  Hypothesis Hplace : allocator place.

  (** Started with the arrays [pre] (and others), [m] ends with [post] instead of [pre]: [Q] if it is done, [R] if memory ran out. *)
  Definition trip {A : Type} (pre : heap) (m : act A) (Q : A -> heap -> Prop) (R : heap -> Prop) : Prop :=
    forall w h, m_heap w = pre ++ h -> well (m_heap w) ->
    match m w with
    | (w', Done o) => exists post, m_heap w' = post ++ h /\ well (m_heap w') /\ Q o post
    | (w', OutOfMemory) => ~ generous place /\ exists post, m_heap w' = post ++ h /\ well (m_heap w') /\ R post
    | _ => False
    end.

  Lemma trip_done {A : Type} (pre : heap) (a : A) (Q : A -> heap -> Prop) (R : heap -> Prop) : Q a pre -> trip pre (done a) Q R.
  Proof. intros HQ w h Hw Hn. cbn. exists pre. auto. Qed.
  Lemma trip_thn {A B : Type} (pre : heap) (m : act A) (f : A -> act B) (Q1 : A -> heap -> Prop) (Q : B -> heap -> Prop) (R : heap -> Prop) :
    trip pre m Q1 R -> (forall a post, Q1 a post -> NoDup (map fst post) -> trip post (f a) Q R) -> trip pre (thn m f) Q R.
  Proof.
    intros H1 H2 w h Hw Hn. unfold thn. specialize (H1 w h Hw Hn). destruct (m w) as [w' [a|e| |]]; try exact H1.
    destruct H1 as (post & Hp & Hn' & HQ). refine (H2 a post HQ _ w' h Hp Hn').
    unfold well in Hn'. rewrite Hp in Hn'. exact (nodup_app_l _ _ Hn').
  Qed.
  Lemma trip_mono {A : Type} (pre : heap) (m : act A) (Q Q' : A -> heap -> Prop) (R R' : heap -> Prop) :
    trip pre m Q R -> (forall a post, NoDup (map fst post) -> Q a post -> Q' a post) -> (forall post, NoDup (map fst post) -> R post -> R' post) ->
    trip pre m Q' R'.
  Proof.
    intros H1 HQ HR w h Hw Hn. specialize (H1 w h Hw Hn). destruct (m w) as [w' [a|e| |]]; try exact H1.
    - destruct H1 as (post & Hp & Hn' & HQ1). exists post. split; [exact Hp|]. split; [exact Hn'|]. apply HQ; [|exact HQ1].
      unfold well in Hn'. rewrite Hp in Hn'. exact (nodup_app_l _ _ Hn').
    - destruct H1 as (Hg & post & Hp & Hn' & HR1). split; [exact Hg|]. exists post. split; [exact Hp|]. split; [exact Hn'|]. apply HR; [|exact HR1].
      unfold well in Hn'. rewrite Hp in Hn'. exact (nodup_app_l _ _ Hn').
  Qed.
  (** Arrays that [m] does not know. *)
  Lemma trip_frame {A : Type} (pre fr : heap) (m : act A) (Q : A -> heap -> Prop) (R : heap -> Prop) :
    trip pre m Q R ->
    trip (pre ++ fr) m (fun a post => exists p, post = p ++ fr /\ Q a p) (fun post => exists p, post = p ++ fr /\ R p).
  Proof.
    intros H1 w h Hw Hn. rewrite <- app_assoc in Hw. specialize (H1 w (fr ++ h) Hw Hn). destruct (m w) as [w' [a|e| |]]; try exact H1.
    - destruct H1 as (post & Hp & Hn' & HQ1). exists (post ++ fr). rewrite <- app_assoc. split; [exact Hp|]. split; [exact Hn'|].
      exists post. split; [reflexivity|exact HQ1].
    - destruct H1 as (Hg & post & Hp & Hn' & HR1). split; [exact Hg|]. exists (post ++ fr). rewrite <- app_assoc. split; [exact Hp|].
      split; [exact Hn'|]. exists post. split; [reflexivity|exact HR1].
  Qed.
  Lemma trip_new (pre : heap) (n : nat) (R : heap -> Prop) : R pre ->
    trip pre (new_array place n) (fun a post => post = (a, repeat Junk n) :: pre) R.
  Proof.
    intros HR w h Hw Hn. unfold new_array. destruct (place (m_time w) (map fst (m_heap w))) as [a|] eqn:E; cbn [m_heap].
    - exists ((a, repeat Junk n) :: pre). rewrite Hw. split; [reflexivity|]. split; [|reflexivity].
      unfold well. rewrite <- Hw. cbn [map fst]. constructor; [exact (Hplace _ _ _ E)|exact Hn].
    - split; [intros Hg; exact (Hg _ _ E)|]. exists pre. auto.
  Qed.
  Lemma trip_store (xs ys : heap) (a : Z) (i : nat) (u v : list cell) (x c : cell) (R : heap -> Prop) : length u = i ->
    trip (xs ++ (a, u ++ x :: v) :: ys) (store a i c) (fun _ post => post = xs ++ (a, u ++ c :: v) :: ys) R.
  Proof.
    intros Hi w h Hw Hn. unfold store. assert (Hx : ~ In a (map fst xs)).
    { unfold well in Hn. rewrite Hw in Hn. exact (proj1 (nodup_mid _ _ _ _ (nodup_app_l _ _ Hn))). }
    rewrite Hw, <- app_assoc. cbn [app]. rewrite (find_mid xs _ a _ Hx). subst i. rewrite set_cell_mid. cbn [m_heap].
    exists (xs ++ (a, u ++ c :: v) :: ys). rewrite <- app_assoc. cbn [app]. rewrite (set_mid xs _ a _ _ Hx).
    split; [reflexivity|]. split; [|reflexivity].
    unfold well in *. rewrite Hw, <- app_assoc in Hn. cbn [app] in Hn. rewrite map_app in *. exact Hn.
  Qed.
  Lemma trip_fill (xs ys : heap) (a : Z) (R : heap -> Prop) (l : list cell) : forall (i : nat) (u v : list cell),
    length u = i -> trip (xs ++ (a, u ++ repeat Junk (length l) ++ v) :: ys) (fill a i l)
                         (fun _ post => post = xs ++ (a, u ++ l ++ v) :: ys) R.
  Proof using Type.
    clear Hplace. induction l as [|c l IH]; intros i u v Hi; cbn [fill length repeat app].
    - apply trip_done. reflexivity.
    - eapply trip_thn; [apply (trip_store xs ys a i u (repeat Junk (length l) ++ v) Junk c R Hi)|].
      intros _ post -> _. specialize (IH (S i) (u ++ [c]) v). rewrite <- !app_assoc in IH. cbn [app] in IH. apply IH.
      rewrite app_length. cbn [length]. rewrite Nat.add_1_r. f_equal. exact Hi.
  Qed.
  Lemma trip_fill_all (xs ys : heap) (a : Z) (R : heap -> Prop) (l : list cell) :
    trip (xs ++ (a, repeat Junk (length l)) :: ys) (fill a 0 l) (fun _ post => post = xs ++ (a, l) :: ys) R.
  Proof using Type. pose proof (trip_fill xs ys a R l 0 [] [] eq_refl) as H. cbn [app] in H. rewrite !app_nil_r in H. exact H. Qed.
  Lemma trip_guard {A : Type} (pre : heap) (a : Z) (m : act A) (Q : A -> heap -> Prop) (R : heap -> Prop) :
    trip pre m Q (fun post => exists xs ys b, post = xs ++ (a, b) :: ys /\ R (xs ++ ys)) -> trip pre (guard a m) Q R.
  Proof.
    intros H1 w h Hw Hn. unfold guard. specialize (H1 w h Hw Hn). destruct (m w) as [w' [o|e| |]]; try exact H1; [contradiction|].
    destruct H1 as (Hg & post & Hp & Hn' & xs & ys & b & -> & HR). unfold delete_array.
    assert (Hx : ~ In a (map fst xs)).
    { unfold well in Hn'. rewrite Hp in Hn'. exact (proj1 (nodup_mid _ _ _ _ (nodup_app_l _ _ Hn'))). }
    rewrite Hp, <- app_assoc. cbn [app]. rewrite (find_mid xs _ a _ Hx), (free_mid xs _ a _ Hx). cbn [m_heap].
    split; [exact Hg|]. exists (xs ++ ys). rewrite <- app_assoc. split; [reflexivity|]. split; [|exact HR].
    unfold well in *. rewrite Hp, <- app_assoc in Hn'. cbn [app] in Hn'. rewrite map_app in *. cbn [map fst] in Hn'.
    exact (NoDup_remove_1 _ _ _ Hn').
  Qed.
  Lemma trip_delete (xs ys : heap) (a : Z) (b : list cell) (R : heap -> Prop) :
    trip (xs ++ (a, b) :: ys) (delete_array a) (fun _ post => post = xs ++ ys) R.
  Proof.
    intros w h Hw Hn'. unfold delete_array. assert (Hx : ~ In a (map fst xs)).
    { unfold well in Hn'. rewrite Hw in Hn'. exact (proj1 (nodup_mid _ _ _ _ (nodup_app_l _ _ Hn'))). }
    rewrite Hw, <- app_assoc. cbn [app]. rewrite (find_mid xs _ a _ Hx), (free_mid xs _ a _ Hx). cbn [m_heap].
    exists (xs ++ ys). rewrite <- app_assoc. split; [reflexivity|]. split; [|reflexivity].
    unfold well in *. rewrite Hw, <- app_assoc in Hn'. cbn [app] in Hn'. rewrite map_app in *. cbn [map fst] in Hn'.
    exact (NoDup_remove_1 _ _ _ Hn').
  Qed.
End Logic.

(* ---------------------------------------------------------------- giving back ------------------------------------------------- *)

Definition gone (ks : list Z) (kb : Z * list cell) : bool := negb (existsb (Z.eqb (fst kb)) ks).
Definition drop (ks : list Z) (h : heap) : heap := filter (gone ks) h.

Lemma drop_nil (h : heap) : drop [] h = h.
Proof. unfold drop. induction h as [|x h IH]; [reflexivity|]. cbn [filter]. change (gone [] x) with true. cbv iota. f_equal. exact IH. Qed.
Lemma gone_spec (ks : list Z) (k : Z) (b : list cell) : gone ks (k, b) = true <-> ~ In k ks.
Proof.
  unfold gone. cbn [fst]. split.
  - intros Hb Hi. apply negb_true_iff in Hb. assert (He : existsb (Z.eqb k) ks = true); [|congruence].
    apply existsb_exists. exists k. split; [exact Hi|apply Z.eqb_refl].
  - intros Hi. apply negb_true_iff. destruct (existsb (Z.eqb k) ks) eqn:E; [|reflexivity]. exfalso. apply Hi.
    apply existsb_exists in E as (x & Hx & He). apply Z.eqb_eq in He. subst x. exact Hx.
Qed.
Lemma drop_in (ks : list Z) (h : heap) (a : Z) (b : list cell) : In (a, b) (drop ks h) <-> In (a, b) h /\ ~ In a ks.
Proof. unfold drop. rewrite filter_In, gone_spec. reflexivity. Qed.
Lemma drop_well (ks : list Z) (h : heap) : well h -> well (drop ks h).
Proof.
  unfold well, drop. induction h as [|[k b] h IH]; [auto|]. cbn [map fst]. intros Hn. inversion_clear Hn as [|? ? H1 H2].
  cbn [filter]. destruct (gone ks (k, b)); [|exact (IH H2)]. cbn [map fst]. constructor; [|exact (IH H2)].
  intros G. apply H1. apply in_map_iff in G as ([k' b'] & Hk & Hi). cbn [fst] in Hk. subst k'. apply filter_In in Hi as [Hi _].
  apply in_map_iff. exists (k, b'). split; [reflexivity|exact Hi].
Qed.
Lemma find_in (h : heap) (a : Z) (b : list cell) : well h -> In (a, b) h -> find_block h a = Some b.
Proof.
  unfold well. induction h as [|[k x] h IH]; intros Hn Hi; [contradiction|]. cbn [map fst] in Hn. inversion_clear Hn as [|? ? H1 H2].
  cbn [find_block]. destruct Hi as [Hi|Hi].
  - injection Hi as -> ->. rewrite Z.eqb_refl. reflexivity.
  - destruct (k =? a) eqn:Hk; [|exact (IH H2 Hi)]. exfalso. apply H1. apply in_map_iff. exists (a, b). split; [cbn; lia|exact Hi].
Qed.
Lemma drop_free (ks : list Z) (h : heap) (a : Z) : well h -> free_block (drop ks h) a = drop (a :: ks) h.
Proof.
  unfold well, drop. induction h as [|[k b] h IH]; intros Hn; [reflexivity|]. cbn [map fst] in Hn. inversion_clear Hn as [|? ? H1 H2].
  cbn [filter]. destruct (gone ks (k, b)) eqn:Eg.
  - cbn [free_block]. destruct (k =? a) eqn:Hk.
    + assert (E2 : gone (a :: ks) (k, b) = false).
      { unfold gone. cbn [fst existsb]. rewrite Hk. reflexivity. }
      rewrite E2. apply Z.eqb_eq in Hk. subst k. apply filter_ext_in. intros [k' b'] Hi. unfold gone. cbn [fst existsb].
      destruct (k' =? a) eqn:Hk'; [|reflexivity]. exfalso. apply H1. apply in_map_iff. exists (k', b'). split; [cbn; lia|exact Hi].
    + assert (E2 : gone (a :: ks) (k, b) = true).
      { unfold gone in *. cbn [fst existsb] in *. rewrite Hk. exact Eg. }
      rewrite E2. f_equal. exact (IH H2).
  - assert (E2 : gone (a :: ks) (k, b) = false).
    { unfold gone in *. cbn [fst existsb] in *. rewrite negb_orb, Eg. apply andb_false_r. }
    rewrite E2. exact (IH H2).
Qed.

(** [m] run in [h] without the arrays [ks] removes the arrays [js] too. *)
Definition removes (h : heap) (ks js : list Z) (m : act unit) : Prop :=
  forall t, exists t', m (mkMem (drop ks h) t) = (mkMem (drop (js ++ ks) h) t', Done tt).

Lemma removes_done (h : heap) (ks : list Z) : removes h ks [] (done tt).
Proof. intros t. exists t. reflexivity. Qed.
Lemma removes_delete (h : heap) (ks : list Z) (a : Z) (b : list cell) : well h -> In (a, b) h -> ~ In a ks -> removes h ks [a] (delete_array a).
Proof.
  intros Hw Hi Hk t. exists t. unfold delete_array. cbn [m_heap m_time]. rewrite (find_in _ a b (drop_well ks h Hw)).
  - rewrite (drop_free ks h a Hw). reflexivity.
  - apply drop_in. split; assumption.
Qed.
Lemma removes_thn (h : heap) (ks js is_ : list Z) (m n : act unit) :
  removes h ks js m -> removes h (js ++ ks) is_ n -> removes h ks (is_ ++ js) (thn m (fun _ => n)).
Proof.
  intros H1 H2 t. destruct (H1 t) as [t1 E1]. destruct (H2 t1) as [t2 E2]. exists t2. unfold thn. rewrite E1, E2.
  rewrite app_assoc. reflexivity.
Qed.
Lemma removes_load {A : Type} (h : heap) (ks js : list Z) (a : Z) (b : list cell) (i : nat) (c : cell) (f : cell -> act A) (g : A -> act unit) :
  well h -> In (a, b) h -> ~ In a ks -> nth_error b i = Some c -> c <> Junk ->
  removes h ks js (thn (f c) g) -> removes h ks js (thn (thn (load a i) f) g).
Proof.
  intros Hw Hi Hk Hb Hc H1 t. destruct (H1 t) as [t1 E1]. exists t1. revert E1. unfold thn, load. cbn [m_heap].
  rewrite (find_in _ a b (drop_well ks h Hw)) by (apply drop_in; split; assumption). rewrite Hb.
  destruct c; [contradiction|auto|auto].
Qed.
Lemma removes_load_ptr (h : heap) (ks js : list Z) (a : Z) (b : list cell) (i : nat) (p : option Z) (g : option Z -> act unit) :
  well h -> In (a, b) h -> ~ In a ks -> nth_error b i = Some (Ptr p) -> removes h ks js (g p) ->
  removes h ks js (thn (load_ptr a i) g).
Proof.
  intros Hw Hi Hk Hb H1. unfold load_ptr. apply (removes_load h ks js a b i (Ptr p) _ g Hw Hi Hk Hb); [discriminate|].
  intros t. destruct (H1 t) as [t1 E1]. exists t1. exact E1.
Qed.
Lemma removes_load_num (h : heap) (ks js : list Z) (a : Z) (b : list cell) (i : nat) (z : Z) (g : Z -> act unit) :
  well h -> In (a, b) h -> ~ In a ks -> nth_error b i = Some (Num z) -> removes h ks js (g z) ->
  removes h ks js (thn (load_num a i) g).
Proof.
  intros Hw Hi Hk Hb H1. unfold load_num. apply (removes_load h ks js a b i (Num z) _ g Hw Hi Hk Hb); [discriminate|].
  intros t. destruct (H1 t) as [t1 E1]. exists t1. exact E1.
Qed.
Lemma removes_require (h : heap) (ks js : list Z) (c : bool) (n : act unit) :
  c = true -> removes h ks js n -> removes h ks js (thn (require c) (fun _ => n)).
Proof. intros -> H1 t. destruct (H1 t) as [t1 E1]. exists t1. exact E1. Qed.
Lemma removes_ext (h : heap) (ks js js' : list Z) (m : act unit) : js = js' -> removes h ks js m -> removes h ks js' m.
Proof. intros -> H. exact H. Qed.

(** From the two halves to the specification. *)
Lemma removed (h : heap) (owned : heap) (js : list Z) (a : Z) (b : list cell) :
  well h -> incl owned h -> (forall k, In k js <-> In k (map fst owned)) ->
  In (a, b) (drop (js ++ []) h) <-> In (a, b) h /\ ~ In (a, b) owned.
Proof.
  intros Hw Hi Hj. rewrite drop_in, app_nil_r, Hj. split; intros [H1 H2]; (split; [exact H1|]).
  - intros G. apply H2. apply in_map_iff. exists (a, b). split; [reflexivity|exact G].
  - intros G. apply in_map_iff in G as ([k x] & Hk & Hx). cbn [fst] in Hk. subst k. apply H2.
    pose proof (find_in h a b Hw H1) as F1. pose proof (find_in h a x Hw (Hi _ Hx)) as F2. rewrite F1 in F2. injection F2 as ->. exact Hx.
Qed.

Section Glue.
  Variable place : nat -> list Z -> option Z.
  Hypothesis Hplace : allocator place.
  Variable what : list Z.

  Lemma glue {O : Type} (out : act O) (destroy : O -> act unit) (shows : heap -> O -> Prop) (Q : O -> heap -> Prop) (R : heap -> Prop) :
    trip place [] out Q R ->
    (forall o owned h, Q o owned -> NoDup (map fst owned) -> well h -> incl owned h ->
       shows h o /\ exists js, (forall k, In k js <-> In k (map fst owned)) /\ removes h [] js (destroy o)) ->
    handed_over place what out destroy shows.
  Proof.
    intros H1 H2 w w' o Hw E. specialize (H1 w (m_heap w) eq_refl Hw). unfold api in E.
    destruct (out w) as [w1 [o'|e| |]]; try contradiction.
    - injection E as <- <-. destruct H1 as (post & Hp & Hn & HQ). exists post. split; [exact Hp|]. split; [exact Hn|].
      intros w2 Hw2 Hi. unfold well in Hn. rewrite Hp in Hn.
      destruct (H2 o' post (m_heap w2) HQ (nodup_app_l _ _ Hn) Hw2 Hi) as [Hs (js & Hj & Hr)].
      split; [exact Hs|]. destruct (Hr (m_time w2)) as [t E]. rewrite drop_nil in E.
      exists (mkMem (drop (js ++ []) (m_heap w2)) t). unfold api. destruct w2 as [h2 t2]. cbn [m_heap m_time] in *. rewrite E.
      split; [reflexivity|]. split; [exact (drop_well _ _ Hw2)|]. intros a b. exact (removed h2 post js a b Hw2 Hi Hj).
    - exfalso. destruct (new_array place (length what) w1) as [w2 [e| e| |]]; discriminate E.
  Qed.
  Lemma set_head (h : heap) (e : Z) (b c : list cell) : set_block ((e, b) :: h) e c = (e, c) :: h.
  Proof using Type. cbn [set_block]. rewrite Z.eqb_refl. reflexivity. Qed.
  Lemma ends_of {O : Type} (out : act O) (Q : O -> heap -> Prop) (R : heap -> Prop) : trip place [] out Q R -> ends place what out.
  Proof.
    intros H1 w Hw. specialize (H1 w (m_heap w) eq_refl Hw). unfold api.
    destruct (out w) as [w1 [o'|e| |]]; try contradiction; [exact I|].
    destruct H1 as (Hg & post & Hp & Hn & _). unfold new_array.
    destruct (place (m_time w1) (map fst (m_heap w1))) as [a|] eqn:E; cbn [m_heap m_time].
    - split; [exact Hg|]. rewrite set_head. split.
      + unfold well. cbn [map fst]. constructor; [exact (Hplace _ _ _ E)|exact Hn].
      + exists post. rewrite Hp. reflexivity.
    - split; [exact Hg|]. split; [exact Hn|]. exists post. exact Hp.
  Qed.
  Lemma leaks_of {O : Type} (out : act O) (Q : O -> heap -> Prop) :
    trip place [] out Q (fun post => post = []) -> leaks_nothing place what out.
  Proof using Type.
    clear Hplace. intros H1 w Hw. specialize (H1 w (m_heap w) eq_refl Hw). unfold api.
    destruct (out w) as [w1 [o'|e| |]]; try contradiction; [exact I|].
    destruct H1 as (Hg & post & Hp & Hn & ->). cbn [app] in Hp. unfold new_array.
    destruct (place (m_time w1) (map fst (m_heap w1))) as [a|] eqn:E; cbn [m_heap m_time].
    - rewrite set_head, Hp. reflexivity.
    - exact Hp.
  Qed.
End Glue.
