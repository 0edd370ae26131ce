(** Proofs about M_Mem: arguments. *)
From Verif Require Import Base M_Date M_Mem S_Mem L_Mem.
Open Scope Z_scope.

Lemma thn_done {A B : Type} (m : act A) (f : A -> act B) (w : mem) (x : A) : m w = (w, Done x) -> thn m f w = f x w.
Proof. intros E. unfold thn. rewrite E. reflexivity. Qed.
Lemma only_thn {A B : Type} (m : act A) (f : A -> act B) : reads_only m -> (forall x, reads_only (f x)) -> reads_only (thn m f).
Proof.
  intros H1 H2 w. unfold thn. specialize (H1 w). destruct (m w) as [w' [x|e| |]]; cbn [fst] in *; subst w'; try reflexivity. apply H2.
Qed.
Lemma only_done {A : Type} (x : A) : reads_only (done x). Proof. intros w. reflexivity. Qed.
Lemma only_fail {A : Type} (e : exn) : reads_only (@fail A e). Proof. intros w. reflexivity. Qed.
Lemma only_undefined {A : Type} : reads_only (@undefined A). Proof. intros w. reflexivity. Qed.
Lemma only_require (b : bool) : reads_only (require b). Proof. intros w. destruct b; reflexivity. Qed.
Lemma only_load (a : Z) (i : nat) : reads_only (load a i).
Proof. intros w. unfold load. destruct (find_block (m_heap w) a) as [b|]; [|reflexivity]. destruct (nth_error b i) as [[| |]|]; reflexivity. Qed.
Lemma only_load_num (a : Z) (i : nat) : reads_only (load_num a i).
Proof. apply only_thn; [apply only_load|]. intros [| |]; [apply only_undefined|apply only_done|apply only_undefined]. Qed.
Lemma only_load_ptr (a : Z) (i : nat) : reads_only (load_ptr a i).
Proof. apply only_thn; [apply only_load|]. intros [| |]; [apply only_undefined|apply only_undefined|apply only_done]. Qed.
Lemma only_text (p : option Z) : reads_only (in_text p).
Proof. intros w. unfold in_text. destruct p; [|reflexivity]. destruct (find_block (m_heap w) z); reflexivity. Qed.
Lemma only_times {A : Type} (f : nat -> act A) : (forall i, reads_only (f i)) -> forall n i, reads_only (times f i n).
Proof.
  intros Hf. induction n as [|n IH]; intros i; cbn [times]; [apply only_done|].
  apply only_thn; [apply Hf|]. intros x. apply only_thn; [apply IH|]. intros r. apply only_done.
Qed.

Lemma times_reads {A : Type} (f : nat -> act A) (w : mem) : forall (l : list A) (i : nat),
  (forall j x, nth_error l j = Some x -> f (i + j)%nat w = (w, Done x)) -> times f i (length l) w = (w, Done l).
Proof.
  induction l as [|x l IH]; intros i H; [reflexivity|]. cbn [length times].
  rewrite (thn_done _ _ w x); [|specialize (H O x eq_refl); rewrite Nat.add_0_r in H; exact H].
  rewrite (thn_done _ _ w l); [reflexivity|]. apply IH. intros j y Hj. replace (S i + j)%nat with (i + S j)%nat by lia. apply H. exact Hj.
Qed.
Lemma load_at (w : mem) (a : Z) (cells rest : list cell) (i : nat) (c : cell) :
  well (m_heap w) -> In (a, cells ++ rest) (m_heap w) -> nth_error cells i = Some c -> c <> Junk -> load a i w = (w, Done c).
Proof.
  intros Hw Hi Hc Hj. unfold load. rewrite (find_in _ a _ Hw Hi). rewrite nth_error_app1 by (apply nth_error_Some; congruence). rewrite Hc.
  destruct c; [contradiction|reflexivity|reflexivity].
Qed.
Lemma load_num_at (w : mem) (a : Z) (l : list Z) (rest : list cell) (i : nat) (z : Z) :
  well (m_heap w) -> In (a, map Num l ++ rest) (m_heap w) -> nth_error l i = Some z -> load_num a i w = (w, Done z).
Proof.
  intros Hw Hi Hc. unfold load_num. rewrite (thn_done _ _ w (Num z)); [reflexivity|].
  apply (load_at w a (map Num l) rest i (Num z) Hw Hi); [rewrite nth_error_map, Hc; reflexivity|discriminate].
Qed.
Lemma load_ptr_at (w : mem) (a : Z) (l : list (option Z)) (rest : list cell) (i : nat) (p : option Z) :
  well (m_heap w) -> In (a, map Ptr l ++ rest) (m_heap w) -> nth_error l i = Some p -> load_ptr a i w = (w, Done p).
Proof.
  intros Hw Hi Hc. unfold load_ptr. rewrite (thn_done _ _ w (Ptr p)); [reflexivity|].
  apply (load_at w a (map Ptr l) rest i (Ptr p) Hw Hi); [rewrite nth_error_map, Hc; reflexivity|discriminate].
Qed.
Lemma until_zero_text (s : list Z) (rest : list cell) : ~ In 0 s -> until_zero ((map Num s ++ [Num 0]) ++ rest) = Done s.
Proof.
  induction s as [|z s IH]; intros Hn; [reflexivity|]. cbn [map app until_zero].
  destruct (z =? 0) eqn:E; [exfalso; apply Hn; left; lia|]. rewrite IH; [reflexivity|]. intros G. apply Hn. right. exact G.
Qed.
Lemma text_reads (w : mem) (p : option Z) (s : list Z) : well (m_heap w) -> text_at (m_heap w) p s -> reads (in_text p) w s.
Proof.
  intros Hw [Hz (rest & a & -> & Hi)]. unfold reads, in_text. rewrite (find_in _ a _ Hw Hi), (until_zero_text s rest Hz). reflexivity.
Qed.
Lemma text_or_null_reads (w : mem) (p : option Z) (x : option (list Z)) : well (m_heap w) -> text_or_missing (m_heap w) p x ->
  reads (in_text_or_null p) w x.
Proof.
  intros Hw H. unfold reads. destruct x as [s|]; cbn [text_or_missing] in H; [|subst p; reflexivity].
  pose proof (text_reads w p s Hw H) as E. destruct H as [_ (rest & a & -> & _)]. unfold in_text_or_null.
  rewrite (thn_done _ _ w s E). reflexivity.
Qed.
Lemma number_or_null_reads (w : mem) (p : option Z) (x : option Z) : well (m_heap w) -> number_or_missing (m_heap w) p x ->
  reads (in_number_or_null p) w x.
Proof.
  intros Hw H. unfold reads. destruct x as [z|]; cbn [number_or_missing] in H; [|subst p; reflexivity].
  destruct H as (rest & a & -> & Hi). unfold in_number_or_null. rewrite (thn_done _ _ w z); [reflexivity|].
  exact (load_num_at w a [z] rest 0 z Hw Hi eq_refl).
Qed.
Lemma matched_nth {A B : Type} (f : A -> B -> Prop) : forall (l : list A) (m : list B), matched f l m ->
  length l = length m /\ forall i y, nth_error m i = Some y -> exists x, nth_error l i = Some x /\ f x y.
Proof.
  induction l as [|x l IH]; intros [|y m] H; cbn [matched] in H; try contradiction.
  - split; [reflexivity|]. intros [|i] z Hz; discriminate Hz.
  - destruct H as [H1 H2]. destruct (IH m H2) as [Hl Hi]. split; [cbn [length]; lia|]. intros [|i] z Hz.
    + injection Hz as <-. exists x. split; [reflexivity|exact H1].
    + exact (Hi i z Hz).
Qed.
Lemma pointers_read {A : Type} (g : heap -> option Z -> A -> Prop) (f : option Z -> act A) (w : mem) (a : Z) (l : list A) :
  well (m_heap w) -> (forall q x, In x l -> g (m_heap w) q x -> reads (f q) w x) -> pointers_at g (m_heap w) (Some a) l ->
  reads (times (fun i => thn (load_ptr a i) f) 0 (length l)) w l.
Proof.
  intros Hw Hf (ps & (rest & a' & E & Hi) & Hm). injection E as <-. destruct (matched_nth _ _ _ Hm) as [_ Hn].
  apply times_reads. intros j x Hj. destruct (Hn j x Hj) as (q & Hq & Hg). cbn [Nat.add].
  rewrite (thn_done _ _ w q (load_ptr_at w a ps rest j q Hw Hi Hq)). apply (Hf q x); [exact (nth_error_In _ _ Hj)|exact Hg].
Qed.
Lemma numbers_read (w : mem) (a : Z) (l : list Z) : well (m_heap w) -> numbers_at (m_heap w) (Some a) l -> reads (times (load_num a) 0 (length l)) w l.
Proof.
  intros Hw (rest & a' & E & Hi). injection E as <-. apply times_reads. intros j x Hj. exact (load_num_at w a l rest j x Hw Hi Hj).
Qed.
Lemma some_of {h : heap} {p : option Z} {l : list cell} : cells_at h p l -> exists a, p = Some a.
Proof. intros (rest & a & -> & _). exists a. reflexivity. Qed.
Lemma nonempty {A : Type} (l : list A) : l <> [] -> negb (Nat.eqb (length l) 0) = true.
Proof. destruct l; [contradiction|reflexivity]. Qed.
Lemma require_reads (b : bool) (w : mem) : b = true -> require b w = (w, Done tt).
Proof. intros ->. reflexivity. Qed.

Lemma in_numbers_reads (w : mem) (p : option Z) (l : list Z) : well (m_heap w) -> l <> [] ->
  numbers_at (m_heap w) p l -> reads (in_numbers p (length l)) w l.
Proof.
  intros Hw Hl H. destruct (some_of H) as [a ->]. unfold reads, in_numbers.
  rewrite (thn_done _ _ w tt (require_reads _ w (nonempty l Hl))). exact (numbers_read w a l Hw H).
Qed.
Lemma in_numbers_or_null_reads (w : mem) (p : option Z) (l : list (option Z)) : well (m_heap w) -> l <> [] ->
  pointers_at number_or_missing (m_heap w) p l -> reads (in_numbers_or_null p (length l)) w l.
Proof.
  intros Hw Hl H. destruct H as (ps & Hc & Hm). destruct (some_of Hc) as [a ->]. unfold reads, in_numbers_or_null.
  rewrite (thn_done _ _ w tt (require_reads _ w (nonempty l Hl))).
  apply (pointers_read number_or_missing); [exact Hw| |exists ps; auto]. intros q x _ Hg. exact (number_or_null_reads w q x Hw Hg).
Qed.
Lemma in_texts_reads (w : mem) (p : option Z) (l : list (option (list Z))) : well (m_heap w) -> l <> [] ->
  pointers_at text_or_missing (m_heap w) p l -> reads (in_texts p (length l)) w l.
Proof.
  intros Hw Hl H. destruct H as (ps & Hc & Hm). destruct (some_of Hc) as [a ->]. unfold reads, in_texts.
  rewrite (thn_done _ _ w tt (require_reads _ w (nonempty l Hl))).
  apply (pointers_read text_or_missing); [exact Hw| |exists ps; auto]. intros q x _ Hg. exact (text_or_null_reads w q x Hw Hg).
Qed.
Lemma names_read (w : mem) (a : Z) (l : list (list Z)) : well (m_heap w) -> pointers_at text_at (m_heap w) (Some a) l ->
  reads (times (fun i => thn (load_ptr a i) in_text) 0 (length l)) w l.
Proof. intros Hw H. apply (pointers_read text_at); [exact Hw| |exact H]. intros q x _ Hg. exact (text_reads w q x Hw Hg). Qed.
Lemma in_names_reads (w : mem) (p : option Z) (l : list (list Z)) : well (m_heap w) -> l <> [] ->
  pointers_at text_at (m_heap w) p l -> reads (in_names p (length l)) w l.
Proof.
  intros Hw Hl H. assert (Hs : exists a, p = Some a) by (destruct H as (ps & Hc & _); exact (some_of Hc)). destruct Hs as [a ->].
  unfold reads, in_names. rewrite (thn_done _ _ w tt (require_reads _ w (nonempty l Hl))). exact (names_read w a l Hw H).
Qed.
Lemma in_grains_reads (w : mem) (p q r : option Z) (l : list (list (list Z) * Z)) : well (m_heap w) -> l <> [] ->
  (forall x, In x l -> fst x <> []) -> grains_at (m_heap w) p q r l -> reads (in_grains p q r (length l)) w l.
Proof.
  intros Hw Hl Hne (Hp & Hq & Hr).
  assert (Hs : exists a, p = Some a) by (destruct Hp as (ps & Hc & _); exact (some_of Hc)). destruct Hs as [a ->].
  destruct (some_of Hq) as [b ->]. destruct (some_of Hr) as [c ->].
  unfold reads, in_grains. rewrite (thn_done _ _ w tt (require_reads _ w (nonempty l Hl))).
  rewrite (thn_done _ _ w (map fst l)).
  - rewrite (thn_done _ _ w (map snd l)).
    + unfold done. f_equal. f_equal. clear. induction l as [|[g z] l IH]; [reflexivity|]. cbn [map fst snd combine]. f_equal. exact IH.
    + rewrite <- (map_length snd l). exact (numbers_read w c (map snd l) Hw Hr).
  - destruct Hp as (ps & (rest & a' & E & Hi) & Hm). injection E as <-. destruct (matched_nth _ _ _ Hm) as [_ Hn].
    destruct Hq as (rest2 & b' & E & Hi2). injection E as <-.
    rewrite <- (map_length fst l). apply times_reads. intros j g Hj. destruct (Hn j g Hj) as (x & Hx & Hg). cbn [Nat.add].
    rewrite (thn_done _ _ w x (load_ptr_at w a ps rest j x Hw Hi Hx)).
    assert (Hs : exists d, x = Some d) by (destruct Hg as (ns & Hc & _); exact (some_of Hc)). destruct Hs as [d ->].
    assert (Hk : nth_error (map (fun x => Z.of_nat (length (fst x))) l) j = Some (Z.of_nat (length g))).
    { rewrite nth_error_map in Hj |- *. destruct (nth_error l j) as [[g' z]|]; [|discriminate Hj]. cbn in *. injection Hj as ->. reflexivity. }
    rewrite (thn_done _ _ w _ (load_num_at w b _ rest2 j _ Hw Hi2 Hk)).
    assert (Hg0 : g <> []).
    { apply nth_error_In, in_map_iff in Hj as (y & <- & Hy). apply Hne. exact Hy. }
    rewrite (thn_done _ _ w tt).
    + rewrite Nat2Z.id. exact (names_read w d g Hw Hg).
    + apply require_reads. destruct g; [contradiction|reflexivity].
Qed.
Lemma in_matrices_reads (w : mem) (p q r : option Z) (l : list matrix) : well (m_heap w) -> l <> [] ->
  (forall m, In m l -> proper_matrix m) -> matrices_at (m_heap w) p q r l -> reads (in_matrices p q r (length l)) w l.
Proof.
  intros Hw Hl Hm0 (Hp & Hq & Hr).
  assert (Hs : exists a, r = Some a) by (destruct Hr as (ps & Hc & _); exact (some_of Hc)). destruct Hs as [vs ->].
  destruct (some_of Hp) as [cs ->]. destruct (some_of Hq) as [rs ->].
  unfold reads, in_matrices. rewrite (thn_done _ _ w tt (require_reads _ w (nonempty l Hl))).
  destruct Hp as (rest1 & a1 & E & H1). injection E as <-. destruct Hq as (rest2 & a2 & E & H2). injection E as <-.
  destruct Hr as (ps & (rest3 & a3 & E & H3) & Hm). injection E as <-. destruct (matched_nth _ _ _ Hm) as [_ Hn].
  apply times_reads. intros j m Hj. cbn [Nat.add].
  destruct (Hm0 m (nth_error_In _ _ Hj)) as (Hrow & Hcol & Hlen).
  rewrite (thn_done _ _ w (Z.of_nat (m_cols m))); [|apply (load_num_at w cs _ rest1 j _ Hw H1); rewrite nth_error_map, Hj; reflexivity].
  rewrite (thn_done _ _ w tt); [|apply require_reads, negb_true_iff, Z.eqb_neq; lia].
  rewrite (thn_done _ _ w (Z.of_nat (m_rows m))); [|apply (load_num_at w rs _ rest2 j _ Hw H2); rewrite nth_error_map, Hj; reflexivity].
  rewrite (thn_done _ _ w tt); [|apply require_reads, negb_true_iff, Z.eqb_neq; lia].
  destruct (Hn j (m_data m)) as (x & Hx & Hd); [rewrite nth_error_map, Hj; reflexivity|].
  rewrite (thn_done _ _ w x (load_ptr_at w vs ps rest3 j x Hw H3 Hx)). destruct (some_of Hd) as [d ->].
  rewrite !Nat2Z.id, <- Hlen. rewrite (thn_done _ _ w (m_data m) (numbers_read w d (m_data m) Hw Hd)).
  destruct m as [a b c]. reflexivity.
Qed.
Lemma in_matrix_rows_reads (w : mem) (p q r : option Z) (l : list (list matrix)) : well (m_heap w) -> l <> [] ->
  (forall ms, In ms l -> length ms = length l /\ forall m, In m ms -> proper_matrix m) ->
  matrix_rows_at (m_heap w) p q r l -> reads (in_matrix_rows p q r (length l)) w l.
Proof.
  intros Hw Hl Hm0 (ts & Hp & Hq & Hr & Hm).
  destruct (some_of Hp) as [cs ->]. destruct (some_of Hq) as [rs ->]. destruct (some_of Hr) as [vs ->].
  unfold reads, in_matrix_rows. rewrite (thn_done _ _ w tt (require_reads _ w (nonempty l Hl))).
  destruct Hp as (rest1 & a1 & E & H1). injection E as <-. destruct Hq as (rest2 & a2 & E & H2). injection E as <-.
  destruct Hr as (rest3 & a3 & E & H3). injection E as <-. destruct (matched_nth _ _ _ Hm) as [_ Hn].
  apply times_reads. intros j ms Hj. cbn [Nat.add]. destruct (Hn j ms Hj) as ([[c k] v] & Hx & Hd). cbn [fst snd] in Hd.
  assert (P : forall (f : option Z * option Z * option Z -> option Z) a rest, In (a, map (fun t => Ptr (f t)) ts ++ rest) (m_heap w) ->
              load_ptr a j w = (w, Done (f (c, k, v)))).
  { intros f a rest Hi. apply (load_ptr_at w a (map f ts) rest j _ Hw); [rewrite map_map; exact Hi|rewrite nth_error_map, Hx; reflexivity]. }
  rewrite (thn_done _ _ w c (P (fun t => fst (fst t)) cs rest1 H1)).
  rewrite (thn_done _ _ w k (P (fun t => snd (fst t)) rs rest2 H2)).
  rewrite (thn_done _ _ w v (P (fun t => snd t) vs rest3 H3)).
  destruct (Hm0 ms (nth_error_In _ _ Hj)) as [Hlen Hpr]. rewrite <- Hlen.
  apply (in_matrices_reads w c k v ms Hw); [|exact Hpr|exact Hd].
  intros ->. destruct l; [contradiction|discriminate Hlen].
Qed.

(** Nothing of the caller's is changed. *)
Ltac calm :=
  repeat first [ apply only_done | apply only_fail | apply only_undefined | apply only_require | apply only_load_num | apply only_load_ptr
               | apply only_text | apply only_times; intros ? | apply only_thn; [|intros ?] ].
Lemma only_number_or_null (p : option Z) : reads_only (in_number_or_null p). Proof. destruct p; cbn; calm. Qed.
Lemma only_text_or_null (p : option Z) : reads_only (in_text_or_null p). Proof. destruct p; cbn; calm. Qed.
Lemma only_numbers (p : option Z) (n : nat) : reads_only (in_numbers p n). Proof. destruct p; cbn [in_numbers]; calm. Qed.
Lemma only_numbers_or_null (p : option Z) (n : nat) : reads_only (in_numbers_or_null p n).
Proof. destruct p; cbn [in_numbers_or_null]; calm. apply only_number_or_null. Qed.
Lemma only_texts (p : option Z) (n : nat) : reads_only (in_texts p n).
Proof. destruct p; cbn [in_texts]; calm. apply only_text_or_null. Qed.
Lemma only_names (p : option Z) (n : nat) : reads_only (in_names p n). Proof. destruct p; cbn [in_names]; calm. Qed.
Lemma only_grains (p q r : option Z) (n : nat) : reads_only (in_grains p q r n).
Proof.
  destruct p; cbn [in_grains]; calm. destruct q; calm.
  - destruct x0; calm.
  - destruct r; calm.
Qed.
Lemma only_matrices (p q r : option Z) (n : nat) : reads_only (in_matrices p q r n).
Proof. destruct p; cbn [in_matrices]; calm. destruct q; calm. destruct r; calm. destruct x4; calm. Qed.
Lemma only_matrix_rows (p q r : option Z) (n : nat) : reads_only (in_matrix_rows p q r n).
Proof. destruct p; cbn [in_matrix_rows]; calm. destruct q; calm. destruct r; calm. apply only_matrices. Qed.
Lemma only_date_time (ticks : Z) (from_text : list Z -> res Z) (d : date_time) : reads_only (in_date_time ticks from_text d).
Proof.
  destruct d as [t|p k|]; cbn [in_date_time]; calm.
  - destruct (in_i64 (t * ticks)); calm.
  - destruct (from_text x); calm.
Qed.
