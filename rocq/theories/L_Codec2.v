(** Whatever bytes are read, the value that comes out is well formed. *)
From Verif Require Import Base L_List M_Archive S_Archive L_Archive M_Codec L_Codec.

(** Types whose [std::map] keys are ordered by [operator<] (no floating point inside, where NaN breaks the order). *)
Fixpoint no_float (t : ty) : bool :=
  match t with
  | TFloat _ => false
  | TArray _ t' | TVector t' | TOption t' => no_float t'
  | TPair a b => no_float a && no_float b
  | _ => true
  end.
Fixpoint good_ty (t : ty) : bool :=
  match t with
  | TSInt w => (1 <=? Z.of_nat w)
  | TArray _ t' | TVector t' | TOption t' | TUSet t' | TColMaj t' | TRowMaj t' => good_ty t'
  | TMap k x => no_float k && good_ty k && good_ty x
  | TUMap k x | TPair k x => good_ty k && good_ty x
  | _ => true
  end.

(** ** Strict weak orders *)
Definition swo {A} (D : A -> Prop) (lt : A -> A -> bool) : Prop :=
  (forall a b, D a -> D b -> lt a b = true -> lt b a = false) /\
  (forall a b c, D a -> D b -> D c -> lt b a = false -> lt c b = false -> lt c a = false).
Lemma swo_trans {A} (D : A -> Prop) lt : swo D lt -> forall a b c, D a -> D b -> D c -> lt a b = true -> lt b c = true -> lt a c = true.
Proof.
  intros [H1 H2] a b c Ha Hb Hc H H'. destruct (lt a c) eqn:E; [reflexivity|].
  assert (X : lt b c = false) by (apply (H2 c a b); auto). congruence.
Qed.
Lemma swo_list {A} (D : A -> Prop) lt : swo D lt -> swo (Forall D) (list_lt lt).
Proof.
  intros [H1 H2]. split.
  - intros a. induction a as [|x a IH]; intros b Ha Hb; destruct b as [|y b]; cbn; try congruence.
    inversion Ha; inversion Hb; subst. intros E. apply orb_true_iff in E.
    destruct (lt x y) eqn:Exy.
    + now rewrite (H1 x y).
    + destruct E as [E|E]; [discriminate|]. apply andb_true_iff in E as [E1 E2]. apply negb_true_iff in E1. rewrite E1. cbn. now apply IH.
  - intros a. induction a as [|x a IH]; intros b c Ha Hb Hc; destruct b as [|y b]; destruct c as [|z c]; cbn; try congruence.
    inversion Ha; inversion Hb; inversion Hc; subst. intros E1 E2. apply orb_false_iff in E1 as [E1 E1'], E2 as [E2 E2'].
    assert (E3 : lt z x = false) by (apply (H2 x y z); auto). rewrite E3. cbn.
    destruct (lt x z) eqn:Exz; [reflexivity|]. cbn.
    assert (lt x y = false) by (apply (H2 y z x); auto).
    assert (lt y z = false) by (apply (H2 z x y); auto).
    apply (IH b c); auto.
    + destruct (lt x y); cbn in E1'; [congruence|exact E1'].
    + destruct (lt y z); cbn in E2'; [congruence|exact E2'].
Qed.
Lemma swo_impl {A} (D D' : A -> Prop) lt : (forall a, D' a -> D a) -> swo D lt -> swo D' lt.
Proof. intros H [H1 H2]. split; intros; [apply H1; auto|eapply (H2 a b c); auto]. Qed.

Lemma forallb_Forall {A} (f : A -> bool) l : forallb f l = true <-> Forall (fun x => f x = true) l.
Proof. rewrite forallb_forall, Forall_forall. reflexivity. Qed.

Lemma key_lt_swo t : no_float t = true -> swo (fun v => wt t v = true) (key_lt t).
Proof.
  induction t as [|w|w|w| |n t IH|t IH|k IHk x IHx|k IHk x IHx|k IHk|t IH|t IH| |a IHa b IHb|t IH]; intros NF; cbn [no_float] in NF.
  - split; intros; repeat (match goal with v : val |- _ => destruct v; try discriminate end); cbn in *; destruct b; destruct b0; cbn in *; try congruence; destruct b1; cbn in *; congruence.
  - split.
    + intros a b Ha Hb. destruct a, b; cbn in *; try discriminate. lia.
    + intros a b c Ha Hb Hc. destruct a, b, c; cbn in *; try discriminate. lia.
  - split.
    + intros a b Ha Hb. destruct a, b; cbn in *; try discriminate. lia.
    + intros a b c Ha Hb Hc. destruct a, b, c; cbn in *; try discriminate. lia.
  - discriminate.
  - assert (S : swo (fun _ : list Z => True) str_lt).
    { split.
      - intros a. induction a as [|x a IH]; intros b _ _; destruct b as [|y b]; cbn; try congruence. intros E.
        apply orb_false_iff. apply orb_true_iff in E. destruct E as [E|E]; [split; lia|].
        apply andb_true_iff in E as [E1 E2]. specialize (IH b I I E2). split; [lia|]. rewrite IH. apply andb_false_r.
      - intros a. induction a as [|x a IH]; intros b c _ _ _; destruct b as [|y b]; destruct c as [|z c]; cbn; try congruence.
        intros E1 E2. apply orb_false_iff in E1 as [E1 E1'], E2 as [E2 E2']. apply orb_false_iff. split; [lia|].
        destruct (Z.eqb_spec z x); [|reflexivity]. subst. assert (x = y) by lia. subst.
        rewrite Z.eqb_refl in *. cbn in *. apply (IH b c); auto. }
    destruct S as [S1 S2]. split.
    + intros a b Ha Hb. destruct a, b; cbn in *; try discriminate. apply S1; auto.
    + intros a b c Ha Hb Hc. destruct a, b, c; cbn in *; try discriminate. apply S2; auto.
  - specialize (IH NF). apply swo_list in IH. destruct IH as [S1 S2]. split.
    + intros a b Ha Hb. destruct a, b; cbn in *; try discriminate. apply andb_true_iff in Ha as [_ Ha], Hb as [_ Hb].
      rewrite forallb_Forall in Ha, Hb. apply S1; auto.
    + intros a b c Ha Hb Hc. destruct a, b, c; cbn in *; try discriminate. apply andb_true_iff in Ha as [_ Ha], Hb as [_ Hb], Hc as [_ Hc].
      rewrite forallb_Forall in Ha, Hb, Hc. apply S2; auto.
  - specialize (IH NF). apply swo_list in IH. destruct IH as [S1 S2]. split.
    + intros a b Ha Hb. destruct a, b; cbn in *; try discriminate. apply andb_true_iff in Ha as [_ Ha], Hb as [_ Hb].
      rewrite forallb_Forall in Ha, Hb. apply S1; auto.
    + intros a b c Ha Hb Hc. destruct a, b, c; cbn in *; try discriminate. apply andb_true_iff in Ha as [_ Ha], Hb as [_ Hb], Hc as [_ Hc].
      rewrite forallb_Forall in Ha, Hb, Hc. apply S2; auto.
  - split; intros; destruct a; cbn in *; try discriminate; auto; destruct c; auto; discriminate.
  - split; intros; destruct a; cbn in *; try discriminate; auto; destruct c; auto; discriminate.
  - split; intros; destruct a; cbn in *; try discriminate; auto; destruct c; auto; discriminate.
  - split; intros; destruct a; cbn in *; try discriminate; auto; destruct c; auto; discriminate.
  - split; intros; destruct a; cbn in *; try discriminate; auto; destruct c; auto; discriminate.
  - split; intros; destruct a; cbn in *; try discriminate; auto; destruct c; auto; discriminate.
  - apply andb_true_iff in NF as [NF1 NF2]. destruct (IHa NF1) as [A1 A2], (IHb NF2) as [B1 B2]. split.
    + intros x y Hx Hy. destruct x, y; cbn in *; try discriminate. apply andb_true_iff in Hx as [Hx1 Hx2], Hy as [Hy1 Hy2].
      intros E. apply orb_true_iff in E. apply orb_false_iff. destruct (key_lt a x1 y1) eqn:Exy.
      * split; [now apply A1|]. cbn. reflexivity.
      * destruct E as [E|E]; [discriminate|]. apply andb_true_iff in E as [E1 E2]. apply negb_true_iff in E1. rewrite E1. cbn. split; [reflexivity|]. now apply B1.
    + intros x y z Hx Hy Hz. destruct x, y, z; cbn in *; try discriminate.
      apply andb_true_iff in Hx as [Hx1 Hx2], Hy as [Hy1 Hy2], Hz as [Hz1 Hz2].
      intros E1 E2. apply orb_false_iff in E1 as [E1 E1'], E2 as [E2 E2'].
      assert (E3 : key_lt a z1 x1 = false) by (apply (A2 x1 y1 z1); auto). rewrite E3. cbn.
      destruct (key_lt a x1 z1) eqn:Exz; [reflexivity|]. cbn.
      assert (X1 : key_lt a x1 y1 = false) by (apply (A2 y1 z1 x1); auto).
      assert (X2 : key_lt a y1 z1 = false) by (apply (A2 z1 x1 y1); auto).
      rewrite X1 in E1'. rewrite X2 in E2'. cbn in *. apply (B2 x2 y2 z2); auto.
  - destruct (IH NF) as [A1 A2]. split.
    + intros x y Hx Hy. destruct x as [| | | | | | | | | |[x|]], y as [| | | | | | | | | |[y|]]; cbn in *; try discriminate; auto.
    + intros x y z Hx Hy Hz. destruct x as [| | | | | | | | | |[x|]], y as [| | | | | | | | | |[y|]], z as [| | | | | | | | | |[z|]]; cbn in *; try discriminate; auto.
      eauto.
Qed.

(** ** Insertion keeps the containers well formed *)
Section Emplace.
  Variable lt : val -> val -> bool.
  Variable D : val -> Prop.
  Hypothesis H : swo D lt.
  Lemma emplace_in k v l q : In q (map_emplace lt k v l) -> q = (k, v) \/ In q l.
  Proof.
    clear H. induction l as [|p r IH]; cbn; [intros [<-|[]]; now left|].
    destruct (lt (fst p) k); [intros [<-|E]; [right; now left|destruct (IH E); [now left|right; now right]]|].
    destruct (lt k (fst p)); [|now right]. intros [<-|E]; [now left|now right].
  Qed.
  Lemma emplace_len k v l : (length (map_emplace lt k v l) <= S (length l))%nat.
  Proof. clear H. induction l as [|p r IH]; cbn; [lia|]. destruct (lt (fst p) k); cbn; [lia|]. destruct (lt k (fst p)); cbn; lia. Qed.
  Lemma emplace_sorted k v l : D k -> Forall (fun p => D (fst p)) l -> sorted_by lt (map fst l) = true ->
    sorted_by lt (map fst (map_emplace lt k v l)) = true.
  Proof.
    intros Hk. induction l as [|p r IH]; intros HD S; [reflexivity|]. cbn [map_emplace].
    inversion HD as [|? ? Hp Hr]; subst. cbn [map sorted_by] in S. apply andb_true_iff in S as [S1 S2].
    destruct (lt (fst p) k) eqn:E1.
    - cbn [map sorted_by]. apply andb_true_iff. split; [|now apply IH]. rewrite forallb_forall in *. intros x Hx.
      apply in_map_iff in Hx. destruct Hx as (q & <- & Hq). apply emplace_in in Hq. destruct Hq as [->|Hq]; [exact E1|].
      apply S1. now apply in_map.
    - destruct (lt k (fst p)) eqn:E2; [|cbn [map sorted_by]; now rewrite S1, S2].
      cbn [map sorted_by forallb fst]. rewrite S1, S2, E2. cbn [andb]. rewrite andb_true_r. apply forallb_forall. intros x Hx.
      rewrite forallb_forall in S1. specialize (S1 x Hx). apply in_map_iff in Hx. destruct Hx as (q & <- & Hq).
      rewrite Forall_forall in Hr. apply (swo_trans D lt H k (fst p) (fst q)); auto.
  Qed.
  Lemma emplace_all_ok (P : val * val -> Prop) xs : forall acc, (forall p, P p -> D (fst p)) -> Forall P xs -> Forall P acc ->
    sorted_by lt (map fst acc) = true ->
    let m := fold_left (fun m p => map_emplace lt (fst p) (snd p) m) xs acc in
    Forall P m /\ sorted_by lt (map fst m) = true /\ (length m <= length xs + length acc)%nat.
  Proof.
    induction xs as [|p r IH]; intros acc PD Hx Ha S; cbn; [split; [exact Ha|split; [exact S|lia]]|].
    inversion Hx as [|? ? Hp Hr]; subst.
    destruct (IH (map_emplace lt (fst p) (snd p) acc)) as (G1 & G2 & G3); auto.
    - apply Forall_forall. intros q Hq. apply emplace_in in Hq. destruct Hq as [->|Hq]; [now rewrite <- surjective_pairing|].
      rewrite Forall_forall in Ha. now apply Ha.
    - apply emplace_sorted; auto. eapply Forall_impl; [|exact Ha]. exact PD.
    - split; [exact G1|split; [exact G2|]]. pose proof (emplace_len (fst p) (snd p) acc). lia.
  Qed.
End Emplace.

Lemma distinct_snoc {A} (eqb : A -> A -> bool) l k : distinct_by eqb l = true -> existsb (fun y => eqb y k) l = false ->
  distinct_by eqb (l ++ [k]) = true.
Proof.
  induction l as [|x r IH]; intros H E; [reflexivity|]. cbn in *. apply andb_true_iff in H as [H1 H2]. apply orb_false_iff in E as [E1 E2].
  rewrite forallb_app, H1, IH by assumption. cbn. now rewrite E1.
Qed.
Lemma umap_all_ok eqb (P : val * val -> Prop) xs : forall acc, Forall P xs -> Forall P acc -> distinct_by eqb (map fst acc) = true ->
  let m := fold_left (fun m p => umap_emplace eqb (fst p) (snd p) m) xs acc in
  Forall P m /\ distinct_by eqb (map fst m) = true /\ (length m <= length xs + length acc)%nat.
Proof.
  induction xs as [|p r IH]; intros acc Hx Ha S; cbn; [split; [exact Ha|split; [exact S|lia]]|].
  inversion Hx as [|? ? Hp Hr]; subst. unfold umap_emplace at 2 4 6. destruct (existsb _ acc) eqn:E.
  - destruct (IH acc Hr Ha S) as (G1 & G2 & G3). split; [exact G1|split; [exact G2|lia]].
  - destruct (IH (acc ++ [(fst p, snd p)])) as (G1 & G2 & G3); auto.
    + apply Forall_app. split; [exact Ha|]. constructor; [now rewrite <- surjective_pairing|constructor].
    + rewrite map_app. apply distinct_snoc; [exact S|]. now rewrite existsb_map.
    + split; [exact G1|split; [exact G2|]]. rewrite app_length in G3. cbn in G3. lia.
Qed.
Lemma uset_all_ok eqb (P : val -> Prop) xs : forall acc, Forall P xs -> Forall P acc -> distinct_by eqb acc = true ->
  let m := fold_left (fun m x => uset_emplace eqb x m) xs acc in
  Forall P m /\ distinct_by eqb m = true /\ (length m <= length xs + length acc)%nat.
Proof.
  induction xs as [|p r IH]; intros acc Hx Ha S; cbn; [split; [exact Ha|split; [exact S|lia]]|].
  inversion Hx as [|? ? Hp Hr]; subst. unfold uset_emplace at 2 4 6. destruct (existsb _ acc) eqn:E.
  - destruct (IH acc Hr Ha S) as (G1 & G2 & G3). split; [exact G1|split; [exact G2|lia]].
  - destruct (IH (acc ++ [p])) as (G1 & G2 & G3); auto.
    + apply Forall_app. split; [exact Ha|]. constructor; [exact Hp|constructor].
    + now apply distinct_snoc.
    + split; [exact G1|split; [exact G2|]]. rewrite app_length in G3. cbn in G3. lia.
Qed.

(** ** Parsers *)
Definition yields {A} (p : parser A) (Q : A -> Prop) : Prop :=
  forall bs x r, bytes_ok bs = true -> p bs = Ok (x, r) -> Q x /\ bytes_ok r = true.
Lemma bytes_ok_skipn n l : bytes_ok l = true -> bytes_ok (skipn n l) = true.
Proof.
  unfold bytes_ok. intros H. rewrite <- (firstn_skipn n l), forallb_app in H. now apply andb_true_iff in H as [_ H].
Qed.
Lemma yields_fixed w : yields (get_fixed w) (fun z => 0 <= z < two_pow8 w).
Proof.
  intros bs x r H E. split; [eapply get_fixed_nonneg; eauto|]. unfold get_fixed in E. destruct (Nat.ltb _ _); [discriminate|].
  inversion E; subst. now apply bytes_ok_skipn.
Qed.
Lemma yields_block n : 0 <= n < 4294967296 -> yields (get_block n) (fun s => bytes_ok s = true /\ len32 s = true).
Proof.
  intros Hn bs x r H E. unfold get_block in E. destruct (n =? 0); [inversion E; subst; auto|].
  destruct bs as [|b q]; [discriminate|]. destruct (_ <? _) eqn:L; [discriminate|]. inversion E; subst.
  split; [|now apply bytes_ok_skipn]. split; [now apply bytes_ok_firstn|]. unfold len32. rewrite firstn_length. lia.
Qed.
Lemma yields_bind {A B} (p : parser A) (f : A -> parser B) (Q : A -> Prop) (R : B -> Prop) :
  yields p Q -> (forall a, Q a -> yields (f a) R) -> yields (fun b => do a <- p b; f (fst a) (snd a)) R.
Proof.
  intros H1 H2 bs x r Hb E. destruct (p bs) as [[a r1]|e|] eqn:Ep; try discriminate. cbn in E.
  destruct (H1 bs a r1 Hb Ep) as [Qa Br]. exact (H2 a Qa r1 x r Br E).
Qed.
Lemma yields_map {A B} (p : parser A) (g : A -> B) (Q : A -> Prop) (R : B -> Prop) :
  yields p Q -> (forall a, Q a -> R (g a)) -> yields (fun b => do a <- p b; Ok (g (fst a), snd a)) R.
Proof.
  intros H1 H2 bs x r Hb E. destruct (p bs) as [[a r1]|e|] eqn:Ep; try discriminate. cbn in E. inversion E; subst.
  destruct (H1 bs a r Hb Ep) as [Qa Br]. split; auto.
Qed.
Lemma yields_n {A} (p : parser A) Q n : yields p Q -> yields (get_n p n) (fun l => length l = n /\ Forall Q l).
Proof.
  intros H. induction n as [|n IH]; intros bs x r Hb E; cbn [get_n] in E; [inversion E; subst; auto|].
  destruct (p bs) as [[a r1]|e|] eqn:Ep; cbn in E; try discriminate.
  destruct (get_n p n r1) as [[l r2]|e|] eqn:El; cbn in E; try discriminate. inversion E; subst.
  destruct (H bs a r1 Hb Ep) as [Qa Br]. destruct (IH r1 l r Br El) as [[Hl Fl] Br2]. cbn. auto.
Qed.
Lemma yields_weak {A} (p : parser A) (Q R : A -> Prop) : yields p Q -> (forall a, Q a -> R a) -> yields p R.
Proof. intros H I bs x r Hb E. destruct (H bs x r Hb E). auto. Qed.
Lemma yields_pair (pk pv : parser val) Q R : yields pk Q -> yields pv R ->
  yields (fun b => do a <- pk b; do c <- pv (snd a); Ok ((fst a, fst c), snd c)) (fun p => Q (fst p) /\ R (snd p)).
Proof.
  intros H1 H2. apply (yields_bind pk (fun a r => do c <- pv r; Ok ((a, fst c), snd c)) Q); [exact H1|].
  intros a Qa. apply (yields_map pv (fun c => (a, c)) R); auto.
Qed.
Lemma yields_bool : yields get_bool (fun _ => True).
Proof.
  intros bs x r Hb E. split; [exact I|]. unfold get_bool in E. destruct (get_fixed 1 bs) as [[a r1]|e|] eqn:Ep; cbn in E; try discriminate.
  destruct (yields_fixed 1 bs a r1 Hb Ep) as [_ B]. destruct (a =? 0); [now inversion E; subst|]. destruct (a =? 1); [now inversion E; subst|discriminate].
Qed.

Lemma to_s_fits w z : (1 <= w)%nat -> fits_s w (to_s w z) = true.
Proof.
  intros H. unfold fits_s, to_s. pose proof (two_pow8_even w H). pose proof (two_pow8_pos w).
  pose proof (Z.mod_pos_bound z (two_pow8 w) ltac:(lia)). destruct (Z.ltb_spec (z mod two_pow8 w) (two_pow8 w / 2)); lia.
Qed.
Lemma len32_of n {A} (l : list A) : 0 <= n < two_pow8 4 -> (length l <= Z.to_nat n)%nat -> len32 l = true.
Proof. unfold len32. change (two_pow8 4) with 4294967296. intros. apply Z.ltb_lt. lia. Qed.

Lemma grid_wt t (ys : list val) n m (f : nat -> nat -> nat) : Forall (fun v => wt t v = true) ys ->
  (forall i j, (i < n)%nat -> (j < m)%nat -> (f i j < length ys)%nat) ->
  forallb (wt t) (flat_map (fun i => map (fun j => nth (f i j) ys VUnit) (seq 0 m)) (seq 0 n)) = true.
Proof.
  intros F B. apply forallb_forall. intros x Hx. apply in_flat_map in Hx as (i & Hi & Hx). apply in_map_iff in Hx as (j & <- & Hj).
  apply in_seq in Hi, Hj. rewrite Forall_forall in F. apply F, nth_In, B; lia.
Qed.

Lemma dec_wt t : good_ty t = true -> yields (dec t) (fun v => wt t v = true).
Proof.
  induction t as [|w|w|w| |n t IH|t IH|k IHk x IHx|k IHk x IHx|k IHk|t IH|t IH| |a IHa b IHb|t IH]; intros G; cbn [dec good_ty] in *.
  - apply (yields_map get_bool VBool _ _ yields_bool). reflexivity.
  - apply (yields_map (get_fixed w) VInt _ _ (yields_fixed w)). intros z Hz. cbn. unfold fits_u. lia.
  - apply (yields_map (get_fixed w) (fun z => VInt (to_s w z)) _ _ (yields_fixed w)). intros z Hz. cbn. rewrite G, andb_true_r.
    apply to_s_fits. lia.
  - apply (yields_map (get_fixed w) VFloat _ _ (yields_fixed w)). intros z Hz. cbn. unfold fits_u. lia.
  - apply (yields_bind (get_fixed 4) (fun n r => do s <- get_block n r; Ok (VStr (fst s), snd s)) _ _ (yields_fixed 4)).
    intros n Hn. apply (yields_map (get_block n) VStr _ _ (yields_block n Hn)). intros s [H1 H2]. cbn. now rewrite H1, H2.
  - apply (yields_map (get_n (dec t) n) VList _ _ (yields_n _ _ n (IH G))). intros l [H1 H2]. cbn. rewrite H1, Nat.eqb_refl. now apply forallb_Forall.
  - apply (yields_bind (get_fixed 4) (fun n r => do xs <- get_n (dec t) (Z.to_nat n) r; Ok (VList (fst xs), snd xs)) _ _ (yields_fixed 4)).
    intros n Hn. apply (yields_map (get_n (dec t) (Z.to_nat n)) VList _ _ (yields_n _ _ _ (IH G))). intros l [H1 H2]. cbn.
    rewrite (len32_of n) by lia. now apply forallb_Forall.
  - apply andb_true_iff in G as [G Gx]. apply andb_true_iff in G as [Gn Gk].
    apply (yields_bind (get_fixed 4) (fun n r => do xs <- get_n _ (Z.to_nat n) r; Ok (VMap (fold_left _ (fst xs) []), snd xs)) _ _ (yields_fixed 4)).
    intros n Hn.
    apply (yields_map (get_n _ (Z.to_nat n)) (fun l => VMap (fold_left (fun m p => map_emplace (key_lt k) (fst p) (snd p) m) l [])) _ _
             (yields_n _ _ _ (yields_pair _ _ _ _ (IHk Gk) (IHx Gx)))).
    intros l [H1 H2]. cbn.
    destruct (emplace_all_ok (key_lt k) _ (key_lt_swo k Gn) (fun p => wt k (fst p) = true /\ wt x (snd p) = true) l []) as (E1 & E2 & E3); auto.
    { intros p [? _]; assumption. }
    cbn in E3. rewrite E2, (len32_of n) by lia. cbn. rewrite andb_true_r. apply forallb_Forall. eapply Forall_impl; [|exact E1]. intros p [P1 P2]. now rewrite P1, P2.
  - apply andb_true_iff in G as [Gk Gx].
    apply (yields_bind (get_fixed 4) (fun n r => do xs <- get_n _ (Z.to_nat n) r; Ok (VMap (fold_left _ (fst xs) []), snd xs)) _ _ (yields_fixed 4)).
    intros n Hn.
    apply (yields_map (get_n _ (Z.to_nat n)) (fun l => VMap (fold_left (fun m p => umap_emplace (key_eq k) (fst p) (snd p) m) l [])) _ _
             (yields_n _ _ _ (yields_pair _ _ _ _ (IHk Gk) (IHx Gx)))).
    intros l [H1 H2]. cbn.
    destruct (umap_all_ok (key_eq k) (fun p => wt k (fst p) = true /\ wt x (snd p) = true) l []) as (E1 & E2 & E3); auto.
    cbn in E3. rewrite E2, (len32_of n) by lia. cbn. rewrite andb_true_r. apply forallb_Forall. eapply Forall_impl; [|exact E1]. intros p [P1 P2]. now rewrite P1, P2.
  - apply (yields_bind (get_fixed 4) (fun n r => do xs <- get_n _ (Z.to_nat n) r; Ok (VSet (fold_left _ (fst xs) []), snd xs)) _ _ (yields_fixed 4)).
    intros n Hn.
    apply (yields_map (get_n _ (Z.to_nat n)) (fun l => VSet (fold_left (fun m x => uset_emplace (key_eq k) x m) l [])) _ _ (yields_n _ _ _ (IHk G))).
    intros l [H1 H2]. cbn. destruct (uset_all_ok (key_eq k) _ l [] H2) as (E1 & E2 & E3); auto.
    cbn in E3. rewrite E2, (len32_of n) by lia. cbn. rewrite andb_true_r. now apply forallb_Forall.
  - apply (yields_bind (get_fixed 8) (fun r b => do c <- get_fixed 8 b;
                  if (to_s 8 r <? 0) || (to_s 8 (fst c) <? 0) then UB
                  else do xs <- get_n (dec t) (Z.to_nat (to_s 8 r * to_s 8 (fst c))) (snd c);
                       Ok (VMat (to_s 8 r) (to_s 8 (fst c)) (mat_of_colmajor (to_s 8 r) (to_s 8 (fst c)) (fst xs)), snd xs)) _ _ (yields_fixed 8)).
    intros r Hr.
    apply (yields_bind (get_fixed 8) (fun c b => if (to_s 8 r <? 0) || (to_s 8 c <? 0) then UB
                  else do xs <- get_n (dec t) (Z.to_nat (to_s 8 r * to_s 8 c)) b;
                       Ok (VMat (to_s 8 r) (to_s 8 c) (mat_of_colmajor (to_s 8 r) (to_s 8 c) (fst xs)), snd xs)) _ _ (yields_fixed 8)).
    intros c Hc. destruct ((to_s 8 r <? 0) || (to_s 8 c <? 0)) eqn:N; [intros ? ? ? _ X; discriminate|].
    apply orb_false_iff in N as [N1 N2].
    apply (yields_map (get_n (dec t) _) (fun l => VMat (to_s 8 r) (to_s 8 c) (mat_of_colmajor (to_s 8 r) (to_s 8 c) l)) _ _ (yields_n _ _ _ (IH G))).
    intros l [H1 H2]. cbn [wt].
    pose proof (to_s_fits 8 r ltac:(lia)) as F1. pose proof (to_s_fits 8 c ltac:(lia)) as F2. unfold fits_s in F1, F2.
    change (two_pow8 8 / 2) with 9223372036854775808 in F1, F2. unfold i64_max.
    unfold mat_of_colmajor. rewrite (grid_length (fun i j => nth (j * Z.to_nat (to_s 8 r) + i) l VUnit)).
    rewrite (grid_wt t l _ _ (fun i j => (j * Z.to_nat (to_s 8 r) + i)%nat)); [nia|exact H2|]. intros i j Hi Hj. rewrite H1. nia.
  - apply (yields_bind (get_fixed 8) (fun r b => do c <- get_fixed 8 b;
                  if (to_s 8 r <? 0) || (to_s 8 (fst c) <? 0) then UB
                  else do xs <- get_n (dec t) (Z.to_nat (to_s 8 r * to_s 8 (fst c))) (snd c);
                       Ok (VMat (to_s 8 r) (to_s 8 (fst c)) (mat_of_rowmajor (to_s 8 r) (to_s 8 (fst c)) (fst xs)), snd xs)) _ _ (yields_fixed 8)).
    intros r Hr.
    apply (yields_bind (get_fixed 8) (fun c b => if (to_s 8 r <? 0) || (to_s 8 c <? 0) then UB
                  else do xs <- get_n (dec t) (Z.to_nat (to_s 8 r * to_s 8 c)) b;
                       Ok (VMat (to_s 8 r) (to_s 8 c) (mat_of_rowmajor (to_s 8 r) (to_s 8 c) (fst xs)), snd xs)) _ _ (yields_fixed 8)).
    intros c Hc. destruct ((to_s 8 r <? 0) || (to_s 8 c <? 0)) eqn:N; [intros ? ? ? _ X; discriminate|].
    apply orb_false_iff in N as [N1 N2].
    apply (yields_map (get_n (dec t) _) (fun l => VMat (to_s 8 r) (to_s 8 c) (mat_of_rowmajor (to_s 8 r) (to_s 8 c) l)) _ _ (yields_n _ _ _ (IH G))).
    intros l [H1 H2]. cbn [wt].
    pose proof (to_s_fits 8 r ltac:(lia)) as F1. pose proof (to_s_fits 8 c ltac:(lia)) as F2. unfold fits_s in F1, F2.
    change (two_pow8 8 / 2) with 9223372036854775808 in F1, F2. unfold i64_max.
    unfold mat_of_rowmajor. rewrite (grid_length (fun i j => nth (i * Z.to_nat (to_s 8 c) + j) l VUnit)).
    rewrite (grid_wt t l _ _ (fun i j => (i * Z.to_nat (to_s 8 c) + j)%nat)); [nia|exact H2|]. intros i j Hi Hj. rewrite H1. nia.
  - intros bs x r Hb E. inversion E; subst. auto.
  - apply andb_true_iff in G as [Ga Gb].
    apply (yields_bind (dec a) (fun x r => do y <- dec b r; Ok (VPair x (fst y), snd y)) _ _ (IHa Ga)).
    intros x Hx. apply (yields_map (dec b) (VPair x) _ _ (IHb Gb)). intros y Hy. cbn. now rewrite Hx, Hy.
  - apply (yields_bind get_bool (fun x r => if x then do y <- dec t r; Ok (VOpt (Some (fst y)), snd y) else Ok (VOpt None, r)) _ _ yields_bool).
    intros x _. destruct x.
    + apply (yields_map (dec t) (fun y => VOpt (Some y)) _ _ (IH G)). auto.
    + intros bs y r Hb E. inversion E; subst. auto.
Qed.
Lemma dec_well_formed t bs v rest : good_ty t = true -> bytes_ok bs = true -> dec t bs = Ok (v, rest) -> wt t v = true.
Proof. intros G B E. exact (proj1 (dec_wt t G bs v rest B E)). Qed.
(** What was read writes back to bytes that read to the same value again. *)
Lemma dec_enc_dec t bs v rest further : good_ty t = true -> bytes_ok bs = true -> dec t bs = Ok (v, rest) -> dec t (enc t v ++ further) = Ok (v, further).
Proof. intros G B E. apply dec_roundtrip. eapply dec_well_formed; eauto. Qed.
