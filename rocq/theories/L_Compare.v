(** C87: lemmas about [==]. *)
From Coq Require Import Permutation.
From Verif Require Import Base L_List M_Archive M_Codec M_Save S_Compare M_Compare L_Codec L_Codec2 L_Save.

Lemma list_eqb_F2 {A} (f : A -> A -> bool) x : forall y, list_eqb f x y = true <-> Forall2 (fun a b => f a b = true) x y.
Proof.
  induction x as [|a x IH]; intros [|b y]; cbn [list_eqb]; split; intros H; try discriminate; try constructor; try (inversion H; fail).
  - now apply andb_true_iff in H.
  - apply IH. now apply andb_true_iff in H.
  - inversion H as [|? ? ? ? H1 H2]; subst. apply andb_true_iff. split; [assumption|]. now apply IH.
Qed.
Lemma F2_iff {A B} (P Q : A -> B -> Prop) (N : A -> bool) x : forall y, (forall a b, In a x -> In b y -> (P a b <-> N a = true /\ Q a b)) ->
  (Forall2 P x y <-> forallb N x = true /\ Forall2 Q x y).
Proof.
  induction x as [|a x IH]; intros [|b y] H; split; intros E; try (inversion E; fail); try (destruct E as [_ E]; inversion E; fail).
  - split; [reflexivity|constructor].
  - constructor.
  - inversion E as [|? ? ? ? E1 E2]; subst. destruct (proj1 (H a b (or_introl eq_refl) (or_introl eq_refl)) E1) as [N1 Q1].
    destruct (proj1 (IH y (fun a' b' Ha Hb => H a' b' (or_intror Ha) (or_intror Hb))) E2) as [N2 Q2]. cbn [forallb]. rewrite N1, N2. split; [reflexivity|now constructor].
  - destruct E as [N1 Q1]. cbn [forallb] in N1. apply andb_true_iff in N1 as [N1 N2]. inversion Q1 as [|? ? ? ? Q2 Q3]; subst. constructor.
    + apply H; [now left|now left|now split].
    + apply IH; [intros; apply H; now right|now split].
Qed.
Lemma F2_imp {A B} (P Q : A -> B -> Prop) x : forall y, (forall a b, In a x -> In b y -> P a b -> Q a b) -> Forall2 P x y -> Forall2 Q x y.
Proof.
  induction x as [|a x IH]; intros y H E; inversion E; subst; constructor.
  - apply H; [now left|now left|assumption].
  - apply IH; [intros; apply H; [now right|now right|assumption]|assumption].
Qed.
Lemma F2_in {A B} (P : A -> B -> Prop) x : forall y a, Forall2 P x y -> In a x -> exists b, In b y /\ P a b.
Proof.
  induction x as [|c x IH]; intros y a E H0; [contradiction|]. destruct H0 as [<-|H]; inversion E as [|? d ? y' E1 E2]; subst.
  - exists d. split; [now left|assumption].
  - destruct (IH _ _ E2 H) as (b & H1 & H2). exists b. split; [now right|assumption].
Qed.
Lemma F2_len {A B} (P : A -> B -> Prop) x : forall y, Forall2 P x y -> length x = length y.
Proof. induction x as [|a x IH]; intros y E; inversion E; subst; [reflexivity|]. cbn [length]. f_equal. auto. Qed.
Lemma F2_sym {A} (P Q : A -> A -> Prop) x : forall y, (forall a b, In a x -> In b y -> P a b -> Q b a) -> Forall2 P x y -> Forall2 Q y x.
Proof.
  induction x as [|a x IH]; intros y H E; inversion E; subst; constructor.
  - apply H; [now left|now left|assumption].
  - apply IH; [intros; apply H; [now right|now right|assumption]|assumption].
Qed.
Lemma F2_trans {A} (P : A -> A -> Prop) x : forall y z, (forall a b c, In a x -> P a b -> P b c -> P a c) -> Forall2 P x y -> Forall2 P y z -> Forall2 P x z.
Proof.
  induction x as [|a x IH]; intros y z H E E'; inversion E; subst; inversion E'; subst; constructor.
  - eapply H; [now left|eassumption|eassumption].
  - eapply IH; [intros a' b' c' Ha; apply H; now right|eassumption|assumption].
Qed.
Lemma F2_refl {A} (P : A -> A -> Prop) x : (forall a, In a x -> P a a) -> Forall2 P x x.
Proof. induction x as [|a x IH]; intros H; constructor; [apply H; now left|]. apply IH. intros b Hb. apply H. now right. Qed.
Lemma F2_perm {A B} (P : A -> B -> Prop) l m : Permutation l m -> forall l', Forall2 P m l' -> exists l'', Permutation l' l'' /\ Forall2 P l l''.
Proof.
  induction 1 as [|a l m H IH|a b l|l m n H1 IH1 H2 IH2]; intros l' E.
  - inversion E; subst. exists []. split; [constructor|constructor].
  - inversion E as [|? y ? y' E1 E2]; subst. destruct (IH _ E2) as (k & K1 & K2). exists (y :: k). split; [now constructor|now constructor].
  - inversion E as [|? y ? y' E1 E2]; subst. inversion E2 as [|? z ? z' E3 E4]; subst. exists (z :: y :: z'). split; [constructor|]. now repeat constructor.
  - destruct (IH2 _ E) as (k & K1 & K2). destruct (IH1 _ K2) as (j & J1 & J2). exists j. split; [now transitivity k|assumption].
Qed.

(** *** Keys *)
Lemma list_eqb_sym {A} (f : A -> A -> bool) : (forall a b, f a b = f b a) -> forall x y, list_eqb f x y = list_eqb f y x.
Proof. intros H. induction x as [|a x IH]; intros [|b y]; cbn [list_eqb]; try reflexivity. now rewrite H, IH. Qed.
Lemma str_eqb_eq x : forall y, str_eqb x y = true <-> x = y.
Proof.
  induction x as [|a x IH]; intros [|b y]; cbn [str_eqb]; split; intros H; try discriminate; try reflexivity.
  - apply andb_true_iff in H as [H1 H2]. apply IH in H2. apply Z.eqb_eq in H1. now subst.
  - injection H as -> ->. rewrite Z.eqb_refl. now apply IH.
Qed.
Lemma key_eq_sym t : forall a b, key_eq t a b = key_eq t b a.
Proof.
  induction t as [|w|w|w| |n t IH|t IH|k IHk x IHx|k IHk x IHx|k IHk|t IH|t IH| |a1 IHa b1 IHb|t IH]; intros a b; destruct a, b; cbn [key_eq]; try reflexivity;
    try (destruct o; reflexivity); try (destruct o0; reflexivity).
  - now destruct b0, b.
  - apply Z.eqb_sym.
  - apply Z.eqb_sym.
  - rewrite (Z.eqb_sym (f_key w bits)), (andb_comm (f_nan w bits) (f_nan w bits0)), (andb_comm (negb (f_nan w bits))). reflexivity.
  - destruct (str_eqb s s0) eqn:E, (str_eqb s0 s) eqn:E'; try reflexivity.
    + apply str_eqb_eq in E. subst. now rewrite (proj2 (str_eqb_eq s0 s0) eq_refl) in E'.
    + apply str_eqb_eq in E'. subst. now rewrite (proj2 (str_eqb_eq s s) eq_refl) in E.
  - now apply list_eqb_sym.
  - now apply list_eqb_sym.
  - now rewrite IHa, IHb.
  - destruct o as [v|], o0 as [v'|]; try reflexivity. apply IH.
Qed.
Lemma list_eqb_trans {A} (f : A -> A -> bool) : (forall a b c, f a b = true -> f b c = true -> f a c = true) -> forall x y z, list_eqb f x y = true -> list_eqb f y z = true -> list_eqb f x z = true.
Proof.
  intros H. induction x as [|a x IH]; intros [|b y] [|c z]; cbn [list_eqb]; try discriminate; try reflexivity. intros E E'. apply andb_true_iff in E as [E1 E2]. apply andb_true_iff in E' as [E3 E4].
  apply andb_true_iff. split; [eapply H; eassumption|eapply IH; eassumption].
Qed.
Lemma key_eq_trans t : forall a b c, key_eq t a b = true -> key_eq t b c = true -> key_eq t a c = true.
Proof.
  induction t as [|w|w|w| |n t IH|t IH|k IHk x IHx|k IHk x IHx|k IHk|t IH|t IH| |a1 IHa b1 IHb|t IH]; intros a b c; destruct a, b; cbn [key_eq]; try discriminate;
    try (destruct o; discriminate); try (destruct o; destruct o0; discriminate); destruct c; cbn [key_eq]; try discriminate; try reflexivity;
    try (destruct o; discriminate); try (destruct o; destruct o0; discriminate).
  - destruct b0, b, b1; cbn; congruence.
  - rewrite !Z.eqb_eq. congruence.
  - rewrite !Z.eqb_eq. congruence.
  - destruct (f_nan w bits), (f_nan w bits0), (f_nan w bits1); cbn; try discriminate; try reflexivity. rewrite !Z.eqb_eq. congruence.
  - rewrite !str_eqb_eq. congruence.
  - now apply list_eqb_trans.
  - now apply list_eqb_trans.
  - intros E E'. apply andb_true_iff in E as [E1 E2]. apply andb_true_iff in E' as [E3 E4]. apply andb_true_iff. split; [eapply IHa; eassumption|eapply IHb; eassumption].
  - destruct o as [v|], o0 as [v'|], o1 as [v''|]; try discriminate; try reflexivity. apply IH.
Qed.
Lemma f_abs w b : fits_u w b = true -> b mod (two_pow8 w / 2) = Z.abs (f_key w b).
Proof.
  intros H. unfold f_key. assert (0 <= b mod (two_pow8 w / 2)).
  { unfold fits_u in H. destruct (Z.eq_dec (two_pow8 w / 2) 0) as [E|N].
    - rewrite E, Zmod_0_r. lia.
    - apply Z.mod_pos_bound. assert (0 <= two_pow8 w / 2) by (apply Z.div_pos; unfold two_pow8; lia). lia. }
  destruct (two_pow8 w / 2 <=? b); lia.
Qed.
Lemma nan_key w x y : fits_u w x = true -> fits_u w y = true -> f_key w x = f_key w y -> f_nan w x = f_nan w y.
Proof. intros Hx Hy E. unfold f_nan. rewrite (f_abs w x Hx), (f_abs w y Hy), E. reflexivity. Qed.

Lemma eq_key t : keyable t = true -> forall a b, wt t a = true -> wt t b = true -> (cpp_eq t a b = true <-> numeric t a = true /\ key_eq t a b = true).
Proof.
  induction t as [|w|w|w| |n t IH|t IH|k IHk x IHx|k IHk x IHx|k IHk|t IH|t IH| |a1 IHa b1 IHb|t IH]; cbn [keyable]; intros K; try discriminate; intros a b;
    destruct a; cbn [wt]; try discriminate; destruct b; cbn [wt]; try discriminate; cbn [cpp_eq numeric key_eq]; try tauto.
  - intros Ha Hb. split.
    + intros E. apply andb_true_iff in E as [E1 E2]. apply andb_true_iff in E1 as [E0 E1]. split; [assumption|]. rewrite E0, E1, E2. apply orb_true_r.
    + intros [E1 E2]. rewrite (proj1 (negb_true_iff _) E1) in *. cbn [negb andb orb] in *. exact E2.
  - intros Ha Hb. apply andb_true_iff in Ha as [_ Ha]. apply andb_true_iff in Hb as [_ Hb]. rewrite forallb_forall in Ha, Hb. rewrite !list_eqb_F2. apply F2_iff. auto.
  - intros Ha Hb. apply andb_true_iff in Ha as [_ Ha]. apply andb_true_iff in Hb as [_ Hb]. rewrite forallb_forall in Ha, Hb. rewrite !list_eqb_F2. apply F2_iff. auto.
  - apply andb_true_iff in K as [K1 K2]. intros Ha Hb. apply andb_true_iff in Ha as [A1 A2]. apply andb_true_iff in Hb as [B1 B2].
    specialize (IHa K1 _ _ A1 B1). specialize (IHb K2 _ _ A2 B2). rewrite !andb_true_iff. tauto.
  - destruct o as [v|], o0 as [v'|]; intros Ha Hb; try (split; intros H; [discriminate|destruct H; discriminate]); [|split; [now split|reflexivity]].
    exact (IH K v v' Ha Hb).
Qed.
Lemma key_eq_refl t : keyable t = true -> forall a, wt t a = true -> key_eq t a a = true.
Proof.
  induction t as [|w|w|w| |n t IH|t IH|k IHk x IHx|k IHk x IHx|k IHk|t IH|t IH| |a1 IHa b1 IHb|t IH]; cbn [keyable]; intros K; try discriminate; intros a; destruct a; cbn [wt]; try discriminate; cbn [key_eq]; intros H.
  - now destruct b.
  - apply Z.eqb_refl.
  - apply Z.eqb_refl.
  - destruct (f_nan w bits); cbn; [reflexivity|apply Z.eqb_refl].
  - now apply str_eqb_eq.
  - apply list_eqb_F2, F2_refl. apply andb_true_iff in H as [_ H]. rewrite forallb_forall in H. auto.
  - apply list_eqb_F2, F2_refl. apply andb_true_iff in H as [_ H]. rewrite forallb_forall in H. auto.
  - reflexivity.
  - apply andb_true_iff in K as [K1 K2]. apply andb_true_iff in H as [A1 A2]. now rewrite IHa, IHb.
  - destruct o as [v|]; [|reflexivity]. now apply IH.
Qed.

(** *** Unordered containers *)
Lemma match_perm {A} (key : A -> A -> bool) (R : A -> A -> Prop) : (forall p p' q, R p q -> R p' q -> key p p' = true) ->
  forall l l', distinct_by key l = true -> length l = length l' -> (forall p, In p l -> exists q, In q l' /\ R p q) -> exists m, Permutation l m /\ Forall2 R m l'.
Proof.
  intros HK. induction l as [|p l IH]; intros l' D L H.
  - destruct l'; [|discriminate]. exists []. split; constructor.
  - destruct (H p (or_introl eq_refl)) as (q & Hq & Rq). apply in_split in Hq as (l1 & l2 & ->). cbn [distinct_by] in D. apply andb_true_iff in D as [D1 D2]. rewrite forallb_forall in D1.
    destruct (IH (l1 ++ l2)) as (m & M1 & M2); [exact D2|rewrite app_length in *; cbn [length] in L; lia| |].
    + intros p' Hp'. destruct (H p' (or_intror Hp')) as (q' & Hq' & Rq'). exists q'. split; [|assumption]. apply in_app_or in Hq'. apply in_or_app. destruct Hq' as [Hq'|[<-|Hq']]; [now left| |now right].
      specialize (D1 p' Hp'). rewrite (HK p p' q Rq Rq') in D1. discriminate.
    + apply Forall2_app_inv_r in M2 as (m1 & m2 & E1 & E2 & ->). exists (m1 ++ p :: m2). split.
      * rewrite M1. apply Permutation_middle.
      * apply Forall2_app; [assumption|now constructor].
Qed.
Lemma match_len {A B} (key : A -> A -> bool) (R : A -> B -> Prop) : (forall p p' q, R p q -> R p' q -> key p p' = true) ->
  forall l l', distinct_by key l = true -> (forall p, In p l -> exists q, In q l' /\ R p q) -> (length l <= length l')%nat.
Proof.
  intros HK. induction l as [|p l IH]; intros l' D H; [cbn [length]; lia|].
  destruct (H p (or_introl eq_refl)) as (q & Hq & Rq). apply in_split in Hq as (l1 & l2 & ->). cbn [distinct_by] in D. apply andb_true_iff in D as [D1 D2]. rewrite forallb_forall in D1.
  specialize (IH (l1 ++ l2) D2). rewrite app_length in *. cbn [length]. enough (length l <= length l1 + length l2)%nat by lia. apply IH.
  intros p' Hp'. destruct (H p' (or_intror Hp')) as (q' & Hq' & Rq'). exists q'. split; [|assumption]. apply in_app_or in Hq'. apply in_or_app. destruct Hq' as [Hq'|[<-|Hq']]; [now left| |now right].
  specialize (D1 p' Hp'). rewrite (HK p p' q Rq Rq') in D1. discriminate.
Qed.
Lemma distinct_same {A} (key : A -> A -> bool) l : (forall a b, key a b = key b a) -> distinct_by key l = true -> forall p q, In p l -> In q l -> key p q = true -> p = q.
Proof.
  intros S. induction l as [|x l IH]; intros D p q Hp Hq E; [contradiction|]. cbn [distinct_by] in D. apply andb_true_iff in D as [D1 D2]. rewrite forallb_forall in D1.
  destruct Hp as [<-|Hp], Hq as [<-|Hq].
  - reflexivity.
  - specialize (D1 q Hq). rewrite E in D1. discriminate.
  - specialize (D1 p Hp). rewrite S, E in D1. discriminate.
  - now apply IH.
Qed.
Lemma distinct_map {A B} (key : B -> B -> bool) (f : A -> B) l : distinct_by key (map f l) = distinct_by (fun a b => key (f a) (f b)) l.
Proof.
  induction l as [|x l IH]; [reflexivity|]. cbn [map distinct_by]. rewrite IH. f_equal. clear IH. induction l as [|y l IH]; [reflexivity|]. cbn [map forallb]. now rewrite IH.
Qed.
