From Verif Require Import Base L_List M_Archive M_Codec L_Codec M_Estimator M_Stats M_Pipeline M_Keyed S_Keyed L_Keyed M_Grain S_Grain.

Lemma lex_order : forall (T : Type) (eqb lt : T -> T -> bool), key_order eqb lt -> key_order (list_eqb eqb) (lex_lt lt).
Proof.
  intros T eqb lt [He [Hi [Ht Htot]]]. split; [|split; [|split]].
  - induction x as [|x a IH]; intros [|y b]; cbn [list_eqb]; split; intros H; try discriminate; try reflexivity.
    + apply andb_true_iff in H. destruct H as [H1 H2]. apply He in H1. apply IH in H2. now subst.
    + injection H as -> ->. apply andb_true_iff. split; [now apply He|now apply IH].
  - induction x as [|x a IH]; [reflexivity|]. cbn [lex_lt]. now rewrite Hi.
  - induction x as [|x a IH]; intros [|y b] [|z c]; cbn [lex_lt]; intros H1 H2; try discriminate; try reflexivity.
    destruct (lt x y) eqn:E1.
    + destruct (lt y z) eqn:E2; [now rewrite (Ht _ _ _ E1 E2)|]. destruct (lt z y) eqn:E3; [discriminate|]. rewrite <- (Htot y z E2 E3), E1. reflexivity.
    + destruct (lt y x) eqn:E1'; [discriminate|]. pose proof (Htot x y E1 E1'). subst y. destruct (lt x z) eqn:E2; [reflexivity|]. destruct (lt z x); [discriminate|]. eauto.
  - induction x as [|x a IH]; intros [|y b]; cbn [lex_lt]; intros H1 H2; try discriminate; try reflexivity.
    destruct (lt x y) eqn:E1; [discriminate|]. destruct (lt y x) eqn:E2; [discriminate|]. f_equal; [now apply Htot|now apply IH].
Qed.
Lemma z_key_order : key_order Z.eqb Z.ltb.
Proof. repeat split; intros; try lia. Qed.
Lemma names_order : key_order names_eqb names_lt.
Proof. apply lex_order, lex_order, z_key_order. Qed.
Definition names_ok (k : list (list Z)) : Prop := wt (TVector TString) (VList (map VStr k)) = true.
Lemma names_roundtrip : forall k rest, names_ok k -> names_dec (names_enc k ++ rest) = Ok (k, rest).
Proof.
  intros k rest H. unfold names_dec, names_enc. rewrite (dec_roundtrip (TVector TString) (VList (map VStr k)) rest H). cbn [bind fst snd]. f_equal. f_equal.
  rewrite map_map. apply map_id.
Qed.
