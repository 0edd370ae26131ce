From Verif Require Import Base M_Archive M_Estimator M_Pipeline M_Codec M_Save L_Codec2 L_Save M_SampleAdd S_SampleAdd.

Lemma to_u4 z : to_u 4 z = z mod 2 ^ 32.
Proof. reflexivity. Qed.
Lemma sample_fit_sum xs : forall d, 0 <= d < 2 ^ 32 -> sample_fit d xs = (d + sum_of xs) mod 2 ^ 32 /\ 0 <= sample_fit d xs < 2 ^ 32.
Proof.
  unfold sample_fit. induction xs as [|x xs IH]; intros d Hd; cbn [fold_left sum_of fold_right].
  - rewrite Z.add_0_r, Z.mod_small by exact Hd. auto.
  - destruct (IH (to_u 4 (d + x))) as [A B]; [rewrite to_u4; apply Z.mod_pos_bound; lia|]. split; [|exact B]. rewrite A, to_u4. fold (sum_of xs).
    rewrite Zplus_mod_idemp_l. f_equal. ring.
Qed.
Lemma sum_of_app a b : sum_of (a ++ b) = sum_of a + sum_of b.
Proof. unfold sum_of. induction a as [|x a IH]; cbn [app fold_right]; [ring|]. rewrite IH. ring. Qed.
Lemma sum_of_perm a b : Permutation a b -> sum_of a = sum_of b.
Proof. unfold sum_of. induction 1; cbn [fold_right]; lia. Qed.

Lemma loop_sum all : forall bs d fuel, bs <> [] -> Forall (fun b : list Z => b <> []) bs -> 0 <= d < 2 ^ 32 -> (length bs < fuel)%nat ->
  train_loop sample_impl all fuel bs (mkEst Training false d) = Some (Ok (mkEst Finished false ((d + sum_of (concat bs)) mod 2 ^ 32))).
Proof.
  induction bs as [|b bs IH]; intros d fuel N F Hd Hf; [now elim N|]. inversion F as [|? ? F1 F2]; subst. destruct fuel as [|fuel]; [inversion Hf|]. cbn [length] in Hf. cbn [train_loop e_state].
  unfold fit. cbn [e_state e_impl e_created]. destruct b as [|x b]; [now elim F1|]. cbn [sample_impl i_fit ok1 fst snd bind]. destruct (sample_fit_sum (x :: b) d Hd) as [A B].
  destruct bs as [|b' bs].
  - unfold on_data_completed. cbn [e_state e_impl e_created sample_impl i_on_data ok1 fst snd bind]. destruct fuel as [|fuel]; [lia|]. cbn [train_loop e_state]. cbn [concat]. rewrite app_nil_r, A. reflexivity.
  - rewrite IH; [|discriminate|exact F2|exact B|lia]. rewrite A. cbn [concat]. rewrite (sum_of_app (x :: b)), Zplus_mod_idemp_l, Z.add_assoc. reflexivity.
Qed.
Theorem sample_trained bs fuel : bs <> [] -> Forall (fun b : list Z => b <> []) bs -> (length bs < fuel)%nat ->
  exists e e', train sample_impl bs fuel (est_new 0) = Some (Ok e) /\ create_transformer sample_impl e = (e', Ok (sum_of (concat bs) mod 2 ^ 32)).
Proof.
  intros N F Hf. unfold train, begin_training, est_new. cbn [e_state e_impl e_created sample_impl i_begin ok1 fst snd bind]. rewrite (loop_sum bs bs 0 fuel N F); [|lia|exact Hf].
  unfold complete_training. cbn [e_state e_impl e_created i_complete ok1 fst snd bind]. eexists. eexists. split; [reflexivity|]. unfold create_transformer. cbn [e_state e_impl e_created i_create]. rewrite Z.add_0_l. reflexivity.
Qed.
Lemma sample_exec_sum s x : sample_exec (s mod 2 ^ 32) x = (x + s) mod 2 ^ 32.
Proof. unfold sample_exec. rewrite to_u4. apply Zplus_mod_idemp_r. Qed.
Theorem sample_saved d further : 0 <= d < 2 ^ 32 -> sample_load (sample_save d ++ further) = Ok (d, further).
Proof.
  intros H. unfold sample_load, sample_save. rewrite save_load.
  - reflexivity.
  - cbn [k_ty wt]. unfold fits_u. apply andb_true_intro. split; [apply Z.leb_le; lia|apply Z.ltb_lt; exact (proj2 H)].
Qed.
Lemma sample_layout d : 0 <= d < 2 ^ 32 -> sample_save d = [1; 0; 0; 0; d mod 256; d / 2 ^ 8 mod 256; d / 2 ^ 16 mod 256; d / 2 ^ 24 mod 256].
Proof.
  intros H. unfold sample_save, k_save. change (le_bytes 2 1 ++ le_bytes 2 0) with [1; 0; 0; 0]. cbn [k_versioned k_ty enc app le_bytes].
  change (2 ^ 16) with (256 * 256). change (2 ^ 24) with (256 * 256 * 256). change (2 ^ 8) with 256. rewrite <- !Z.div_div by lia. reflexivity.
Qed.
