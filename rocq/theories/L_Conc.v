(** The programs of M_Conc, run alone, are the functions of M_CApi. *)
From Verif Require Import Base M_PointerTable M_PtConc M_Estimator M_CApi S_CApi L_PointerTable L_CApi L_CApi2 M_Conc S_Conc.
Open Scope Z_scope.

Section Alone.
  Context {S In Tr Arg Val : Type}.
  Variable I : impl S In Tr.
  Variable construct : res S.
  Variable value_of : Arg -> res In.
  Variable save_tr : Tr -> res (list Z).
  Variable load_tr : list Z -> res Tr.
  Variable exec_one : Tr -> In -> Tr * res Val.
  Variable exec_many : Tr -> In -> Tr * res (list (list Z)).
  Variable flush_many : Tr -> Tr * res (list (list Z)).
  Variable what : exn -> list Z.
  Notation obj := (@obj S Tr).
  Notation world := (@world S Tr).
  Notation answer := (@answer Val).
  Notation prog := (@prog S Tr Val).
  Notation act := (@act S Tr).
  Notation code := (@code S Tr Val).
  Notation PROGRAM := (@program S In Tr Arg Val I construct value_of save_tr load_tr exec_one exec_many flush_many what).

  Section Oracles.
  Variable allocate : nat -> list Z -> Z.
  Variable draws : nat -> list Z.
  Notation STEP := (@step S In Tr Arg Val I construct value_of save_tr load_tr exec_one exec_many flush_many what allocate draws).
  Fixpoint interp (p : prog) (w : world) {struct p} : option (world * cres answer) :=
    match p with
    | Ret x => Some (w, x)
    | New o k => let a := allocate (w_time w) (map fst (w_heap w)) in interp (k a) (mkWorld (w_table w) ((a, o) :: w_heap w) (Datatypes.S (w_time w)))
    | Read a k => match h_find (w_heap w) a with None => Some (w, CUB) | Some o => interp (k o) w end
    | Write a o k => match h_find (w_heap w) a with None => Some (w, CUB) | Some _ => interp k (mkWorld (w_table w) (h_store (w_heap w) a o) (w_time w)) end
    | Delete a k => match h_find (w_heap w) a with None => Some (w, CUB) | Some _ => interp k (mkWorld (w_table w) (h_free (w_heap w) a) (w_time w)) end
    | Table (TAdd p) k =>
        match pt_add (w_table w) p (draws (w_time w)) with
        | None => None
        | Some (t, r) => interp (k r) (mkWorld t (w_heap w) (Datatypes.S (w_time w)))
        end
    | Table (TGet h) k => interp (k (pt_get (w_table w) h)) w
    | Table (TRemove h) k =>
        let (t, r) := pt_remove (w_table w) h in
        interp (k (match r with Ok _ => Ok 0 | Throw e => Throw e | UB => UB end)) (mkWorld t (w_heap w) (w_time w))
    end.
  (** What follows a piece of code does nothing after undefined behaviour. *)
  Definition stops {A} (k : res A -> prog) : Prop := forall w, interp (k UB) w = Some (w, CUB).
  Definition same {A} (m : code A) (m' : act A) : Prop := forall k w, stops k ->
    interp (m k) w = match m' w with None => None | Some (w', r) => interp (k r) w' end.

  Lemma same_value {A} (a : A) : same (value a) (done a). Proof. intros k w H. reflexivity. Qed.
  Lemma same_throw {A} e : same (throw (A := A) e) (raise e). Proof. intros k w H. reflexivity. Qed.
  Lemma same_undef {A} : same (undef (A := A)) undefined. Proof. intros k w H. reflexivity. Qed.
  Lemma same_result {A} (r : res A) : same (result r) (lift r). Proof. intros k w H. reflexivity. Qed.
  Lemma same_check b : same (check b) (require b). Proof. intros k w H. unfold check, require. destruct b; reflexivity. Qed.
  Lemma same_next {A B} (m : code A) (m' : act A) (f : A -> code B) (f' : A -> act B) :
    same m m' -> (forall a, same (f a) (f' a)) -> same (next m f) (thn m' f').
  Proof.
    intros Hm Hf k w Hk. unfold next, thn. rewrite Hm.
    - destruct (m' w) as [[w' [a|e|]]|]; [apply (Hf a k w' Hk)|reflexivity|reflexivity|reflexivity].
    - intros w0. cbv beta iota. apply Hk.
  Qed.
  Lemma same_new o : same (new o) (new_obj allocate o). Proof. intros k w H. reflexivity. Qed.
  Lemma same_read a : same (read a) (read_obj a).
  Proof. intros k w H. unfold read, read_obj. cbn [interp]. destruct (h_find (w_heap w) a); [reflexivity|]. symmetry. apply H. Qed.
  Lemma same_write a o : same (write a o) (write_obj a o).
  Proof. intros k w H. unfold write, write_obj. cbn [interp]. destruct (h_find (w_heap w) a); [reflexivity|]. symmetry. apply H. Qed.
  Lemma same_delete a : same (delete a) (delete_obj a).
  Proof. intros k w H. unfold delete, delete_obj. cbn [interp]. destruct (h_find (w_heap w) a); [reflexivity|]. symmetry. apply H. Qed.
  Lemma same_add p : same (add p) (t_add draws p).
  Proof. intros k w H. unfold add, t_add. cbn [interp]. destruct (pt_add (w_table w) p (draws (w_time w))) as [[t r]|]; reflexivity. Qed.
  Lemma same_get h : same (get h) (t_get h).
  Proof. intros k w H. reflexivity. Qed.
  Lemma same_remove h : same (remove h) (t_remove h).
  Proof. intros k w H. unfold remove, t_remove. cbn [interp]. destruct (pt_remove (w_table w) h) as [t [[]|e|]]; reflexivity. Qed.

  Ltac go := repeat first
    [ apply same_next; [|intros ?] | apply same_value | apply same_throw | apply same_undef | apply same_result | apply same_check | apply same_new
    | apply same_read | apply same_write | apply same_delete | apply same_add | apply same_get | apply same_remove
    | match goal with
      | |- same (match ?x with _ => _ end) _ => destruct x
      | |- same (let (_, _) := ?x in _) _ => destruct x
      end ].
  Lemma guarded_step {A} er (conv : A -> answer) (body : code A) (body' : act A) w : same body body' ->
    interp (guarded what er conv body) w = cmap conv (api what allocate draws er body' w).
  Proof.
    intros H. unfold guarded, api. destruct er; [|reflexivity]. rewrite H by (intros w0; reflexivity).
    destruct (body' w) as [[w' [a|e|]]|]; [reflexivity| |reflexivity|reflexivity].
    assert (Q : same (new_error what e) (create_error what allocate draws e)) by (unfold new_error, create_error; go).
    rewrite Q by (intros w0; reflexivity). destruct (create_error what allocate draws e w') as [[w2 [h|x|]]|]; reflexivity.
  Qed.
  Lemma unguarded_step {A} (conv : A -> answer) (body : code A) (body' : act A) w : same body body' ->
    interp (unguarded conv body) w = cmap conv (bare body' w).
  Proof.
    intros H. unfold unguarded, bare. rewrite H by (intros w0; reflexivity). destruct (body' w) as [[w' [a|e|]]|]; reflexivity.
  Qed.
  Lemma program_step er c w : interp (PROGRAM er c) w = STEP er c w.
  Proof.
    destruct c; cbn [program step].
    all: try (apply guarded_step).
    - unfold x_create_estimator, c_create_estimator. go.
    - unfold x_create_estimator_default, c_create_estimator_default. go.
    - unfold x_destroy_estimator, c_destroy_estimator. go.
    - unfold x_get_state, c_get_state, the_est, get_est. go.
    - unfold x_is_training_complete, c_is_training_complete, the_est, get_est. go.
    - unfold x_fit, c_fit, the_est, get_est. go.
    - unfold x_fit_buffer, c_fit_buffer, the_est, get_est. go.
    - unfold x_est_call, c_est_call, the_est, get_est. go.
    - unfold x_est_call, c_est_call, the_est, get_est. go.
    - unfold x_create_transformer, c_create_transformer, the_est, get_est. go.
    - unfold x_load, c_load. go.
    - unfold x_destroy_transformer, c_destroy_transformer. go.
    - unfold x_save, c_save, the_trans, get_trans. go.
    - unfold x_destroy_save_data, c_destroy_save_data. go.
    - unfold x_transform, c_transform, the_trans, get_trans. go.
    - unfold x_transform_many, c_transform_many, the_trans, get_trans, x_strings, output_strings. go.
    - unfold x_flush, c_flush, the_trans, get_trans, x_strings, output_strings. go.
    - unfold x_destroy_transformed, c_destroy_transformed. go.
    - unfold c_get_error_string. destruct ((h =? 0) || negb out); [reflexivity|]. apply unguarded_step. unfold x_get_error_string. go.
    - unfold c_destroy_error_string. apply unguarded_step. unfold x_destroy_error_string. go.
    - unfold c_destroy_error. destruct (h =? 0); [reflexivity|]. apply unguarded_step. unfold x_destroy_error. go.
  Qed.
  End Oracles.

  (** *** Steps alone, with any address and any unused handle *)
  Notation heap := (list (Z * obj)).
  Inductive sub : ptable * heap * prog -> ptable * heap * prog -> Prop :=
  | sub_heap (t : ptable) (hp hp' : heap) (p p' : prog) : heap_move (hp, p) (hp', p') -> sub (t, hp, p) (t, hp', p')
  | sub_null (t : ptable) (hp : heap) (o : tcall) (k : res Z -> prog) : bad_argument o = true -> sub (t, hp, Table o k) (t, hp, k (Throw InvalidArgument))
  | sub_add (t : ptable) (hp : heap) (p d : Z) (k : res Z -> prog) : p <> 0 -> 1 <= d < 18446744073709551616 -> pt_find t d = None ->
      sub (t, hp, Table (TAdd p) k) ((d, p) :: t, hp, k (Ok d))
  | sub_get (t : ptable) (hp : heap) (h : Z) (k : res Z -> prog) : h <> 0 ->
      sub (t, hp, Table (TGet h) k) (t, hp, k (match pt_find t h with None => Throw InvalidArgument | Some p => Ok p end))
  | sub_remove (t : ptable) (hp : heap) (h p : Z) (k : res Z -> prog) : h <> 0 -> pt_find t h = Some p ->
      sub (t, hp, Table (TRemove h) k) (pt_erase t h, hp, k (Ok 0)).
  Inductive subs : ptable * heap * prog -> ptable * heap * prog -> Prop :=
  | subs_none (x : ptable * heap * prog) : subs x x
  | subs_more (x y z : ptable * heap * prog) : subs x y -> sub y z -> subs x z.
  Lemma subs_first x y z : sub x y -> subs y z -> subs x z.
  Proof. intros H R. induction R as [y|y u v R IH Q]; [exact (subs_more _ _ _ (subs_none _) H)|exact (subs_more _ _ _ (IH H) Q)]. Qed.

  (** The allocator and the random engine that make given choices. *)
  Definition taken (a : Z) (l : list Z) : bool := existsb (Z.eqb a) l.
  Definition alloc_of (cs : list Z) (n : nat) (l : list Z) : Z :=
    let a := nth n cs 0 in if (a =? 0) || taken a l then 1 + fold_right Z.max 0 l else a.
  Definition draws_of (cs : list Z) (n : nat) : list Z :=
    let d := nth n cs 0 in if (1 <=? d) && (d <? 18446744073709551616) then [d] else [1].
  Lemma alloc_of_ok cs : allocator_ok (alloc_of cs).
  Proof.
    intros n l. unfold alloc_of. destruct (Z.eqb_spec (nth n cs 0) 0) as [E|E]; [|destruct (taken (nth n cs 0) l) eqn:T].
    1,2: cbn [orb]; split;
      [intros H; assert (B : forall x, List.In x l -> x <= fold_right Z.max 0 l) by (clear; induction l as [|y l IH]; intros x []; cbn [fold_right]; [lia|specialize (IH x H); lia]); specialize (B _ H); lia
      |assert (0 <= fold_right Z.max 0 l) by (clear; induction l as [|y l IH]; cbn [fold_right]; lia); lia].
    cbn [orb]. split; [|exact E]. intros H. unfold taken in T. assert (X : existsb (Z.eqb (nth n cs 0)) l = true) by (apply existsb_exists; exists (nth n cs 0); split; [exact H|apply Z.eqb_refl]). congruence.
  Qed.
  Lemma draws_of_ok cs : draws_ok (draws_of cs).
  Proof.
    intros n. unfold draws_of. destruct ((1 <=? nth n cs 0) && (nth n cs 0 <? 18446744073709551616)) eqn:E.
    - apply andb_prop in E as [E1 E2]. apply Z.leb_le in E1. apply Z.ltb_lt in E2. constructor; [lia|constructor].
    - constructor; [lia|constructor].
  Qed.
  Lemma nth_here (pre : list Z) c cs : nth (length pre) (pre ++ c :: cs) 0 = c.
  Proof. rewrite app_nth2 by lia. rewrite Nat.sub_diag. reflexivity. Qed.
  Inductive subl : ptable * heap * prog -> ptable * heap * prog -> Prop :=
  | subl_none (x : ptable * heap * prog) : subl x x
  | subl_more (x y z : ptable * heap * prog) : sub x y -> subl y z -> subl x z.
  Lemma subl_snoc x y z : subl x y -> sub y z -> subl x z.
  Proof. intros R Q. induction R as [x|x u v H R IH]; [exact (subl_more _ _ _ Q (subl_none _))|exact (subl_more _ _ _ H (IH Q))]. Qed.
  Lemma subs_subl x y : subs x y -> subl x y.
  Proof. intros R. induction R as [x|x y z R IH H]; [apply subl_none|exact (subl_snoc _ _ _ IH H)]. Qed.
  Lemma subl_interp x y : subl x y -> forall pre t' hp' r, y = (t', hp', Ret r) ->
    exists cs tm, interp (alloc_of (pre ++ cs)) (draws_of (pre ++ cs)) (snd x) (mkWorld (fst (fst x)) (snd (fst x)) (length pre)) = Some (mkWorld t' hp' tm, r).
  Proof.
    intros R. induction R as [x|x y z H R IH]; intros pre t' hp' r E.
    - subst x. exists [], (length pre). reflexivity.
    - specialize (fun pre => IH pre t' hp' r E). clear E R.
      inversion H as [t hp hp1 p p1 M|t hp o k B|t hp p d k P0 D F|t hp h k H0|t hp h p k H0 F]; subst; cbn [fst snd] in *.
      + inversion M as [h0 o k a A0 F|h0 a k o F|h0 a k F|h0 a o q k F|h0 a o k F|h0 a q k F|h0 a k F]; subst; cbn [interp w_heap w_table w_time].
        * destruct (IH (pre ++ [a])) as (cs & tm & Q). exists (a :: cs), tm. rewrite <- app_assoc in Q. cbn [app] in Q.
          rewrite app_length in Q. cbn [length] in Q. rewrite Nat.add_1_r in Q.
          assert (X : alloc_of (pre ++ a :: cs) (length pre) (map fst hp) = a).
          { unfold alloc_of. rewrite nth_here. destruct (Z.eqb_spec a 0) as [Z0|_]; [contradiction|]. destruct (taken a (map fst hp)) eqn:T; [|reflexivity].
            exfalso. apply existsb_exists in T as (b & B1 & B2). apply Z.eqb_eq in B2. subst b. exact (h_find_notin _ _ F B1). }
          rewrite X. exact Q.
        * destruct (IH pre) as (cs & tm & Q). exists cs, tm. rewrite F. exact Q.
        * destruct (IH pre) as (cs & tm & Q). exists cs, tm. rewrite F. exact Q.
        * destruct (IH pre) as (cs & tm & Q). exists cs, tm. rewrite F. exact Q.
        * destruct (IH pre) as (cs & tm & Q). exists cs, tm. rewrite F. exact Q.
        * destruct (IH pre) as (cs & tm & Q). exists cs, tm. rewrite F. exact Q.
        * destruct (IH pre) as (cs & tm & Q). exists cs, tm. rewrite F. exact Q.
      + destruct o as [p|h|h]; cbn [bad_argument interp w_heap w_table w_time] in *.
        * destruct (IH (pre ++ [0])) as (cs & tm & Q). exists (0 :: cs), tm. rewrite <- app_assoc in Q. cbn [app] in Q.
          rewrite app_length in Q. cbn [length] in Q. rewrite Nat.add_1_r in Q. unfold pt_add. rewrite B. exact Q.
        * destruct (IH pre) as (cs & tm & Q). exists cs, tm. unfold pt_get. rewrite B. exact Q.
        * destruct (IH pre) as (cs & tm & Q). exists cs, tm. unfold pt_remove. rewrite B. exact Q.
      + destruct (IH (pre ++ [d])) as (cs & tm & Q). exists (d :: cs), tm. rewrite <- app_assoc in Q. cbn [app] in Q.
        rewrite app_length in Q. cbn [length] in Q. rewrite Nat.add_1_r in Q. cbn [interp w_heap w_table w_time]. unfold pt_add.
        destruct (Z.eqb_spec p 0) as [Z0|_]; [contradiction|].
        assert (X : pt_draw t (draws_of (pre ++ d :: cs) (length pre)) = Some d).
        { unfold draws_of. rewrite nth_here. destruct (Z.leb_spec 1 d) as [_|?]; [|lia]. destruct (Z.ltb_spec d 18446744073709551616) as [_|?]; [|lia]. cbn [andb pt_draw]. rewrite F. reflexivity. }
        rewrite X. exact Q.
      + destruct (IH pre) as (cs & tm & Q). exists cs, tm. cbn [interp w_heap w_table w_time]. unfold pt_get. destruct (Z.eqb_spec h 0) as [Z0|_]; [contradiction|]. exact Q.
      + destruct (IH pre) as (cs & tm & Q). exists cs, tm. cbn [interp w_heap w_table w_time]. unfold pt_remove. destruct (Z.eqb_spec h 0) as [Z0|_]; [contradiction|]. rewrite F. exact Q.
  Qed.

  (** A call that runs alone to its end does what the ledger says. *)
  Notation INV := (@inv S Tr (never_lost I construct)).
  Notation DOES := (@does S In Tr Arg Val I construct value_of save_tr load_tr exec_one exec_many flush_many).
  Lemma inv_time T (w : world) L n : @inv S Tr T w L -> @inv S Tr T (mkWorld (w_table w) (w_heap w) n) L.
  Proof. intros [K N H1 H2 H3 H4 H5 H6]. constructor; assumption. Qed.
  Lemma completed er c (M : @ledger S Tr) t hp t' hp' x n : INV (mkWorld t hp n) M -> subs (t, hp, PROGRAM er c) (t', hp', Ret x) ->
    answers M (snd (DOES er M c)) x /\
    match x with CUB | CEscape _ => True | _ => INV (mkWorld t' hp' O) (holding what (fst (DOES er M c)) (snd (DOES er M c)) x) end.
  Proof.
    intros Hi R. destruct (subl_interp _ _ (subs_subl _ _ R) [] t' hp' x eq_refl) as (cs & tm & E). cbn [fst snd app length] in E.
    rewrite program_step in E.
    pose proof (every_step I construct value_of save_tr load_tr exec_one exec_many flush_many what _ _ (alloc_of_ok cs) (draws_of_ok cs) er c _ M (inv_time _ _ _ O Hi) _ _ E) as [G1 G2].
    split; [exact G1|]. destruct x; try exact Logic.I; exact (inv_time _ _ _ O G2).
  Qed.
End Alone.
