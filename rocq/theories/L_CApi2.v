(** Every C function does what the ledger says. *)
From Verif Require Import Base M_PointerTable S_PointerTable L_PointerTable M_Estimator M_CApi S_CApi L_CApi.
Open Scope Z_scope.

Section Steps.
  Context {S In Tr Arg Val : Type}.
  Variable I : impl S In Tr.
  Variable construct : res S.
  Variable value_of : Arg -> res In.
  Variable save_tr : Tr -> res (list Z).
  Variable load_tr : list Z -> res Tr.
  Variable exec_one : Tr -> In -> Tr * res Val.
  Variable exec_many : Tr -> In -> Tr * res (list (list Z)).
  Variable flush_many : Tr -> Tr * res (list (list Z)).
  Variable what : exn -> list Z.
  Variable allocate : nat -> list Z -> Z.
  Variable draws : nat -> list Z.
  Hypothesis Halloc : allocator_ok allocate.
  Hypothesis Hdraws : draws_ok draws.
  Notation obj := (@obj S Tr).
  Notation world := (@world S Tr).
  Notation ledger := (@ledger S Tr).
  Notation answer := (@answer Val).
  Notation act := (@act S Tr).
  Notation outcome := (@outcome S Tr Val).
  Notation STEP := (@step S In Tr Arg Val I construct value_of save_tr load_tr exec_one exec_many flush_many what allocate draws).
  Notation DOES := (@does S In Tr Arg Val I construct value_of save_tr load_tr exec_one exec_many flush_many).

  Definition never_lost : Prop := forall s e, construct = Ok s -> snd (begin_training I (est_new s)) <> Throw e.
  Notation INV := (@inv S Tr never_lost).

  Definition good (L L' : ledger) (o : outcome) (w' : world) (x : cres answer) : Prop :=
    answers L o x /\ match x with CUB | CEscape _ => True | _ => INV w' (holding what L' o x) end.
  Definition body_ok {A} (L L' : ledger) (o : outcome) (conv : A -> answer) (w' : world) (r : res A) : Prop :=
    match r with
    | UB => o = Undefined
    | Throw e => o = Refuse e /\ INV w' L' /\ (forall h, live L' h = None -> live L h = None)
    | Ok a => good L L' o w' (CTrue (conv a))
    end.

  Lemma cmap_some {A B} (f : A -> B) (m : option (world * cres A)) w' y : cmap f m = Some (w', y) ->
    exists x, m = Some (w', x) /\
      y = match x with CTrue a => CTrue (f a) | CFalse e => CFalse e | CEscape e => CEscape e | CUB => CUB end.
  Proof.
    destruct m as [[w0 x]|]; cbn [cmap]; [|discriminate]. intros H. exists x.
    destruct x; injection H as <- <-; split; reflexivity.
  Qed.

  Lemma api_ok {A} (body : act A) (conv : A -> answer) L L' o w w' x :
    (forall w1 r, body w = Some (w1, r) -> body_ok L L' o conv w1 r) ->
    cmap conv (api what allocate draws true body w) = Some (w', x) -> good L L' o w' x.
  Proof using Halloc Hdraws.
    intros H E. apply cmap_some in E as [y [E ->]]. unfold api in E. destruct (body w) as [[w1 r]|] eqn:Eb; [|discriminate].
    specialize (H w1 r eq_refl). destruct r as [a|e|]; cbn [body_ok] in H.
    - injection E as <- <-. exact H.
    - destruct H as [-> [Hi Hd]]. destruct (create_error what allocate draws e w1) as [[w2 r2]|] eqn:Ec; [|discriminate].
      unfold create_error in Ec. destruct (add_handle allocate draws Halloc Hdraws never_lost w1 L' (OText (what e)) w2 r2 Hi eq_refl Ec) as [h [-> [[F1 F2] Hi2]]].
      injection E as <- <-. split; cbn [answers holding].
      + exists h. split; [reflexivity|]. split; [exact F1|exact (Hd h F2)].
      + exact Hi2.
    - subst o. injection E as <- <-. split; [reflexivity|exact Logic.I].
  Qed.
  Lemma quiet_ok {A} (body : act A) (conv : A -> answer) L w w' x : INV w L ->
    cmap conv (api what allocate draws false body w) = Some (w', x) -> good L L Quiet w' x.
  Proof.
    intros Hi E. apply cmap_some in E as [y [E ->]]. cbn [api] in E. injection E as <- <-. split; [reflexivity|exact Hi].
  Qed.

  Lemma dom_id (L : ledger) : forall h, live L h = None -> live L h = None. Proof. intros h H. exact H. Qed.
  Lemma dom_behind (L : ledger) k (o : obj) : forall h, live (behind L k (Some o)) h = None -> live L h = None.
  Proof. intros h. cbn [behind live]. unfold assign. destruct (h =? k); [discriminate|intros H; exact H]. Qed.

  (** Looking an object up. *)
  Lemma lookup w L h : INV w L -> h <> 0 ->
    (live L h = None /\ pt_find (w_table w) h = None /\ pt_get (w_table w) h = Throw InvalidArgument) \/
    (exists p o, live L h = Some o /\ pt_find (w_table w) h = Some p /\ h_find (w_heap w) p = Some o /\ pt_get (w_table w) h = Ok p).
  Proof.
    intros Hi Hh. pose proof (i_live _ _ _ Hi h) as HL. unfold view in HL. unfold pt_get.
    destruct (Z.eqb_spec h 0) as [E|_]; [contradiction|].
    destruct (pt_find (w_table w) h) as [p|] eqn:E.
    - right. destruct (i_kinds _ _ _ Hi _ _ E) as [_ [o [Ho _]]]. exists p, o. rewrite HL. repeat split; assumption.
    - left. repeat split; assumption.
  Qed.
  Lemma get_est_cases w L h : INV w L -> h <> 0 ->
    (live L h = None /\ get_est h w = Some (w, Throw InvalidArgument)) \/
    (exists p e, live L h = Some (OEst e) /\ pt_find (w_table w) h = Some p /\ h_find (w_heap w) p = Some (OEst e) /\
                 get_est h w = Some (w, Ok (p, e))) \/
    (exists o, live L h = Some o /\ (match o with OEst _ => False | _ => True end) /\ get_est h w = Some (w, UB)).
  Proof.
    intros Hi Hh. unfold get_est, thn, t_get, read_obj.
    destruct (lookup w L h Hi Hh) as [[H1 [H2 H3]]|[p [o [H1 [H2 [H3 H4]]]]]]; [left|right].
    - rewrite H3. split; [exact H1|reflexivity].
    - rewrite H4, H3. destruct o as [e|t|s|b|s|l].
      + left. exists p, e. repeat split; assumption.
      + right. eexists. split; [exact H1|]. split; [exact Logic.I|reflexivity].
      + right. eexists. split; [exact H1|]. split; [exact Logic.I|reflexivity].
      + right. eexists. split; [exact H1|]. split; [exact Logic.I|reflexivity].
      + right. eexists. split; [exact H1|]. split; [exact Logic.I|reflexivity].
      + right. eexists. split; [exact H1|]. split; [exact Logic.I|reflexivity].
  Qed.
  Lemma get_trans_cases w L h : INV w L -> h <> 0 ->
    (live L h = None /\ get_trans h w = Some (w, Throw InvalidArgument)) \/
    (exists p e, live L h = Some (OTrans e) /\ pt_find (w_table w) h = Some p /\ h_find (w_heap w) p = Some (OTrans e) /\
                 get_trans h w = Some (w, Ok (p, e))) \/
    (exists o, live L h = Some o /\ (match o with OTrans _ => False | _ => True end) /\ get_trans h w = Some (w, UB)).
  Proof.
    intros Hi Hh. unfold get_trans, thn, t_get, read_obj.
    destruct (lookup w L h Hi Hh) as [[H1 [H2 H3]]|[p [o [H1 [H2 [H3 H4]]]]]]; [left|right].
    - rewrite H3. split; [exact H1|reflexivity].
    - rewrite H4, H3. destruct o as [e|t|s|b|s|l].
      + right. eexists. split; [exact H1|]. split; [exact Logic.I|reflexivity].
      + left. exists p, t. repeat split; assumption.
      + right. eexists. split; [exact H1|]. split; [exact Logic.I|reflexivity].
      + right. eexists. split; [exact H1|]. split; [exact Logic.I|reflexivity].
      + right. eexists. split; [exact H1|]. split; [exact Logic.I|reflexivity].
      + right. eexists. split; [exact H1|]. split; [exact Logic.I|reflexivity].
  Qed.

  (** Bodies that use an estimator: refused, or undefined, or go on with it. *)
  Lemma thn_inv {A B} (m : act A) (f : A -> act B) w w1 (r : res B) : thn m f w = Some (w1, r) ->
    exists w0 r0, m w = Some (w0, r0) /\
      match r0 with Ok a => f a w0 = Some (w1, r) | Throw e => w1 = w0 /\ r = Throw e | UB => w1 = w0 /\ r = UB end.
  Proof.
    unfold thn. destruct (m w) as [[w0 r0]|]; [|discriminate]. intros H. exists w0, r0. split; [reflexivity|].
    destruct r0 as [a|e|]; [exact H| |]; injection H as <- <-; split; reflexivity.
  Qed.
  Lemma refused {A} (conv : A -> answer) w L e : INV w L -> body_ok L L (Refuse e) conv w (Throw e).
  Proof. intros Hi. split; [reflexivity|]. split; [exact Hi|exact (dom_id L)]. Qed.

  Lemma use_est {A} (conv : A -> answer) w L h (k : Z * est S -> act A) (kk : est S -> ledger * outcome) :
    INV w L -> h <> 0 ->
    (forall p e w1 r, live L h = Some (OEst e) -> pt_find (w_table w) h = Some p -> h_find (w_heap w) p = Some (OEst e) ->
       k (p, e) w = Some (w1, r) -> body_ok L (fst (kk e)) (snd (kk e)) conv w1 r) ->
    forall w1 r, thn (get_est h) k w = Some (w1, r) ->
      body_ok L (fst (with_estimator L h true kk)) (snd (with_estimator L h true kk)) conv w1 r.
  Proof.
    intros Hi Hh Hk w1 r E. apply thn_inv in E as [w0 [r0 [E1 E2]]].
    unfold with_estimator. destruct (Z.eqb_spec h 0) as [E0|_]; [contradiction|]. cbn [andb negb].
    destruct (get_est_cases w L h Hi Hh) as [[H1 H2]|[[p [e [H1 [H2 [H3 H4]]]]]|[o [H1 [H2 H3]]]]].
    - rewrite E1 in H2. injection H2 as -> ->. destruct E2 as [-> ->]. rewrite H1. exact (refused conv w L _ Hi).
    - rewrite E1 in H4. injection H4 as -> ->. rewrite H1. exact (Hk p e w1 r H1 H2 H3 E2).
    - rewrite E1 in H3. injection H3 as -> ->. destruct E2 as [-> ->]. rewrite H1. destruct o; try contradiction; reflexivity.
  Qed.
  Lemma use_trans {A} (conv : A -> answer) w L h (k : Z * Tr -> act A) (kk : Tr -> ledger * outcome) :
    INV w L -> h <> 0 ->
    (forall p e w1 r, live L h = Some (OTrans e) -> pt_find (w_table w) h = Some p -> h_find (w_heap w) p = Some (OTrans e) ->
       k (p, e) w = Some (w1, r) -> body_ok L (fst (kk e)) (snd (kk e)) conv w1 r) ->
    forall w1 r, thn (get_trans h) k w = Some (w1, r) ->
      body_ok L (fst (with_transformer L h true kk)) (snd (with_transformer L h true kk)) conv w1 r.
  Proof.
    intros Hi Hh Hk w1 r E. apply thn_inv in E as [w0 [r0 [E1 E2]]].
    unfold with_transformer. destruct (Z.eqb_spec h 0) as [E0|_]; [contradiction|]. cbn [andb negb].
    destruct (get_trans_cases w L h Hi Hh) as [[H1 H2]|[[p [e [H1 [H2 [H3 H4]]]]]|[o [H1 [H2 H3]]]]].
    - rewrite E1 in H2. injection H2 as -> ->. destruct E2 as [-> ->]. rewrite H1. exact (refused conv w L _ Hi).
    - rewrite E1 in H4. injection H4 as -> ->. rewrite H1. exact (Hk p e w1 r H1 H2 H3 E2).
    - rewrite E1 in H3. injection H3 as -> ->. destruct E2 as [-> ->]. rewrite H1. destruct o; try contradiction; reflexivity.
  Qed.

  (** The checks of the arguments. *)
  Lemma require_h {A} (conv : A -> answer) w L h (k : unit -> act A) (x : ledger * outcome) :
    INV w L -> (h = 0 -> x = (L, Refuse InvalidArgument)) ->
    (h <> 0 -> forall w1 r, k tt w = Some (w1, r) -> body_ok L (fst x) (snd x) conv w1 r) ->
    forall w1 r, thn (require (negb (h =? 0))) k w = Some (w1, r) -> body_ok L (fst x) (snd x) conv w1 r.
  Proof.
    intros Hi H0 H1 w1 r E. destruct (Z.eqb_spec h 0) as [E0|E0].
    - rewrite (H0 E0). cbn in E. injection E as <- <-. exact (refused conv w L _ Hi).
    - exact (H1 E0 w1 r E).
  Qed.
  Lemma require_out {A} (conv : A -> answer) w L out (k : unit -> act A) (x : ledger * outcome) :
    INV w L -> (out = false -> x = (L, Refuse InvalidArgument)) ->
    (out = true -> forall w1 r, k tt w = Some (w1, r) -> body_ok L (fst x) (snd x) conv w1 r) ->
    forall w1 r, thn (require out) k w = Some (w1, r) -> body_ok L (fst x) (snd x) conv w1 r.
  Proof.
    intros Hi H0 H1 w1 r E. destruct out.
    - exact (H1 eq_refl w1 r E).
    - rewrite (H0 eq_refl). cbn in E. injection E as <- <-. exact (refused conv w L _ Hi).
  Qed.

  Lemma with_est_null L h ok kk : h = 0 -> with_estimator L h ok kk = (L, @Refuse S Tr Val InvalidArgument).
  Proof. intros ->. unfold with_estimator. cbn. destruct ok; reflexivity. Qed.
  Lemma with_est_out L h kk : with_estimator L h false kk = (L, @Refuse S Tr Val InvalidArgument).
  Proof. reflexivity. Qed.
  Lemma with_trans_null L h ok kk : h = 0 -> with_transformer L h ok kk = (L, @Refuse S Tr Val InvalidArgument).
  Proof. intros ->. unfold with_transformer. cbn. destruct ok; reflexivity. Qed.
  Lemma with_trans_out L h kk : with_transformer L h false kk = (L, @Refuse S Tr Val InvalidArgument).
  Proof. reflexivity. Qed.
  Lemma with_value_null {A} L h ok (v : res A) kk : h = 0 -> with_value L ok h v kk = (L, @Refuse S Tr Val InvalidArgument).
  Proof. intros ->. unfold with_value. cbn. destruct ok; reflexivity. Qed.
  Lemma with_value_out {A} L h (v : res A) kk : with_value L false h v kk = (L, @Refuse S Tr Val InvalidArgument).
  Proof. reflexivity. Qed.
  Lemma use_value {A B} (conv : A -> answer) w L h (v : res B) (k : B -> act A) (kk : B -> ledger * outcome) :
    INV w L -> h <> 0 ->
    (forall a w1 r, v = Ok a -> k a w = Some (w1, r) -> body_ok L (fst (kk a)) (snd (kk a)) conv w1 r) ->
    forall w1 r, thn (lift v) k w = Some (w1, r) -> body_ok L (fst (with_value L true h v kk)) (snd (with_value L true h v kk)) conv w1 r.
  Proof.
    intros Hi Hh Hk w1 r E. unfold with_value. destruct (Z.eqb_spec h 0) as [E0|_]; [contradiction|]. cbn [andb negb].
    unfold thn, lift in E. destruct v as [a|e|].
    - exact (Hk a w1 r eq_refl E).
    - injection E as <- <-. exact (refused conv w L _ Hi).
    - injection E as <- <-. reflexivity.
  Qed.

  (** A method of the object is called and its outcome becomes the answer. *)
  Lemma method_says {A B} (conv : B -> answer) w L h p x (o : obj) (r0 : res A) (f : A -> B) (sp : A -> outcome) :
    INV w L -> pt_find (w_table w) h = Some p -> h_find (w_heap w) p = Some x -> is_block o = false ->
    (forall a, sp a = Says (conv (f a))) ->
    forall w1 r, thn (write_obj p o) (fun _ => thn (lift r0) (fun a => done (f a))) w = Some (w1, r) ->
      body_ok L (behind L h (Some o)) (outcome_of r0 sp) conv w1 r.
  Proof.
    intros Hi Hp Hx Hb Hs w1 r E. pose proof (write_handle _ w L h p x o Hi Hp Hx Hb) as W.
    unfold thn, write_obj, lift, done in E. rewrite Hx in E. destruct r0 as [a|e|]; injection E as <- <-; cbn [outcome_of].
    - rewrite Hs. split; [reflexivity|exact W].
    - split; [reflexivity|]. split; [exact W|exact (dom_behind L h o)].
    - reflexivity.
  Qed.
  Lemma method_unit {A} (conv : A -> answer) w L h p x (o : obj) (r0 : res A) (sp : A -> outcome) :
    INV w L -> pt_find (w_table w) h = Some p -> h_find (w_heap w) p = Some x -> is_block o = false ->
    (forall a, sp a = Says (conv a)) ->
    forall w1 r, thn (write_obj p o) (fun _ => lift r0) w = Some (w1, r) ->
      body_ok L (behind L h (Some o)) (outcome_of r0 sp) conv w1 r.
  Proof.
    intros Hi Hp Hx Hb Hs w1 r E. pose proof (write_handle _ w L h p x o Hi Hp Hx Hb) as W.
    unfold thn, write_obj, lift in E. rewrite Hx in E. destruct r0 as [a|e|]; injection E as <- <-; cbn [outcome_of].
    - rewrite Hs. split; [reflexivity|exact W].
    - split; [reflexivity|]. split; [exact W|exact (dom_behind L h o)].
    - reflexivity.
  Qed.

  (** A new handle, possibly after the subject has changed. *)
  Lemma new_handle_ok w L L' (o : obj) w1 r : INV w L' -> is_block o = false -> (forall h, live L' h = None -> live L h = None) ->
    thn (new_obj allocate o) (fun p => t_add draws p) w = Some (w1, r) ->
    body_ok L L' (NewHandle o) (fun h => AHandle h) w1 r.
  Proof using Halloc Hdraws.
    intros Hi Hb Hd E. destruct (add_handle allocate draws Halloc Hdraws never_lost w L' o w1 r Hi Hb E) as [h [-> [[F1 F2] Hi2]]].
    split; [exists h; split; [reflexivity|split; [exact F1|exact (Hd h F2)]]|exact Hi2].
  Qed.
  Lemma strings_ok w L L' l w1 r : INV w L' -> (forall a, given L' a = given L a) ->
    output_strings allocate l w = Some (w1, r) -> body_ok L L' (strings l) (@block Val) w1 r.
  Proof using Halloc.
    intros Hi Hg E. unfold output_strings in E. destruct l as [|s l'].
    - injection E as <- <-. split; [reflexivity|exact Hi].
    - apply thn_inv in E as [w0 [r0 [E1 E2]]].
      destruct (add_block allocate Halloc never_lost w L' (OStrings (map output_item (s :: l'))) w0 r0 Hi eq_refl E1) as [a [-> [[F1 F2] Hi2]]].
      injection E2 as <- <-. split.
      + exists a. split; [reflexivity|]. split; [exact F1|rewrite <- Hg; exact F2].
      + exact Hi2.
  Qed.
  Lemma thn_assoc {A B C} (m : act A) (f : A -> act B) (g : B -> act C) (w : world) :
    thn (thn m f) g w = thn m (fun a => thn (f a) g) w.
  Proof. unfold thn. destruct (m w) as [[w0 [a|e|]]|]; reflexivity. Qed.

  (** One step. *)
  Definition stepped (errors : bool) (c : @call Arg) (w : world) (L : ledger) : Prop :=
    forall w' x, STEP errors c w = Some (w', x) -> good L (fst (DOES errors L c)) (snd (DOES errors L c)) w' x.

  Lemma step_create_estimator out w L : INV w L -> stepped true (CreateEstimator out) w L.
  Proof using Halloc Hdraws.
    intros Hi w' x E. cbn [step] in E. cbn [does orb effect fst snd]. revert E. apply api_ok. intros w1 r E.
    unfold c_create_estimator in E. destruct construct as [s|e|] eqn:Ec; unfold lift at 1 in E; unfold thn at 1 in E; cbn [outcome_of].
    - destruct (begin_training I (est_new s)) as [e r0] eqn:Eb. unfold thn at 1 in E.
      destruct (new_obj allocate (OEst (est_new s)) w) as [[w0 [p|y|]]|] eqn:En; try discriminate.
      unfold thn at 1, write_obj in E. unfold new_obj in En. injection En as <- <-.
      cbn [w_heap w_table w_time h_store h_find] in E. rewrite Z.eqb_refl in E. cbn [w_heap w_table w_time h_store h_find] in E.
      set (a := allocate (w_time w) (map fst (w_heap w))) in *.
      assert (En' : new_obj allocate (OEst e) w = Some (mkWorld (w_table w) ((a, OEst e) :: w_heap w) (Datatypes.S (w_time w)), Ok a)) by reflexivity.
      destruct r0 as [u|y|]; unfold lift, thn in E; cbn [outcome_of].
      + destruct (t_add draws a _) as [[w2 r2]|] eqn:Et; [|discriminate].
        assert (Q : thn (new_obj allocate (OEst e)) (fun p => t_add draws p) w = Some (w2, r2)) by (unfold thn; rewrite En'; exact Et).
        pose proof (new_handle_ok w L L (OEst e) w2 r2 Hi eq_refl (dom_id L) Q) as G.
        destruct (add_handle allocate draws Halloc Hdraws never_lost w L (OEst e) w2 r2 Hi eq_refl Q) as [h [-> _]].
        destruct out; injection E as <- <-; [exact G|reflexivity].
      + injection E as <- <-. split; [reflexivity|]. split; [|exact (dom_id L)].
        refine (add_lost allocate Halloc never_lost w L (OEst e) _ _ _ Hi eq_refl En').
        intros N. apply (N s y Ec). rewrite Eb. reflexivity.
      + injection E as <- <-. reflexivity.
    - injection E as <- <-. exact (refused _ w L _ Hi).
    - injection E as <- <-. reflexivity.
  Qed.
  Lemma step_create_default out w L : INV w L -> stepped true (CreateEstimatorDefault out) w L.
  Proof using Halloc Hdraws.
    intros Hi w' x E. cbn [step] in E. cbn [does orb effect fst snd]. revert E. apply api_ok. intros w1 r E.
    unfold c_create_estimator_default in E. destruct construct as [s|e|] eqn:Ec; unfold lift at 1 in E; unfold thn at 1 in E; cbn [outcome_of].
    - rewrite <- thn_assoc in E. apply thn_inv in E as [w2 [r2 [E1 E2]]].
      pose proof (new_handle_ok w L L (OEst (est_new s)) w2 r2 Hi eq_refl (dom_id L) E1) as G.
      destruct (add_handle allocate draws Halloc Hdraws never_lost w L (OEst (est_new s)) w2 r2 Hi eq_refl E1) as [h [-> _]].
      destruct out; injection E2 as <- <-; [exact G|reflexivity].
    - injection E as <- <-. exact (refused _ w L _ Hi).
    - injection E as <- <-. reflexivity.
  Qed.

  (** Destruction of an object behind a handle, given that [is_it] recognises its kind. *)
  Lemma destroy_body (is_it : obj -> bool) h w L w1 r : INV w L -> h <> 0 ->
    thn (t_get h) (fun p => thn (t_remove h) (fun _ => thn (read_obj p) (fun o => if is_it o then delete_obj p else undefined))) w = Some (w1, r) ->
    (live L h = None /\ w1 = w /\ r = Throw InvalidArgument) \/
    (exists o, live L h = Some o /\ is_it o = true /\ r = Ok tt /\ INV w1 (behind L h None)) \/
    (exists o, live L h = Some o /\ is_it o = false /\ r = UB).
  Proof.
    intros Hi Hh E. unfold thn, t_get, t_remove, read_obj, delete_obj, undefined in E.
    destruct (lookup w L h Hi Hh) as [[H1 [H2 H3]]|[p [o [H1 [H2 [H3 H4]]]]]].
    - rewrite H3 in E. injection E as <- <-. left. repeat split; assumption.
    - right. rewrite H4 in E. unfold pt_remove in E. rewrite H2 in E. destruct (Z.eqb_spec h 0) as [E0|_]; [contradiction|].
      cbn [w_heap w_table w_time] in E. rewrite H3 in E. destruct (is_it o) eqn:Ei.
      + left. cbn [w_heap w_table w_time] in E. rewrite H3 in E. injection E as <- <-. exists o. split; [exact H1|]. split; [exact Ei|].
        split; [reflexivity|]. exact (drop_handle _ w L h p o Hi H2 H3).
      + right. injection E as <- <-. exists o. split; [exact H1|]. split; [exact Ei|reflexivity].
  Qed.
  Lemma step_destroy_estimator h w L : INV w L -> stepped true (DestroyEstimator h) w L.
  Proof using Halloc Hdraws.
    intros Hi w' x E. cbn [step] in E. cbn [does orb effect]. revert E. apply api_ok. unfold c_destroy_estimator.
    apply (require_h _ w L h _ _ Hi); [intros H0; exact (with_est_null L h true _ H0)|]. intros Hh w1 r E.
    unfold with_estimator. destruct (Z.eqb_spec h 0) as [E0|_]; [contradiction|]. cbn [andb negb].
    assert (E' : thn (t_get h) (fun p => thn (t_remove h) (fun _ => thn (read_obj p)
       (fun o => if (match o with OEst _ => true | _ => false end) then delete_obj p else undefined))) w = Some (w1, r)).
    { rewrite <- E. unfold thn, t_get, read_obj. destruct (pt_get (w_table w) h) as [p|e|]; [|reflexivity|reflexivity].
      destruct (t_remove h w) as [[w0 [u|e|]]|]; try reflexivity. destruct (h_find (w_heap w0) p) as [[]|]; reflexivity. }
    destruct (destroy_body _ h w L w1 r Hi Hh E') as [[H1 [-> ->]]|[[o [H1 [H2 [-> H3]]]]|[o [H1 [H2 ->]]]]]; rewrite H1.
    - exact (refused _ w L _ Hi).
    - destruct o; try discriminate. split; [reflexivity|exact H3].
    - destruct o; try discriminate; reflexivity.
  Qed.
  Lemma step_destroy_transformer h w L : INV w L -> stepped true (DestroyTransformer h) w L.
  Proof using Halloc Hdraws.
    intros Hi w' x E. cbn [step] in E. cbn [does orb effect]. revert E. apply api_ok. unfold c_destroy_transformer.
    apply (require_h _ w L h _ _ Hi); [intros H0; exact (with_trans_null L h true _ H0)|]. intros Hh w1 r E.
    unfold with_transformer. destruct (Z.eqb_spec h 0) as [E0|_]; [contradiction|]. cbn [andb negb].
    assert (E' : thn (t_get h) (fun p => thn (t_remove h) (fun _ => thn (read_obj p)
       (fun o => if (match o with OTrans _ => true | _ => false end) then delete_obj p else undefined))) w = Some (w1, r)).
    { rewrite <- E. unfold thn, t_get, read_obj. destruct (pt_get (w_table w) h) as [p|e|]; [|reflexivity|reflexivity].
      destruct (t_remove h w) as [[w0 [u|e|]]|]; try reflexivity. destruct (h_find (w_heap w0) p) as [[]|]; reflexivity. }
    destruct (destroy_body _ h w L w1 r Hi Hh E') as [[H1 [-> ->]]|[[o [H1 [H2 [-> H3]]]]|[o [H1 [H2 ->]]]]]; rewrite H1.
    - exact (refused _ w L _ Hi).
    - destruct o; try discriminate. split; [reflexivity|exact H3].
    - destruct o; try discriminate; reflexivity.
  Qed.
  Lemma step_get_state h out w L : INV w L -> stepped true (GetState h out) w L.
  Proof using Halloc Hdraws.
    intros Hi w' x E. cbn [step] in E. cbn [does orb effect]. revert E. apply api_ok. unfold c_get_state.
    apply (require_h _ w L h _ _ Hi); [intros H0; exact (with_est_null L h _ _ H0)|]. intros Hh.
    apply (require_out _ w L out _ _ Hi); [intros ->; reflexivity|]. intros ->.
    apply (use_est _ w L h _ _ Hi Hh). intros p e w1 r H1 H2 H3 E. injection E as <- <-. split; [reflexivity|exact Hi].
  Qed.
  Lemma step_is_complete h out w L : INV w L -> stepped true (IsTrainingComplete h out) w L.
  Proof using Halloc Hdraws.
    intros Hi w' x E. cbn [step] in E. cbn [does orb effect]. revert E. apply api_ok. unfold c_is_training_complete.
    apply (require_h _ w L h _ _ Hi); [intros H0; exact (with_est_null L h _ _ H0)|]. intros Hh.
    apply (require_out _ w L out _ _ Hi); [intros ->; reflexivity|]. intros ->.
    apply (use_est _ w L h _ _ Hi Hh). intros p e w1 r H1 H2 H3 E. injection E as <- <-. split; [reflexivity|exact Hi].
  Qed.
  Lemma step_fit h a out w L : INV w L -> stepped true (Fit h a out) w L.
  Proof using Halloc Hdraws.
    intros Hi w' x E. cbn [step] in E. cbn [does orb effect]. revert E. apply api_ok. unfold c_fit.
    apply (require_h _ w L h _ _ Hi); [intros H0; exact (with_value_null L h _ _ _ H0)|]. intros Hh.
    apply (require_out _ w L out _ _ Hi); [intros ->; reflexivity|]. intros ->.
    apply (use_value _ w L h _ _ _ Hi Hh). intros v w1 r Hv. revert w1 r.
    apply (use_est _ w L h _ _ Hi Hh). intros p e w1 r H1 H2 H3 E.
    destruct (fit I e (Some [v])) as [e' r0]. cbn [fst snd].
    revert E. apply (method_says _ w L h p _ (OEst e') r0 fit_code _ Hi H2 H3 eq_refl). reflexivity.
  Qed.
  Lemma step_fit_buffer h xs out w L : INV w L -> stepped true (FitBuffer h xs out) w L.
  Proof using Halloc Hdraws.
    intros Hi w' x E. cbn [step] in E. cbn [does orb effect]. revert E. apply api_ok. unfold c_fit_buffer.
    apply (require_h _ w L h _ _ Hi).
    { intros H0. destruct xs as [[|y l]|]; [reflexivity| |reflexivity]. exact (with_value_null L h _ _ _ H0). }
    intros Hh. apply (require_out _ w L out _ _ Hi); [intros ->; destruct xs as [[|y l]|]; reflexivity|]. intros ->.
    destruct xs as [[|y l]|].
    - intros w1 r E. injection E as <- <-. exact (refused _ w L _ Hi).
    - apply (use_value _ w L h _ _ _ Hi Hh). intros v w1 r Hv. revert w1 r.
      apply (use_est _ w L h _ _ Hi Hh). intros p e w1 r H1 H2 H3 E.
      destruct (fit I e (Some v)) as [e' r0]. cbn [fst snd].
      revert E. apply (method_says _ w L h p _ (OEst e') r0 fit_code _ Hi H2 H3 eq_refl). reflexivity.
    - intros w1 r E. injection E as <- <-. exact (refused _ w L _ Hi).
  Qed.
  Lemma step_on_data h w L : INV w L -> stepped true (OnDataCompleted h) w L.
  Proof using Halloc Hdraws.
    intros Hi w' x E. cbn [step] in E. cbn [does orb effect]. revert E. apply api_ok. unfold c_est_call.
    apply (require_h _ w L h _ _ Hi); [intros H0; exact (with_est_null L h _ _ H0)|]. intros Hh.
    apply (use_est _ w L h _ _ Hi Hh). intros p e w1 r H1 H2 H3 E.
    destruct (on_data_completed I e) as [e' r0]. cbn [fst snd].
    revert E. apply (method_unit _ w L h p _ (OEst e') r0 _ Hi H2 H3 eq_refl). reflexivity.
  Qed.
  Lemma step_complete h w L : INV w L -> stepped true (CompleteTraining h) w L.
  Proof using Halloc Hdraws.
    intros Hi w' x E. cbn [step] in E. cbn [does orb effect]. revert E. apply api_ok. unfold c_est_call.
    apply (require_h _ w L h _ _ Hi); [intros H0; exact (with_est_null L h _ _ H0)|]. intros Hh.
    apply (use_est _ w L h _ _ Hi Hh). intros p e w1 r H1 H2 H3 E.
    destruct (complete_training I e) as [e' r0]. cbn [fst snd].
    revert E. apply (method_unit _ w L h p _ (OEst e') r0 _ Hi H2 H3 eq_refl). reflexivity.
  Qed.
  Lemma step_create_transformer h out w L : INV w L -> stepped true (CreateTransformer h out) w L.
  Proof using Halloc Hdraws.
    intros Hi w' x E. cbn [step] in E. cbn [does orb effect]. revert E. apply api_ok. unfold c_create_transformer.
    apply (require_h _ w L h _ _ Hi); [intros H0; exact (with_est_null L h _ _ H0)|]. intros Hh.
    apply (require_out _ w L out _ _ Hi); [intros ->; reflexivity|]. intros ->.
    apply (use_est _ w L h _ _ Hi Hh). intros p e w1 r H1 H2 H3 E.
    destruct (create_transformer I e) as [e' r0]. cbn [fst snd].
    pose proof (write_handle _ w L h p _ (OEst e') Hi H2 H3 eq_refl) as W.
    unfold thn at 1, write_obj in E. rewrite H3 in E. unfold thn at 1, lift in E.
    destruct r0 as [t|y|]; cbn [outcome_of].
    - revert E. apply new_handle_ok; [exact W|reflexivity|exact (dom_behind L h _)].
    - injection E as <- <-. split; [reflexivity|]. split; [exact W|exact (dom_behind L h _)].
    - injection E as <- <-. reflexivity.
  Qed.
  Lemma step_load b out w L : INV w L -> stepped true (LoadTransformer b out) w L.
  Proof using Halloc Hdraws.
    intros Hi w' x E. cbn [step] in E. cbn [does orb effect]. revert E. apply api_ok. unfold c_load.
    destruct b as [[|y l]|].
    - intros w1 r E. injection E as <- <-. exact (refused _ w L _ Hi).
    - intros w1 r E. destruct out; cbn [fst snd].
      + unfold thn at 1, require, done in E. unfold thn at 1, lift in E. destruct (load_tr (y :: l)) as [t|z|]; cbn [outcome_of].
        * revert E. apply new_handle_ok; [exact Hi|reflexivity|exact (dom_id L)].
        * injection E as <- <-. exact (refused _ w L _ Hi).
        * injection E as <- <-. reflexivity.
      + cbn in E. injection E as <- <-. exact (refused _ w L _ Hi).
    - intros w1 r E. injection E as <- <-. exact (refused _ w L _ Hi).
  Qed.
  Lemma step_save h out w L : INV w L -> stepped true (SaveTransformer h out) w L.
  Proof using Halloc Hdraws.
    intros Hi w' x E. cbn [step] in E. cbn [does orb effect]. revert E. apply api_ok. unfold c_save.
    apply (require_h _ w L h _ _ Hi); [intros H0; exact (with_trans_null L h _ _ H0)|]. intros Hh.
    apply (require_out _ w L out _ _ Hi); [intros ->; reflexivity|]. intros ->.
    apply (use_trans _ w L h _ _ Hi Hh). intros p t w1 r H1 H2 H3 E. cbn [fst snd].
    unfold thn at 1, lift in E. destruct (save_tr t) as [b|y|]; cbn [outcome_of].
    - apply thn_inv in E as [w0 [r0 [E1 E2]]].
      destruct (add_block allocate Halloc never_lost w L (OBytes b) w0 r0 Hi eq_refl E1) as [a [-> [F Hi2]]].
      injection E2 as <- <-. split; [exists a; split; [reflexivity|exact F]|exact Hi2].
    - injection E as <- <-. exact (refused _ w L _ Hi).
    - injection E as <- <-. reflexivity.
  Qed.
  Lemma block_body (is_it : obj -> bool) a w L w1 r : INV w L -> (forall o, is_it o = true -> is_block o = true) ->
    thn (read_obj a) (fun o => if is_it o then delete_obj a else undefined) w = Some (w1, r) ->
    body_ok L (fst (@the_block S Tr Val L a is_it)) (snd (@the_block S Tr Val L a is_it)) (fun _ : unit => ADone) w1 r.
  Proof.
    intros Hi Hk E. unfold the_block. rewrite (i_given _ _ _ Hi a). unfold owned.
    unfold thn, read_obj in E. destruct (h_find (w_heap w) a) as [o|] eqn:Ef.
    - destruct (is_it o) eqn:Ei.
      + rewrite (Hk o Ei), Ei. unfold delete_obj in E. rewrite Ef in E. injection E as <- <-. split; [reflexivity|].
        exact (drop_block _ w L a o Hi Ef (Hk o Ei)).
      + injection E as <- <-. destruct (is_block o); [rewrite Ei|]; reflexivity.
    - injection E as <- <-. reflexivity.
  Qed.
  Lemma step_destroy_save a n w L : INV w L -> stepped true (DestroySaveData a n) w L.
  Proof using Halloc Hdraws.
    intros Hi w' x E. cbn [step] in E. cbn [does orb effect]. revert E. apply api_ok. unfold c_destroy_save_data.
    apply (require_h _ w L a _ _ Hi); [intros ->; reflexivity|]. intros Ha.
    destruct (Z.eqb_spec a 0) as [E0|_]; [contradiction|]. cbn [orb].
    apply (require_h _ w L n _ _ Hi); [intros ->; reflexivity|]. intros Hn.
    destruct (Z.eqb_spec n 0) as [E0|_]; [contradiction|]. intros w1 r E.
    apply (block_body _ a w L w1 r); [exact Hi|intros []; (discriminate || reflexivity)|].
    rewrite <- E. unfold thn, read_obj. destruct (h_find (w_heap w) a) as [[]|]; reflexivity.
  Qed.
  Lemma step_destroy_transformed a n w L : INV w L -> stepped true (DestroyTransformed a n) w L.
  Proof using Halloc Hdraws.
    intros Hi w' x E. cbn [step] in E. cbn [does orb effect]. revert E. apply api_ok. unfold c_destroy_transformed.
    intros w1 r E. destruct (Z.eqb_spec a 0) as [Ea|Ea]; destruct (Z.eqb_spec n 0) as [En|En]; cbn [andb orb negb] in *.
    - injection E as <- <-. split; [reflexivity|exact Hi].
    - injection E as <- <-. exact (refused _ w L _ Hi).
    - injection E as <- <-. exact (refused _ w L _ Hi).
    - apply (block_body _ a w L w1 r); [exact Hi|intros []; (discriminate || reflexivity)|].
      rewrite <- E. unfold thn, read_obj. cbn [require]. unfold done. destruct (h_find (w_heap w) a) as [[]|]; reflexivity.
  Qed.
  Lemma step_transform h a out w L : INV w L -> stepped true (Transform h a out) w L.
  Proof using Halloc Hdraws.
    intros Hi w' x E. cbn [step] in E. cbn [does orb effect]. revert E. apply api_ok. unfold c_transform.
    apply (require_h _ w L h _ _ Hi); [intros H0; exact (with_value_null L h _ _ _ H0)|]. intros Hh.
    apply (require_out _ w L out _ _ Hi); [intros ->; reflexivity|]. intros ->.
    apply (use_value _ w L h _ _ _ Hi Hh). intros v w1 r Hv. revert w1 r.
    apply (use_trans _ w L h _ _ Hi Hh). intros p t w1 r H1 H2 H3 E.
    destruct (exec_one t v) as [t' r0]. cbn [fst snd].
    revert E. apply (method_unit _ w L h p _ (OTrans t') r0 _ Hi H2 H3 eq_refl). reflexivity.
  Qed.
  Lemma many_ok h p t t' (r0 : res (list (list Z))) w L w1 r : INV w L -> pt_find (w_table w) h = Some p -> h_find (w_heap w) p = Some (OTrans t) ->
    thn (write_obj p (OTrans t')) (fun _ => thn (lift r0) (fun l => output_strings allocate l)) w = Some (w1, r) ->
    body_ok L (behind L h (Some (OTrans t'))) (outcome_of r0 strings) (@block Val) w1 r.
  Proof using Halloc.
    intros Hi H2 H3 E. pose proof (write_handle _ w L h p _ (OTrans t') Hi H2 H3 eq_refl) as W.
    unfold thn, write_obj, lift in E. rewrite H3 in E. destruct r0 as [l|y|]; cbn [outcome_of].
    - revert E. apply strings_ok; [exact W|intros a; reflexivity].
    - injection E as <- <-. split; [reflexivity|]. split; [exact W|exact (dom_behind L h _)].
    - injection E as <- <-. reflexivity.
  Qed.
  Lemma step_transform_many h a out w L : INV w L -> stepped true (TransformMany h a out) w L.
  Proof using Halloc Hdraws.
    intros Hi w' x E. cbn [step] in E. cbn [does orb effect]. revert E. apply api_ok. unfold c_transform_many.
    apply (require_h _ w L h _ _ Hi); [intros H0; exact (with_value_null L h _ _ _ H0)|]. intros Hh.
    apply (require_out _ w L out _ _ Hi); [intros ->; reflexivity|]. intros ->.
    apply (use_value _ w L h _ _ _ Hi Hh). intros v w1 r Hv. revert w1 r.
    apply (use_trans _ w L h _ _ Hi Hh). intros p t w1 r H1 H2 H3 E.
    destruct (exec_many t v) as [t' r0]. exact (many_ok h p t t' r0 w L w1 r Hi H2 H3 E).
  Qed.
  Lemma step_flush h out w L : INV w L -> stepped true (Flush h out) w L.
  Proof using Halloc Hdraws.
    intros Hi w' x E. cbn [step] in E. cbn [does orb effect]. revert E. apply api_ok. unfold c_flush.
    apply (require_h _ w L h _ _ Hi); [intros H0; exact (with_trans_null L h _ _ H0)|]. intros Hh.
    apply (require_out _ w L out _ _ Hi); [intros ->; reflexivity|]. intros ->.
    apply (use_trans _ w L h _ _ Hi Hh). intros p t w1 r H1 H2 H3 E.
    destruct (flush_many t) as [t' r0]. exact (many_ok h p t t' r0 w L w1 r Hi H2 H3 E).
  Qed.
  (** The functions without error handles. *)
  Lemma step_get_error errors h out w L : INV w L -> stepped errors (GetErrorString h out) w L.
  Proof using Halloc.
    intros Hi w' x E. cbn [step] in E. apply cmap_some in E as [y [E ->]].
    assert (D : DOES errors L (GetErrorString h out) = effect I construct value_of save_tr load_tr exec_one exec_many flush_many L (GetErrorString h out)).
    { unfold does. cbn [errorless]. rewrite Bool.orb_true_r. reflexivity. }
    rewrite D. clear D. cbn [effect]. unfold c_get_error_string in E.
    destruct (Z.eqb_spec h 0) as [E0|E0]; destruct out; cbn [orb andb negb] in *; try (injection E as <- <-; split; [reflexivity|exact Hi]).
    unfold bare, thn, t_get, read_obj in E.
    destruct (lookup w L h Hi E0) as [[H1 [H2 H3]]|[p [o [H1 [H2 [H3 H4]]]]]].
    - rewrite H1, H3 in *. injection E as <- <-. split; [reflexivity|exact Logic.I].
    - rewrite H4, H3 in E. rewrite H1. destruct o as [e|t|s|b|s|l];
        try (unfold undefined in E; injection E as <- <-; split; [reflexivity|exact Logic.I]).
      destruct (new_obj allocate (OChars (s ++ [0])) w) as [[w2 r2]|] eqn:En; [|discriminate].
      destruct (add_block allocate Halloc never_lost w L (OChars (s ++ [0])) w2 r2 Hi eq_refl En) as [a [-> [F Hi2]]].
      injection E as <- <-. split; [exists a; split; [reflexivity|exact F]|exact Hi2].
  Qed.
  Lemma step_destroy_error_string errors a w L : INV w L -> stepped errors (DestroyErrorString a) w L.
  Proof.
    intros Hi w' x E. cbn [step] in E. apply cmap_some in E as [y [E ->]].
    assert (D : DOES errors L (DestroyErrorString a) = effect I construct value_of save_tr load_tr exec_one exec_many flush_many L (DestroyErrorString a)).
    { unfold does. cbn [errorless]. rewrite Bool.orb_true_r. reflexivity. }
    rewrite D. clear D. cbn [effect]. unfold c_destroy_error_string, bare in E. destruct (a =? 0).
    - injection E as <- <-. split; [reflexivity|exact Hi].
    - destruct (thn (read_obj a) _ w) as [[w1 r]|] eqn:Eb; [|discriminate].
      assert (B : body_ok L (fst (@the_block S Tr Val L a (fun o => match o with OChars _ => true | _ => false end)))
                            (snd (@the_block S Tr Val L a (fun o => match o with OChars _ => true | _ => false end))) (fun _ : unit => ADone) w1 r).
      { apply (block_body _ a w L w1 r); [exact Hi|intros []; (discriminate || reflexivity)|].
        rewrite <- Eb. unfold thn, read_obj. destruct (h_find (w_heap w) a) as [[]|]; reflexivity. }
      destruct r as [u|e|]; injection E as <- <-; cbn [body_ok] in B.
      + exact B.
      + exfalso. revert Eb. unfold thn, read_obj, delete_obj. clear. destruct (h_find (w_heap w) a) as [[]|] eqn:Q; try discriminate.
        rewrite Q. discriminate.
      + rewrite B. split; [reflexivity|exact Logic.I].
  Qed.
  Lemma step_destroy_error errors h w L : INV w L -> stepped errors (DestroyError h) w L.
  Proof.
    intros Hi w' x E. cbn [step] in E. apply cmap_some in E as [y [E ->]].
    assert (D : DOES errors L (DestroyError h) = effect I construct value_of save_tr load_tr exec_one exec_many flush_many L (DestroyError h)).
    { unfold does. cbn [errorless]. rewrite Bool.orb_true_r. reflexivity. }
    rewrite D. clear D. cbn [effect]. unfold c_destroy_error, bare in E. destruct (Z.eqb_spec h 0) as [E0|E0].
    - injection E as <- <-. split; [reflexivity|exact Hi].
    - destruct (thn (t_get h) _ w) as [[w1 r]|] eqn:Eb; [|discriminate].
      assert (E' : thn (t_get h) (fun p => thn (t_remove h) (fun _ => thn (read_obj p)
         (fun o => if (match o with OText _ => true | _ => false end) then delete_obj p else undefined))) w = Some (w1, r)).
      { rewrite <- Eb. unfold thn, t_get, read_obj. destruct (pt_get (w_table w) h) as [p|e|]; [|reflexivity|reflexivity].
        destruct (t_remove h w) as [[w0 [u|e|]]|]; try reflexivity. destruct (h_find (w_heap w0) p) as [[]|]; reflexivity. }
      destruct (destroy_body _ h w L w1 r Hi E0 E') as [[H1 [-> ->]]|[[o [H1 [H2 [-> H3]]]]|[o [H1 [H2 ->]]]]]; rewrite H1; injection E as <- <-.
      + split; [reflexivity|exact Logic.I].
      + destruct o; try discriminate. split; [reflexivity|exact H3].
      + destruct o; try discriminate; (split; [reflexivity|exact Logic.I]).
  Qed.

  Theorem every_step errors c w L : INV w L -> stepped errors c w L.
  Proof using Halloc Hdraws.
    intros Hi. destruct (errors || errorless c) eqn:Ee.
    - destruct c; try (cbn [errorless] in Ee; rewrite Bool.orb_false_r in Ee; subst errors).
      + exact (step_create_estimator _ w L Hi).
      + exact (step_create_default _ w L Hi).
      + exact (step_destroy_estimator _ w L Hi).
      + exact (step_get_state _ _ w L Hi).
      + exact (step_is_complete _ _ w L Hi).
      + exact (step_fit _ _ _ w L Hi).
      + exact (step_fit_buffer _ _ _ w L Hi).
      + exact (step_on_data _ w L Hi).
      + exact (step_complete _ w L Hi).
      + exact (step_create_transformer _ _ w L Hi).
      + exact (step_load _ _ w L Hi).
      + exact (step_destroy_transformer _ w L Hi).
      + exact (step_save _ _ w L Hi).
      + exact (step_destroy_save _ _ w L Hi).
      + exact (step_transform _ _ _ w L Hi).
      + exact (step_transform_many _ _ _ w L Hi).
      + exact (step_flush _ _ w L Hi).
      + exact (step_destroy_transformed _ _ w L Hi).
      + exact (step_get_error errors _ _ w L Hi).
      + exact (step_destroy_error_string errors _ w L Hi).
      + exact (step_destroy_error errors _ w L Hi).
    - apply Bool.orb_false_iff in Ee as [-> Ee]. intros w' x E.
      unfold does. cbn [orb]. rewrite Ee. cbn [fst snd].
      destruct c; try discriminate Ee; cbn [step] in E; exact (quiet_ok _ _ L w w' x Hi E).
  Qed.
End Steps.
