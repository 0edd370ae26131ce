(** C82: every thread sees the interface as if it were alone. *)
From Verif Require Import Base M_Estimator M_CApi S_CApi M_PtConc M_Conc S_Conc M_Client S_Client.
Open Scope Z_scope.

Section Isolation.
  Context {S In Tr Arg Val : Type}.
  Variable I : impl S In Tr.
  Variable construct : res S.
  Variable value_of : Arg -> res In.
  Variable save_tr : Tr -> res (list Z).
  Variable load_tr : list Z -> res Tr.
  Variable exec_one : Tr -> In -> Tr * res Val.
  Variable exec_many : Tr -> In -> Tr * res (list (list Z)).
  Variable flush_many : Tr -> Tr * res (list (list Z)).
  Variable what : exn -> list Z.
  Notation obj := (@obj S Tr).
  Notation call := (@call Arg).
  Notation answer := (@answer Val).
  Notation ledger := (@ledger S Tr).
  Notation event := (@event Arg Val).
  Notation outcome := (@outcome S Tr Val).
  Notation effect := (@effect S In Tr Arg Val I construct value_of save_tr load_tr exec_one exec_many flush_many).
  Notation does := (@does S In Tr Arg Val I construct value_of save_tr load_tr exec_one exec_many flush_many).
  Notation after := (@after S In Tr Arg Val I construct value_of save_tr load_tr exec_one exec_many flush_many what).
  Notation answered := (@answered S In Tr Arg Val I construct value_of save_tr load_tr exec_one exec_many flush_many what).
  Notation meets := (@meets S In Tr Arg Val I construct value_of save_tr load_tr exec_one exec_many flush_many what).
  Notation holds_after := (@holds_after S In Tr Arg Val I construct value_of save_tr load_tr exec_one exec_many flush_many what).

  (** Handles and blocks alike. *)
  Definition look (L : ledger) (t : thing) : option obj := match t with AHandleOf h => live L h | ABlockAt a => given L a end.
  Definition set (L : ledger) (u : option (thing * option obj)) : ledger :=
    match u with None => L | Some (AHandleOf h, o) => behind L h o | Some (ABlockAt a, o) => owing L a o end.
  Lemma same_thing_spec t u : reflect (t = u) (same_thing t u).
  Proof.
    destruct t as [h|a], u as [k|b]; cbn [same_thing]; try (constructor; discriminate).
    - destruct (Z.eqb_spec h k); constructor; congruence.
    - destruct (Z.eqb_spec a b); constructor; congruence.
  Qed.
  Lemma look_set L t o u : look (set L (Some (t, o))) u = if same_thing u t then o else look L u.
  Proof. destruct t as [h|a], u as [k|b]; cbn; unfold assign; reflexivity. Qed.
  Lemma look_set_same L t o : look (set L (Some (t, o))) t = o.
  Proof. rewrite look_set. destruct (same_thing_spec t t); congruence. Qed.
  Lemma look_set_other L t o u : u <> t -> look (set L (Some (t, o))) u = look L u.
  Proof. intros H. rewrite look_set. destruct (same_thing_spec u t); congruence. Qed.

  (** A call only looks at, and changes, the thing it is about. *)
  Definition changes (er : bool) (c : call) (x : option obj) (u : option (thing * option obj)) (o : outcome) : Prop :=
    match u with
    | None => ends er c = true -> x <> None -> o = Undefined
    | Some (t, y) => about c = Some t /\ x <> None /\ (ends er c = false -> y <> None) /\ (ends er c = true -> y = None /\ exists a, o = Says a)
    end.
  Definition object (L : ledger) (c : call) : option obj := match about c with None => None | Some t => look L t end.

  Definition loc (er : bool) (c : call) (L M : ledger) (f : ledger -> ledger * outcome) : Prop :=
    exists u o, f L = (set L u, o) /\ f M = (set M u, o) /\ changes er c (object L c) u o.
  Lemma loc_same er c L M o : (ends er c = true -> object L c <> None -> o = Undefined) -> loc er c L M (fun L => (L, o)).
  Proof. intros H. exists None, o. split; [reflexivity|]. split; [reflexivity|exact H]. Qed.
  Lemma loc_none er c L M o : object L c = None -> loc er c L M (fun L => (L, o)).
  Proof. intros H. apply loc_same. intros _ N. exfalso. apply N. exact H. Qed.
  Lemma loc_stays er c L M o : ends er c = false -> loc er c L M (fun L => (L, o)).
  Proof. intros H. apply loc_same. intros E. congruence. Qed.
  Lemma loc_undefined er c L M : loc er c L M (fun L => (L, Undefined)).
  Proof. apply loc_same. intros. reflexivity. Qed.
  Lemma loc_put er c L M h y o : about c = Some (AHandleOf h) -> live L h <> None -> ends er c = false -> loc er c L M (fun L => (behind L h (Some y), o)).
  Proof.
    intros A B E. exists (Some (AHandleOf h, Some y)), o. split; [reflexivity|]. split; [reflexivity|]. cbn [changes]. split; [exact A|].
    split; [unfold object; rewrite A; exact B|]. split; [discriminate|congruence].
  Qed.
  Lemma loc_drop er c L M h a : about c = Some (AHandleOf h) -> live L h <> None -> ends er c = true -> loc er c L M (fun L => (behind L h None, Says a)).
  Proof.
    intros A B E. exists (Some (AHandleOf h, None)), (Says a). split; [reflexivity|]. split; [reflexivity|]. cbn [changes]. split; [exact A|].
    split; [unfold object; rewrite A; exact B|]. split; [congruence|]. intros _. split; [reflexivity|eexists; reflexivity].
  Qed.
  Lemma loc_est er c L M h ok (k : ledger -> est S -> ledger * outcome) :
    handle_of c = (if h =? 0 then None else Some h) -> block_of c = None -> object L c = object M c -> ok = true \/ ends er c = false ->
    (forall e, h <> 0 -> live L h = Some (OEst e) -> loc er c L M (fun L => k L e)) ->
    loc er c L M (fun L => with_estimator L h ok (k L)).
  Proof.
    intros Hh Hb Ho Hk K. unfold with_estimator. destruct (Z.eqb_spec h 0) as [->|H0].
    - rewrite Bool.andb_false_r. apply loc_none. unfold object, about. rewrite Hh, Hb. reflexivity.
    - assert (A : about c = Some (AHandleOf h)) by (unfold about; rewrite Hh; reflexivity).
      assert (E : live L h = live M h) by (unfold object in Ho; rewrite A in Ho; exact Ho).
      destruct ok; cbn [andb negb].
      2: { apply loc_stays. destruct Hk as [Hk|Hk]; [discriminate|exact Hk]. }
      unfold loc. rewrite <- E. destruct (live L h) as [[e|t|s|b|s|l]|] eqn:EL.
      1: { apply (K e H0 eq_refl). }
      all: try apply loc_undefined. apply loc_none. unfold object. rewrite A. exact EL.
  Qed.
  Lemma loc_trans er c L M h ok (k : ledger -> Tr -> ledger * outcome) :
    handle_of c = (if h =? 0 then None else Some h) -> block_of c = None -> object L c = object M c -> ok = true \/ ends er c = false ->
    (forall e, h <> 0 -> live L h = Some (OTrans e) -> loc er c L M (fun L => k L e)) ->
    loc er c L M (fun L => with_transformer L h ok (k L)).
  Proof.
    intros Hh Hb Ho Hk K. unfold with_transformer. destruct (Z.eqb_spec h 0) as [->|H0].
    - rewrite Bool.andb_false_r. apply loc_none. unfold object, about. rewrite Hh, Hb. reflexivity.
    - assert (A : about c = Some (AHandleOf h)) by (unfold about; rewrite Hh; reflexivity).
      assert (E : live L h = live M h) by (unfold object in Ho; rewrite A in Ho; exact Ho).
      destruct ok; cbn [andb negb].
      2: { apply loc_stays. destruct Hk as [Hk|Hk]; [discriminate|exact Hk]. }
      unfold loc. rewrite <- E. destruct (live L h) as [[e|t|s|b|s|l]|] eqn:EL.
      2: { apply (K t H0 eq_refl). }
      all: try apply loc_undefined. apply loc_none. unfold object. rewrite A. exact EL.
  Qed.
  Lemma loc_value {A} er c L M h ok (r : res A) (k : ledger -> A -> ledger * outcome) : ends er c = false ->
    (forall a, loc er c L M (fun L => k L a)) -> loc er c L M (fun L => with_value L ok h r (k L)).
  Proof.
    intros E K. unfold with_value. destruct (ok && negb (h =? 0)); [|apply loc_stays; exact E].
    destruct r as [a|e|]; [apply K|apply loc_stays; exact E|apply loc_stays; exact E].
  Qed.
  Lemma loc_block er c L M a is_it : handle_of c = None -> block_of c = Some a -> object L c = object M c -> ends er c = true ->
    loc er c L M (fun L => the_block L a is_it).
  Proof.
    intros Hh Hb Ho E. assert (A : about c = Some (ABlockAt a)) by (unfold about; rewrite Hh, Hb; reflexivity).
    assert (G : given L a = given M a) by (unfold object in Ho; rewrite A in Ho; exact Ho).
    unfold the_block, loc. rewrite <- G. destruct (given L a) as [o|] eqn:EL; [|apply loc_undefined].
    destruct (is_it o); [|apply loc_undefined].
    exists (Some (ABlockAt a, None)), (Says ADone). split; [reflexivity|]. split; [reflexivity|]. cbn [changes]. split; [exact A|].
    split; [unfold object; rewrite A; cbn [look]; rewrite EL; discriminate|]. split; [congruence|]. intros _. split; [reflexivity|eexists; reflexivity].
  Qed.
  Lemma about_handle (c : call) h : h <> 0 -> handle_of c = (if h =? 0 then None else Some h) -> about c = Some (AHandleOf h).
  Proof. intros H0 E. unfold about. rewrite E. destruct (Z.eqb_spec h 0); [contradiction|reflexivity]. Qed.

  Ltac tidy := first [reflexivity | assumption | (left; reflexivity) | (right; reflexivity)].
  Lemma does_local er c : forall L M, object L c = object M c ->
    exists u o, does er L c = (set L u, o) /\ does er M c = (set M u, o) /\ changes er c (object L c) u o.
  Proof.
    intros L M H. unfold S_CApi.does. destruct (er || errorless c) eqn:Q.
    2: { exists None, Quiet. split; [reflexivity|]. split; [reflexivity|]. cbn [changes]. unfold ends. rewrite Q. discriminate. }
    change (loc er c L M (fun L => effect L c)).
    destruct c; cbn [S_CApi.effect]; cbn [errorless] in Q.
    - apply loc_stays. apply Bool.andb_false_r.
    - apply loc_stays. apply Bool.andb_false_r.
    - apply loc_est; try tidy. intros e H0 El. apply loc_drop; [apply about_handle; tidy|congruence|unfold ends; cbn [errorless]; rewrite Q; reflexivity].
    - apply loc_est; try tidy; [right; apply Bool.andb_false_r|]. intros e H0 El. apply loc_stays. apply Bool.andb_false_r.
    - apply loc_est; try tidy; [right; apply Bool.andb_false_r|]. intros e H0 El. apply loc_stays. apply Bool.andb_false_r.
    - apply loc_value; [apply Bool.andb_false_r|]. intros v. apply loc_est; try tidy; [right; apply Bool.andb_false_r|]. intros e H0 El.
      destruct (fit I e (Some [v])) as [e' r]. apply loc_put; [apply about_handle; tidy|congruence|apply Bool.andb_false_r].
    - destruct xs as [[|x l]|]; try (apply loc_stays; apply Bool.andb_false_r).
      apply loc_value; [apply Bool.andb_false_r|]. intros v. apply loc_est; try tidy; [right; apply Bool.andb_false_r|]. intros e H0 El.
      destruct (fit I e (Some v)) as [e' r]. apply loc_put; [apply about_handle; tidy|congruence|apply Bool.andb_false_r].
    - apply loc_est; try tidy. intros e H0 El. destruct (on_data_completed I e) as [e' r].
      apply loc_put; [apply about_handle; tidy|congruence|apply Bool.andb_false_r].
    - apply loc_est; try tidy. intros e H0 El. destruct (complete_training I e) as [e' r].
      apply loc_put; [apply about_handle; tidy|congruence|apply Bool.andb_false_r].
    - apply loc_est; try tidy; [right; apply Bool.andb_false_r|]. intros e H0 El. destruct (create_transformer I e) as [e' r].
      apply loc_put; [apply about_handle; tidy|congruence|apply Bool.andb_false_r].
    - destruct b as [[|x l]|]; apply loc_stays; apply Bool.andb_false_r.
    - apply loc_trans; try tidy. intros e H0 El. apply loc_drop; [apply about_handle; tidy|congruence|unfold ends; cbn [errorless]; rewrite Q; reflexivity].
    - apply loc_trans; try tidy; [right; apply Bool.andb_false_r|]. intros e H0 El. apply loc_stays. apply Bool.andb_false_r.
    - destruct ((a =? 0) || (n =? 0)) eqn:E0.
      + apply loc_none. unfold object, about. cbn [handle_of block_of]. rewrite E0. reflexivity.
      + apply loc_block; try tidy; [cbn [block_of]; rewrite E0; reflexivity|]. unfold ends. cbn [errorless]. rewrite Q. reflexivity.
    - apply loc_value; [apply Bool.andb_false_r|]. intros v. apply loc_trans; try tidy; [right; apply Bool.andb_false_r|]. intros e H0 El.
      destruct (exec_one e v) as [e' r]. apply loc_put; [apply about_handle; tidy|congruence|apply Bool.andb_false_r].
    - apply loc_value; [apply Bool.andb_false_r|]. intros v. apply loc_trans; try tidy; [right; apply Bool.andb_false_r|]. intros e H0 El.
      destruct (exec_many e v) as [e' r]. apply loc_put; [apply about_handle; tidy|congruence|apply Bool.andb_false_r].
    - apply loc_trans; try tidy; [right; apply Bool.andb_false_r|]. intros e H0 El.
      destruct (flush_many e) as [e' r]. apply loc_put; [apply about_handle; tidy|congruence|apply Bool.andb_false_r].
    - assert (N : (a =? 0) || (n =? 0) = true -> object L (DestroyTransformed a n) = None)
        by (intros E0; unfold object, about; cbn [handle_of block_of]; rewrite E0; reflexivity).
      destruct ((a =? 0) && (n =? 0)) eqn:E1.
      + apply loc_none. apply N. apply andb_prop in E1 as [E1 _]. rewrite E1. reflexivity.
      + destruct ((a =? 0) || (n =? 0)) eqn:E0; [apply loc_none; apply N; reflexivity|].
        apply loc_block; try tidy; [cbn [block_of]; rewrite E0; reflexivity|]. unfold ends. cbn [errorless]. rewrite Q. reflexivity.
    - assert (E : ends er (GetErrorString (Arg := Arg) h out) = false) by apply Bool.andb_false_r.
      destruct (out && negb (h =? 0)) eqn:E0; [|apply loc_stays; exact E].
      assert (H0 : h <> 0) by (intros ->; rewrite Bool.andb_false_r in E0; discriminate).
      assert (A : about (GetErrorString (Arg := Arg) h out) = Some (AHandleOf h)) by (apply about_handle; tidy).
      assert (EL : live L h = live M h) by (unfold object in H; rewrite A in H; exact H).
      unfold loc. rewrite <- EL. destruct (live L h) as [[e|t|s|b|s|l]|]; apply loc_stays; exact E.
    - destruct (Z.eqb_spec a 0) as [->|H0]; [apply loc_none; reflexivity|].
      apply loc_block; try tidy; [cbn [block_of]; destruct (Z.eqb_spec a 0); [contradiction|reflexivity]|]. unfold ends. cbn [errorless]. rewrite Q. reflexivity.
    - destruct (Z.eqb_spec h 0) as [->|H0]; [apply loc_none; reflexivity|].
      assert (A : about (DestroyError (Arg := Arg) h) = Some (AHandleOf h)) by (apply about_handle; tidy).
      assert (EL : live L h = live M h) by (unfold object in H; rewrite A in H; exact H).
      assert (O : object L (DestroyError (Arg := Arg) h) = live L h) by (unfold object; rewrite A; reflexivity).
      unfold loc. rewrite <- EL. destruct (live L h) as [[e|t|s|b|s|l]|] eqn:E; try apply loc_undefined; [|apply loc_none; rewrite O; reflexivity].
      apply loc_drop; [exact A|congruence|]. unfold ends. cbn [errorless]. rewrite Q. reflexivity.
  Qed.

  (** What an answer gives to the caller is new to everyone. *)
  Definition plain (o : outcome) : Prop := match o with Says a => gives (Val := Val) (CTrue a) = None | _ => True end.
  Lemma does_plain er L c : plain (snd (does er L c)).
  Proof.
    unfold S_CApi.does. destruct (er || errorless c); [|exact Logic.I].
    destruct c; cbn [S_CApi.effect]; unfold with_estimator, with_transformer, with_value, the_block, outcome_of, strings;
      repeat (match goal with |- context [match ?x with _ => _ end] => destruct x end); cbn; try exact Logic.I; reflexivity.
  Qed.
  Lemma holding_gives (o : outcome) x (N : ledger) : plain o -> answers N o x ->
    (gives x = None /\ forall L, holding what L o x = L) \/
    (exists t y, gives x = Some t /\ (forall a, o <> Says a) /\ o <> Undefined /\ (forall M, answers M o x -> look M t = None) /\ forall L, holding what L o x = set L (Some (t, Some y))).
  Proof.
    intros P A. destruct o; cbn [answers plain] in P, A.
    - destruct A as (h & -> & F). right. exists (AHandleOf h), (OText (what e)). split; [reflexivity|]. split; [discriminate|]. split; [discriminate|]. split; [|reflexivity].
      intros M (k & E & G). injection E as <-. apply G.
    - subst x. left. split; [reflexivity|]. intros L. reflexivity.
    - subst x. left. split; [exact P|]. intros L. reflexivity.
    - destruct A as (h & -> & F). right. exists (AHandleOf h), o. split; [reflexivity|]. split; [discriminate|]. split; [discriminate|]. split; [|reflexivity].
      intros M (k & E & G). injection E as <-. apply G.
    - destruct A as (a & -> & F & G). right. exists (ABlockAt a), o. split; [cbn [gives]; destruct (Z.eqb_spec a 0); [contradiction|reflexivity]|].
      split; [discriminate|]. split; [discriminate|]. split; [|reflexivity]. intros M (k & E & H). injection E as <-. apply H.
    - subst x. left. split; [reflexivity|]. intros L. reflexivity.
    - subst x. left. split; [reflexivity|]. intros L. reflexivity.
  Qed.
  (** [answers] depends on the ledger only through the freshness of what is given. *)
  Lemma answers_move (o : outcome) x (N M : ledger) : answers N o x -> (forall t, gives x = Some t -> look M t = None) -> answers M o x.
  Proof.
    intros A F. destruct o; cbn [answers] in A |- *; try exact A.
    - destruct A as (h & -> & G & _). exists h. split; [reflexivity|]. split; [exact G|]. exact (F (AHandleOf h) eq_refl).
    - destruct A as (h & -> & G & _). exists h. split; [reflexivity|]. split; [exact G|]. exact (F (AHandleOf h) eq_refl).
    - destruct A as (a & -> & G & _). exists a. split; [reflexivity|]. split; [exact G|]. apply (F (ABlockAt a)). cbn [gives].
      destruct (Z.eqb_spec a 0); [contradiction|reflexivity].
  Qed.

  Lemma holder_begins past j er c t : holder (past ++ [Begins j er c : event]) t = holder past t.
  Proof. unfold holder. rewrite fold_left_app. reflexivity. Qed.
  Lemma holder_returns past j x t : holder (past ++ [Returns j x : event]) t =
    match gives x with Some u => if same_thing u t then Some j else holder past t | None => holder past t end.
  Proof. unfold holder. rewrite fold_left_app. reflexivity. Qed.
  Lemma holder_is past t (i : nat) : holder (past : list event) t = Some i \/ holder past t <> Some i.
  Proof. destruct (holder past t) as [j|]; [|right; discriminate]. destruct (Nat.eq_dec j i) as [->|N]; [left; reflexivity|right; congruence]. Qed.

  Lemma look_join L M t : look (join L M) t = match look M t with Some o => Some o | None => look L t end.
  Proof. destruct t; reflexivity. Qed.
  Lemma about_is (c : call) : about c = match handle_of c with Some h => Some (AHandleOf h) | None => match block_of c with Some a => Some (ABlockAt a) | None => None end end.
  Proof. reflexivity. Qed.
  Lemma one_thing (c : call) a : block_of c = Some a -> handle_of c = None.
  Proof. destruct c; cbn; intros H; first [reflexivity | discriminate H]. Qed.
  Lemma look_only L (c : call) t : look (only L c) t = match about c with Some u => if same_thing t u then look L t else None | None => None end.
  Proof.
    destruct t as [h|a]; cbn [look only live given]; unfold about.
    - destruct (handle_of c) as [k|]; cbn [is]; [reflexivity|]. destruct (block_of c); reflexivity.
    - destruct (block_of c) as [k|] eqn:E.
      + rewrite (one_thing c k E). reflexivity.
      + cbn [is]. destruct (handle_of c); reflexivity.
  Qed.
  Lemma look_without L (c : call) t : look (without L c) t = match about c with Some u => if same_thing t u then None else look L t | None => look L t end.
  Proof.
    destruct t as [h|a]; cbn [look without live given]; unfold about.
    - destruct (handle_of c) as [k|]; cbn [is]; [reflexivity|]. destruct (block_of c); reflexivity.
    - destruct (block_of c) as [k|] eqn:E.
      + rewrite (one_thing c k E). reflexivity.
      + cbn [is]. destruct (handle_of c); reflexivity.
  Qed.

  (** The private ledgers of all threads, and the book. *)
  Definition mine (past : list event) (b : @book S Tr Arg) (i : nat) (L : ledger) (t : thing) : Prop :=
    (holder past t = Some i -> look L t = look (unused b) t) /\ (holder past t <> Some i -> look L t = None).
  Definition thread_inv (past : list event) (b : @book S Tr Arg) (i : nat) (L : ledger) : Prop :=
    match begun b i with
    | None => forall t, mine past b i L t
    | Some (er, c, M) =>
        object M c = object L c /\
        forall t, if match about c with Some u => same_thing t u | None => false end
                  then (holder past t = Some i -> look (unused b) t = None) /\ (holder past t <> Some i -> ends er c = true \/ look M t = None)
                  else look M t = None /\ mine past b i L t
    end.

  Lemma thing_is (t : thing) (x : option thing) : (match x with Some u => same_thing t u | None => false end) = true <-> x = Some t.
  Proof.
    destruct x as [u|]; [|split; discriminate]. destruct (same_thing_spec t u); split; try congruence. 
  Qed.
  Lemma thing_not (t : thing) (x : option thing) : (match x with Some u => same_thing t u | None => false end) = false <-> x <> Some t.
  Proof. rewrite <- Bool.not_true_iff_false, thing_is. reflexivity. Qed.

  Lemma begins_own past b j er c L : begun b j = None -> thread_inv past b j L -> (forall t, about c = Some t -> holder past t = Some j) ->
    thread_inv (past ++ [Begins j er c]) (after b (Begins j er c)) j L.
  Proof.
    intros B H O. unfold thread_inv in *. rewrite B in H. cbn [S_Conc.after begun unused]. unfold put. rewrite Nat.eqb_refl. split.
    - unfold object. destruct (about c) as [t|] eqn:E; [|reflexivity]. rewrite look_only, E. destruct (same_thing_spec t t); [|contradiction].
      symmetry. apply (proj1 (H t)). apply O. reflexivity.
    - intros t. unfold mine. rewrite holder_begins. cbn [unused]. rewrite look_only, look_without. specialize (H t). unfold mine in H. specialize (O t).
      destruct (about c) as [u|]; [destruct (same_thing_spec t u) as [->|N]|].
      + split; [reflexivity|]. intros X. exfalso. apply X. apply O. reflexivity.
      + split; [reflexivity|exact H].
      + split; [reflexivity|exact H].
  Qed.
  Lemma begins_other past b i j er c L : i <> j -> thread_inv past b i L -> (forall t, about c = Some t -> holder past t = Some j) ->
    thread_inv (past ++ [Begins j er c]) (after b (Begins j er c)) i L.
  Proof.
    intros N H O. unfold thread_inv in *. cbn [S_Conc.after begun unused]. unfold put. destruct (Nat.eqb_spec i j) as [E|_]; [contradiction|].
    assert (W : forall t, look (unused b) t = None -> look (without (unused b) c) t = None).
    { intros t E. rewrite look_without. destruct (about c) as [u|]; [destruct (same_thing t u); [reflexivity|exact E]|exact E]. }
    assert (Y : forall t, mine past b i L t -> mine (past ++ [Begins j er c]) (mkBook (without (unused b) c) (put (begun b) j (Some (er, c, only (unused b) c)))) i L t).
    { intros t [Y1 Y2]. unfold mine. rewrite holder_begins. cbn [unused]. split; [|exact Y2]. intros E. rewrite (Y1 E). rewrite look_without.
      specialize (O t). destruct (about c) as [u|]; [|reflexivity]. destruct (same_thing_spec t u) as [->|_]; [|reflexivity].
      specialize (O eq_refl). congruence. }
    destruct (begun b i) as [[[er' c'] M]|].
    - destruct H as [H1 H2]. split; [exact H1|]. intros t. specialize (H2 t). destruct (match about c' with Some u => same_thing t u | None => false end).
      + rewrite holder_begins. cbn [unused]. split; [intros E; apply W; apply H2; exact E|apply H2].
      + split; [apply H2|apply Y; apply H2].
    - intros t. apply Y. apply H.
  Qed.

  Section Return.
    Variables (past : list event) (b : @book S Tr Arg) (j : nat) (x : cres answer) (er : bool) (c : call) (M L : ledger) (u : option (thing * option obj)) (o : outcome).
    Hypothesis B : begun b j = Some (er, c, M).
    Hypothesis D : does er M c = (set M u, o).
    Hypothesis C : changes er c (object M c) u o.
    Hypothesis A : forall N, in_sight b N -> answers N o x.
    Hypothesis Rx : returned x.
    Hypothesis H : thread_inv past b j L.
    Lemma ret_plain : plain o. Proof using D. generalize (does_plain er M c). rewrite D. exact (fun z => z). Qed.
    Lemma ret_unused : answers (unused b) o x. Proof using A. apply A. left. reflexivity. Qed.
    Lemma ret_defined : o <> Undefined.
    Proof using A Rx. intros E. generalize ret_unused. rewrite E. cbn [answers]. intros ->. exact Rx. Qed.
    Lemma ret_inv : object M c = object L c /\ forall t, if match about c with Some u => same_thing t u | None => false end
                  then (holder past t = Some j -> look (unused b) t = None) /\ (holder past t <> Some j -> ends er c = true \/ look M t = None)
                  else look M t = None /\ mine past b j L t.
    Proof using B H. unfold thread_inv in H. rewrite B in H. exact H. Qed.
    Lemma look_about t : about c = Some t -> look M t = look L t.
    Proof using B H. intros E. destruct ret_inv as [Q _]. unfold object in Q. rewrite E in Q. exact Q. Qed.
    Lemma set_elsewhere N t : about c <> Some t -> look (set N u) t = look N t.
    Proof using All. intros E. destruct u as [[v y]|]; [|reflexivity]. cbn [changes] in C. rewrite look_set_other; [reflexivity|]. intros ->. apply E. apply C. Qed.

    Lemma return_fresh t : gives x = Some t -> look L t = None.
    Proof using All.
      intros G. destruct (holding_gives o x (unused b) ret_plain ret_unused) as [[E _]|(g & y & E & NS & NU & F & _)]; [congruence|].
      rewrite G in E. injection E as <-. destruct ret_inv as [_ Q]. specialize (Q t). destruct (match about c with Some u => same_thing t u | None => false end) eqn:T.
      - apply thing_is in T. destruct (look L t) as [z|] eqn:EL; [|reflexivity]. exfalso.
        assert (EM : look M t = Some z) by (rewrite (look_about t T); exact EL).
        destruct (ends er c) eqn:EN.
        + unfold changes, object in C. rewrite T in C. destruct u as [[v w]|].
          * destruct C as (_ & _ & _ & C4). destruct (C4 EN) as [_ [a Ea]]. exact (NS a Ea).
          * apply NU. apply C; [exact EN|congruence].
        + assert (X : look M t = None); [|congruence]. apply F. apply A. right. exists j, er, c. split; [exact B|exact EN].
      - destruct Q as [_ [Q1 Q2]]. destruct (holder_is past t j) as [E|E]; [rewrite (Q1 E); apply F; exact ret_unused|exact (Q2 E)].
    Qed.
    Lemma return_answers : answers L o x.
    Proof using All. eapply answers_move; [exact ret_unused|exact return_fresh]. Qed.

    (** What comes back of the thing the call was about. *)
    Lemma back t : (holder past t = Some j -> look (set L u) t = match look (set M u) t with Some z => Some z | None => look (unused b) t end) /\
                   (holder past t <> Some j -> look (set L u) t = None).
    Proof using All.
      destruct ret_inv as [_ Q]. specialize (Q t). destruct (match about c with Some u => same_thing t u | None => false end) eqn:T.
      - apply thing_is in T. destruct Q as [Q1 Q2]. unfold changes, object in C. rewrite T in C. destruct u as [[v y]|].
        + destruct C as (C1 & C2 & C3 & C4). injection C1 as <-. rewrite !look_set_same. split.
          * intros E. rewrite (Q1 E). destruct y; reflexivity.
          * intros E. destruct (Q2 E) as [X|X]; [|congruence]. apply (C4 X).
        + cbn [set]. rewrite <- (look_about t T). split.
          * intros E. rewrite (Q1 E). destruct (look M t); reflexivity.
          * intros E. destruct (Q2 E) as [X|X]; [|exact X]. destruct (look M t) as [z|]; [|reflexivity]. exfalso. apply ret_defined. apply C; [exact X|discriminate].
      - apply thing_not in T. rewrite !set_elsewhere by exact T. destruct Q as [Q1 [Q2 Q3]]. rewrite Q1. split; [exact Q2|exact Q3].
    Qed.
    Notation b' := (after b (Returns j x)).
    Lemma after_is : b' = mkBook (join (unused b) (holding what (set M u) o x)) (put (begun b) j None).
    Proof using B D. cbn [S_Conc.after]. rewrite B, D. reflexivity. Qed.
    Lemma return_own : thread_inv (past ++ [Returns j x]) b' j (holding what (set L u) o x).
    Proof using All.
      rewrite after_is. unfold thread_inv. cbn [begun]. unfold put. rewrite Nat.eqb_refl. intros t. unfold mine. rewrite holder_returns. cbn [unused]. rewrite look_join.
      destruct (holding_gives o x (unused b) ret_plain ret_unused) as [[E K]|(g & y & E & _ & _ & _ & K)]; rewrite E, !K.
      - apply back.
      - rewrite !look_set. destruct (same_thing_spec g t) as [->|N].
        + destruct (same_thing_spec t t); [|contradiction]. split; [reflexivity|]. intros X. exfalso. apply X. reflexivity.
        + destruct (same_thing_spec t g) as [->|_]; [contradiction|]. apply back.
    Qed.
    (** What was given to another thread does not come back. *)
    Lemma not_back0 t : holder past t <> Some j -> look (set M u) t = None.
    Proof using All.
      intros E. destruct ret_inv as [_ Q]. specialize (Q t). destruct (match about c with Some u => same_thing t u | None => false end) eqn:T.
      - apply thing_is in T. destruct Q as [_ Q]. assert (Q2 : ends er c = true \/ look M t = None) by (apply Q; exact E). clear Q.
        unfold changes, object in C. rewrite T in C. destruct u as [[v y]|].
        + destruct C as (C1 & C2 & C3 & C4). injection C1 as <-. rewrite look_set_same. destruct Q2 as [X|X]; [apply (C4 X)|congruence].
        + cbn [set]. destruct Q2 as [X|X]; [|exact X]. destruct (look M t) as [z|]; [|reflexivity]. exfalso. apply ret_defined. apply C; [exact X|discriminate].
      - apply thing_not in T. rewrite set_elsewhere by exact T. apply Q.
    Qed.
    Lemma not_back i t : i <> j -> holder past t = Some i -> look (set M u) t = None.
    Proof using All. intros N E. apply not_back0. congruence. Qed.
    Lemma return_orphans : (forall t, holder past t = None -> look (unused b) t = None) -> forall t, holder (past ++ [Returns j x]) t = None -> look (unused b') t = None.
    Proof using All.
      intros F t. rewrite after_is, holder_returns. cbn [unused]. rewrite look_join.
      destruct (holding_gives o x (unused b) ret_plain ret_unused) as [[E Z]|(g & y & E & _ & _ & _ & Z)]; rewrite E, Z.
      - intros E1. rewrite not_back0 by congruence. apply F. exact E1.
      - destruct (same_thing_spec g t) as [->|NT]; [discriminate|]. intros E1. rewrite look_set. destruct (same_thing_spec t g) as [->|_]; [contradiction|].
        rewrite not_back0 by congruence. apply F. exact E1.
    Qed.
    Lemma return_other i K : i <> j -> thread_inv past b i K -> thread_inv (past ++ [Returns j x]) b' i K.
    Proof using All.
      intros N HI. rewrite after_is. unfold thread_inv in *. cbn [begun]. unfold put. destruct (Nat.eqb_spec i j) as [E|_]; [contradiction|].
      assert (U : forall t, holder (past ++ [Returns j x]) t = Some i -> holder past t = Some i /\
                    look (join (unused b) (holding what (set M u) o x)) t = look (unused b) t).
      { intros t. rewrite holder_returns, look_join.
        destruct (holding_gives o x (unused b) ret_plain ret_unused) as [[E Z]|(g & y & E & _ & _ & _ & Z)]; rewrite E, Z.
        - intros E1. split; [exact E1|]. rewrite (not_back i t N E1). reflexivity.
        - destruct (same_thing_spec g t) as [->|NT]; [intros E1; congruence|]. intros E1. split; [exact E1|].
          rewrite look_set. destruct (same_thing_spec t g) as [->|_]; [contradiction|]. rewrite (not_back i t N E1). reflexivity. }
      assert (V : forall t, holder (past ++ [Returns j x]) t <> Some i -> holder past t <> Some i \/ (holder past t = Some i /\ gives x = Some t)).
      { intros t. rewrite holder_returns. destruct (gives x) as [g|]; [|intros E; left; exact E].
        destruct (same_thing_spec g t) as [->|NT]; [|intros E; left; exact E]. intros _. destruct (holder_is past t i) as [E|E]; [right; split; [exact E|reflexivity]|left; exact E]. }
      assert (Y : forall t, mine past b i K t ->
                  mine (past ++ [Returns j x]) (mkBook (join (unused b) (holding what (set M u) o x)) (put (begun b) j None)) i K t).
      { intros t [Y1 Y2]. unfold mine. cbn [unused]. split.
        - intros E. destruct (U t E) as [E1 E2]. rewrite E2. apply Y1. exact E1.
        - intros E. destruct (V t E) as [E1|[E1 E2]]; [apply Y2; exact E1|]. rewrite (Y1 E1).
          destruct (holding_gives o x (unused b) ret_plain ret_unused) as [[E3 _]|(g & y & E3 & _ & _ & F & _)]; [congruence|].
          rewrite E2 in E3. injection E3 as <-. apply F. exact ret_unused. }
      destruct (begun b i) as [[[er' c'] M']|] eqn:BI.
      - destruct HI as [H1 H2]. split; [exact H1|]. intros t. specialize (H2 t). destruct (match about c' with Some u => same_thing t u | None => false end).
        + cbn [unused]. split.
          * intros E. destruct (U t E) as [E1 E2]. rewrite E2. apply H2. exact E1.
          * intros E. destruct (V t E) as [E1|[E1 E2]]; [apply H2; exact E1|].
            destruct (ends er' c') eqn:EN; [left; reflexivity|right].
            destruct (holding_gives o x (unused b) ret_plain ret_unused) as [[E3 _]|(g & y & E3 & _ & _ & F & _)]; [congruence|].
            rewrite E2 in E3. injection E3 as <-. apply F. apply A. right. exists i, er', c'. split; [exact BI|exact EN].
        + split; [apply H2|apply Y; apply H2].
      - intros t. apply Y. apply HI.
    Qed.
  End Return.

  Definition all_inv (past : list event) (b : @book S Tr Arg) (Ls : nat -> ledger) : Prop := forall i, thread_inv past b i (Ls i).
  Definition pending (b : @book S Tr Arg) (i : nat) : list (bool * call) := match begun b i with Some (er, c, _) => [(er, c)] | None => [] end.
  Lemma own_cons past e future : own_things (past ++ e :: future) -> own_things ((past ++ [e]) ++ future : list event).
  Proof. rewrite <- app_assoc. exact (fun z => z). Qed.
  Lemma isolated future : forall past b Ls, all_inv past b Ls -> answered b future -> own_things (past ++ future) -> (forall i x, List.In (Returns i x) future -> returned x) ->
    forall i, meets (Ls i) (firstn (length (answers_of i future)) (pending b i ++ calls_of i future)) (answers_of i future).
  Proof.
    induction future as [|e future IH]; intros past b Ls J An O Rt i.
    - cbn [answers_of flat_map length firstn]. exact Logic.I.
    - cbn [S_Conc.answered] in An. destruct An as [An1 An2].
      assert (Rt' : forall i x, List.In (Returns i x) future -> returned x) by (intros k x Hk; apply (Rt k x); right; exact Hk).
      destruct e as [j er c|j x].
      + assert (OJ : forall t, about c = Some t -> holder past t = Some j) by (intros t; apply (O past j er c future t eq_refl)).
        assert (J' : all_inv (past ++ [Begins j er c]) (after b (Begins j er c)) Ls).
        { intros k. destruct (Nat.eq_dec k j) as [->|N]; [apply begins_own; [exact An1|apply J|exact OJ]|apply begins_other; [exact N|apply J|exact OJ]]. }
        specialize (IH _ _ _ J' An2 (own_cons _ _ _ O) Rt' i). unfold answers_of, calls_of. cbn [flat_map]. fold (answers_of (Val := Val) i future). fold (calls_of (Val := Val) i future).
        cbn [app]. unfold pending in *. cbn [S_Conc.after begun] in IH. unfold put in IH. destruct (Nat.eqb_spec i j) as [EIJ|N]; [rewrite EIJ in *|].
        * rewrite Nat.eqb_refl, An1. exact IH.
        * destruct (Nat.eqb_spec j i) as [->|_]; [contradiction|]. exact IH.
      + destruct An1 as (er & c & M & B & A).
        generalize (J j). unfold thread_inv at 1. rewrite B. intros [OB _]. destruct (does_local er c M (Ls j) OB) as (u & o & DM & DL & CH).
        assert (A' : forall N, in_sight b N -> answers N o x) by (intros N HN; specialize (A N HN); rewrite DM in A; exact A).
        assert (Rx : returned x) by (apply (Rt j x); left; reflexivity).
        set (Ls' := fun k => if Nat.eqb k j then holding what (set (Ls j) u) o x else Ls k).
        assert (J' : all_inv (past ++ [Returns j x]) (after b (Returns j x)) Ls').
        { intros k. unfold Ls'. destruct (Nat.eqb_spec k j) as [->|N].
          - eapply return_own; [exact B|exact DM|exact CH|exact A'|exact Rx|apply J].
          - eapply return_other; [exact B|exact DM|exact CH|exact A'|exact Rx|apply J|exact N|apply J]. }
        specialize (IH _ _ _ J' An2 (own_cons _ _ _ O) Rt' i). unfold answers_of, calls_of. cbn [flat_map]. fold (answers_of (Val := Val) i future). fold (calls_of (Val := Val) i future).
        unfold pending in *. rewrite (after_is b j x er c M u o B DM) in IH. cbn [begun] in IH. unfold put in IH. unfold Ls' in IH.
        destruct (Nat.eqb_spec i j) as [EIJ|N]; [rewrite EIJ in *|].
        * rewrite Nat.eqb_refl, B. cbn [app length firstn S_CApi.meets]. rewrite DL. split; [eapply return_answers; [exact B|exact DM|exact CH|exact A'|exact Rx|apply J]|].
          cbn [app] in IH. destruct x as [a|h|e|]; [exact IH|exact IH|destruct Rx|destruct Rx].
        * destruct (Nat.eqb_spec j i) as [->|_]; [contradiction|]. exact IH.
  Qed.
  Notation book_after := (@book_after S In Tr Arg Val I construct value_of save_tr load_tr exec_one exec_many flush_many what).
  Definition no_orphans (past : list event) (b : @book S Tr Arg) : Prop := forall t, holder past t = None -> look (unused b) t = None.
  Lemma isolated_end future : forall past b Ls, all_inv past b Ls -> no_orphans past b -> answered b future -> own_things (past ++ future) -> (forall i x, List.In (Returns i x) future -> returned x) ->
    exists Ls', all_inv (past ++ future) (book_after b future) Ls' /\ no_orphans (past ++ future) (book_after b future) /\
      forall i, Ls' i = holds_after (Ls i) (firstn (length (answers_of i future)) (pending b i ++ calls_of i future)) (answers_of i future).
  Proof.
    induction future as [|e future IH]; intros past b Ls J NO An O Rt.
    - exists Ls. rewrite app_nil_r. split; [exact J|]. split; [exact NO|]. intros i. reflexivity.
    - cbn [S_Conc.answered] in An. destruct An as [An1 An2]. change (past ++ e :: future) with (past ++ ([e] ++ future)). rewrite app_assoc. cbn [S_Conc.book_after].
      assert (Rt' : forall i x, List.In (Returns i x) future -> returned x) by (intros k x Hk; apply (Rt k x); right; exact Hk).
      destruct e as [j er c|j x].
      + assert (OJ : forall t, about c = Some t -> holder past t = Some j) by (intros t; apply (O past j er c future t eq_refl)).
        assert (J' : all_inv (past ++ [Begins j er c]) (after b (Begins j er c)) Ls).
        { intros k. destruct (Nat.eq_dec k j) as [->|N]; [apply begins_own; [exact An1|apply J|exact OJ]|apply begins_other; [exact N|apply J|exact OJ]]. }
        assert (NO' : no_orphans (past ++ [Begins j er c]) (after b (Begins j er c))).
        { intros t. rewrite holder_begins. cbn [S_Conc.after unused]. intros E. rewrite look_without, (NO t E). destruct (about c) as [u|]; [destruct (same_thing t u)|]; reflexivity. }
        destruct (IH _ _ _ J' NO' An2 (own_cons _ _ _ O) Rt') as (Ls' & Q1 & Q2 & Q3). exists Ls'. split; [exact Q1|]. split; [exact Q2|]. intros i. rewrite Q3. clear Q1 Q2 Q3.
        unfold answers_of, calls_of. cbn [flat_map]. fold (answers_of (Val := Val) i future). fold (calls_of (Val := Val) i future).
        cbn [app]. unfold pending in *. cbn [S_Conc.after begun]. unfold put. destruct (Nat.eqb_spec i j) as [EIJ|N]; [rewrite EIJ in *|].
        * rewrite Nat.eqb_refl, An1. reflexivity.
        * destruct (Nat.eqb_spec j i) as [->|_]; [contradiction|]. reflexivity.
      + destruct An1 as (er & c & M & B & A).
        generalize (J j). unfold thread_inv at 1. rewrite B. intros [OB _]. destruct (does_local er c M (Ls j) OB) as (u & o & DM & DL & CH).
        assert (A' : forall N, in_sight b N -> answers N o x) by (intros N HN; specialize (A N HN); rewrite DM in A; exact A).
        assert (Rx : returned x) by (apply (Rt j x); left; reflexivity).
        set (Ls1 := fun k => if Nat.eqb k j then holding what (set (Ls j) u) o x else Ls k).
        assert (J' : all_inv (past ++ [Returns j x]) (after b (Returns j x)) Ls1).
        { intros k. unfold Ls1. destruct (Nat.eqb_spec k j) as [->|N].
          - eapply return_own; [exact B|exact DM|exact CH|exact A'|exact Rx|apply J].
          - eapply return_other; [exact B|exact DM|exact CH|exact A'|exact Rx|apply J|exact N|apply J]. }
        assert (NO' : no_orphans (past ++ [Returns j x]) (after b (Returns j x))).
        { intros t. eapply return_orphans; [exact B|exact DM|exact CH|exact A'|exact Rx|apply J|exact NO]. }
        destruct (IH _ _ _ J' NO' An2 (own_cons _ _ _ O) Rt') as (Ls' & Q1 & Q2 & Q3). exists Ls'. split; [exact Q1|]. split; [exact Q2|]. intros i. rewrite Q3. clear Q1 Q2 Q3.
        unfold answers_of, calls_of. cbn [flat_map]. fold (answers_of (Val := Val) i future). fold (calls_of (Val := Val) i future).
        unfold pending in *. rewrite (after_is b j x er c M u o B DM). cbn [begun]. unfold put. unfold Ls1.
        destruct (Nat.eqb_spec i j) as [EIJ|N]; [rewrite EIJ in *|].
        * rewrite Nat.eqb_refl, B. cbn [app length firstn S_CApi.holds_after]. rewrite DL. reflexivity.
        * destruct (Nat.eqb_spec j i) as [->|_]; [contradiction|]. reflexivity.
  Qed.
  Lemma start_inv : all_inv [] new_book (fun _ => nothing).
  Proof. intros i. unfold thread_inv. cbn [new_book begun]. intros t. split; [discriminate|]. intros _. destruct t; reflexivity. Qed.
  Theorem every_thread hist i : answered new_book hist -> own_things hist -> (forall i x, List.In (Returns i x) hist -> returned x) ->
    meets nothing (answered_calls i hist) (answers_of i hist).
  Proof. intros An O Rt. exact (isolated hist [] new_book (fun _ => nothing) start_inv An O Rt i). Qed.
  Theorem every_thread_end hist : answered new_book hist -> own_things hist -> (forall i x, List.In (Returns i x) hist -> returned x) ->
    all_inv hist (book_after new_book hist) (fun i => holds_after nothing (answered_calls i hist) (answers_of i hist)) /\ no_orphans hist (book_after new_book hist).
  Proof.
    intros An O Rt. assert (NO : no_orphans [] new_book) by (intros t _; destruct t; reflexivity).
    destruct (isolated_end hist [] new_book (fun _ => nothing) start_inv NO An O Rt) as (Ls & Q1 & Q2 & Q3). split; [|exact Q2].
    intros i. change (thread_inv hist (book_after new_book hist) i (holds_after nothing (firstn (length (answers_of i hist)) (pending new_book i ++ calls_of i hist)) (answers_of i hist))).
    rewrite <- Q3. apply Q1.
  Qed.
End Isolation.
