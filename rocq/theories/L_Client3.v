(** C82: clients that run alone come to their end; clients that run next to each other keep to the rules. *)
From Verif Require Import Base M_PointerTable M_PtConc M_Estimator M_Pipeline M_CApi S_CApi L_CApi L_CApi2 L_CApi3 M_Conc S_Conc L_Conc4 L_Conc5 M_Client S_Client L_Client L_Client2.
Open Scope Z_scope.

Lemma list_last {A} (l : list A) : l = [] \/ exists f z, l = f ++ [z].
Proof. destruct l as [|x l] using rev_ind; [left; reflexivity|right; exists l, x; reflexivity]. Qed.

Section Client.
  Context {S In Tr Arg Val : Type}.
  Variable I : impl S In Tr.
  Variable construct : res S.
  Variable value_of : Arg -> res In.
  Variable save_tr : Tr -> res (list Z).
  Variable load_tr : list Z -> res Tr.
  Variable exec_one : Tr -> In -> Tr * res Val.
  Variable exec_many : Tr -> In -> Tr * res (list (list Z)).
  Variable flush_many : Tr -> Tr * res (list (list Z)).
  Variable what : exn -> list Z.
  Notation obj := (@obj S Tr).
  Notation call := (@call Arg).
  Notation answer := (@answer Val).
  Notation ledger := (@ledger S Tr).
  Notation event := (@event Arg Val).
  Notation does := (@does S In Tr Arg Val I construct value_of save_tr load_tr exec_one exec_many flush_many).
  Notation meets := (@meets S In Tr Arg Val I construct value_of save_tr load_tr exec_one exec_many flush_many what).
  Notation holds_after := (@holds_after S In Tr Arg Val I construct value_of save_tr load_tr exec_one exec_many flush_many what).
  Notation client := (@client Arg Val).
  Notation leads := (@leads S In Tr Arg Val I construct value_of save_tr load_tr exec_one exec_many flush_many what).
  Notation cruns := (@cruns S In Tr Arg Val I construct value_of save_tr load_tr exec_one exec_many flush_many what).
  Notation cstep := (@cstep S In Tr Arg Val I construct value_of save_tr load_tr exec_one exec_many flush_many what).
  Notation disciplined := (@disciplined S In Tr Arg Val I construct value_of save_tr load_tr exec_one exec_many flush_many what).
  Notation answered := (@answered S In Tr Arg Val I construct value_of save_tr load_tr exec_one exec_many flush_many what).
  Notation book_after := (@book_after S In Tr Arg Val I construct value_of save_tr load_tr exec_one exec_many flush_many what).

  (** ** Alone. *)
  Section Alone.
    Variable allocate : nat -> list Z -> Z.
    Variable draws : nat -> list Z.
    Hypothesis Halloc : allocator_ok allocate.
    Hypothesis Hdraws : draws_ok draws.
    Notation run := (@run S In Tr Arg Val I construct value_of save_tr load_tr exec_one exec_many flush_many what allocate draws).
    Notation INV := (@inv S Tr (never_lost I construct)).
    Variable N : nat.
    Hypothesis Henough : draws_enough N draws.
    Lemma alone_ends {R} (P : ledger -> client R -> Prop) n L p : leads P n L p -> forall w, INV w L -> small w -> (w_time w + 4 * n <= N)%nat ->
      exists l xs w' p', run w l = Some (xs, w') /\ plays p l xs p' /\ ended p'.
    Proof using All.
      intros H. induction H as [n L p E HP|n L c k A EN H IH]; intros w Hi Hs Hn.
      - exists [], [], w, p. split; [reflexivity|]. split; [constructor|exact E].
      - destruct (step_total I construct value_of save_tr load_tr exec_one exec_many flush_many what allocate draws N Henough true c w Hs) as (w1 & x & Es & Hs1 & Ht1); [lia|].
        pose proof (every_step I construct value_of save_tr load_tr exec_one exec_many flush_many what allocate draws Halloc Hdraws true c w L Hi w1 x Es) as [G1 G2].
        assert (D : returned x \/ ~ returned x) by (destruct x; cbn; tauto). destruct D as [D|D].
        + assert (G2' : INV w1 (holding what (fst (does true L c)) (snd (does true L c)) x)) by (destruct x; first [exact G2|destruct D]).
          destruct (IH x G1 w1 G2' Hs1) as (l & xs & w' & p' & Er & Pl & En); [lia|].
          exists ((true, c) :: l), (x :: xs), w', p'. split; [|split; [constructor; exact Pl|exact En]].
          cbn [M_CApi.run]. rewrite Es, Er. destruct x; first [reflexivity|destruct D].
        + exists [(true, c)], [x], w1, (k x). split; [|split; [constructor; constructor|rewrite (EN x D); exact Logic.I]].
          cbn [M_CApi.run]. rewrite Es. destruct x; first [reflexivity|exfalso; apply D; exact Logic.I].
    Qed.
    (** The run of a program: it ends, and however it ended, [P] holds. *)
    Theorem alone {R} (P : ledger -> client R -> Prop) n p : leads P n nothing p -> (4 * n <= N)%nat ->
      exists l xs w p', run start l = Some (xs, w) /\ plays p l xs p' /\ ended p' /\ P (holds_after nothing l xs) p'.
    Proof using All.
      intros H Hn. destruct (alone_ends P n nothing p H start (L_CApi.start_inv _) (le_n 0)) as (l & xs & w & p' & Er & Pl & En); [exact Hn|].
      exists l, xs, w, p'. split; [exact Er|]. split; [exact Pl|]. split; [exact En|].
      eapply leads_meets; [exact H| |exact Pl|exact En].
      exact (c_calls I construct value_of save_tr load_tr exec_one exec_many flush_many what allocate draws Halloc Hdraws l xs w Er).
    Qed.
  End Alone.

  (** ** Next to each other. *)
  (** How often a thread has called. *)
  Definition waiting (q : @place S Tr Val) : nat := match q with Idle => 0 | _ => 1 end.
  Lemma calls_app i (h1 h2 : list event) : calls_of i (h1 ++ h2) = calls_of i h1 ++ calls_of i h2.
  Proof using. unfold calls_of. rewrite flat_map_app. reflexivity. Qed.
  Lemma answers_app i (h1 h2 : list event) : answers_of i (h1 ++ h2) = answers_of i h1 ++ answers_of i h2.
  Proof using. unfold answers_of. rewrite flat_map_app. reflexivity. Qed.
  Lemma count hist c i : cruns c_start hist c -> length (calls_of i hist) = (length (answers_of i hist) + waiting (c_threads c i))%nat.
  Proof using.
    remember c_start as c0 eqn:E0. intros R. induction R as [c|c es es' c' c2 R IH St]; subst; [reflexivity|]. specialize (IH eq_refl).
    rewrite calls_app, answers_app, !app_length, IH. clear IH R.
    inversion St as [c0 j er f H|c0 j p p' hp' H M|c0 j o k H|c0 j q q' k l' t' H M|c0 j r k H|c0 j x H]; subst; clear St; cbn [c_threads]; unfold put;
      (destruct (Nat.eqb_spec i j) as [E|Ne];
      [subst i; rewrite H; unfold calls_of, answers_of; cbn [flat_map app]; rewrite ?Nat.eqb_refl
      |unfold calls_of, answers_of; cbn [flat_map app]; try (destruct (Nat.eqb_spec j i) as [E'|_]; [congruence|])]); cbn [length app waiting]; lia.
  Qed.
  Lemma under_way_calls {R} (p : client R) l c xs : under_way p (l ++ [c]) xs -> (length xs = length l)%nat ->
    under_way p l xs /\ exists q k, plays p l xs q /\ fst c = true /\ q = Calls (snd c) k.
  Proof using.
    revert p xs. induction l as [|y l IH]; intros p xs H E; cbn [app length] in *.
    - destruct xs as [|x xs]; [|discriminate E]. inversion H; subst. split; [constructor|]. do 2 eexists. split; [constructor|]. split; reflexivity.
    - destruct xs as [|x xs]; [discriminate E|]. cbn [length] in E. inversion H as [| |c' k x' l' xs' U]; subst. destruct (IH (k x) xs U) as (A & q & k' & B & C); [lia|].
      split; [constructor; exact A|]. exists q, k'. split; [constructor; exact B|exact C].
  Qed.
  Lemma under_way_answers {R} (p : client R) l x xs : under_way p l (xs ++ [x]) -> (length l = Datatypes.S (length xs))%nat -> under_way p l xs.
  Proof using.
    revert p l. induction xs as [|y xs IH]; intros p l H E; cbn [app length] in *.
    - destruct l as [|c [|]]; try discriminate E. inversion H; subst. constructor.
    - destruct l as [|c l]; [discriminate E|]. cbn [length] in E. inversion H as [| |c' k x' l' xs' U]; subst. constructor. apply IH; [exact U|]. injection E. lia.
  Qed.
  Lemma under_way_plays {R} (p : client R) l xs : under_way p l xs -> exists q, plays p (firstn (length xs) l) xs q.
  Proof using.
    intros H. induction H as [p|c k|c k x l xs H [q IH]]; cbn [length firstn].
    - eexists. constructor.
    - eexists. constructor.
    - exists q. constructor. exact IH.
  Qed.
  Lemma plays_under_way {R} (p : client R) l xs q : plays p l xs q -> under_way p l xs.
  Proof using. intros H. induction H; constructor; assumption. Qed.
  (** Where a program is, a call that comes next is one that it may make. *)
  Lemma leads_allowed {R} (P : ledger -> client R -> Prop) n L p l xs c k : leads P n L p -> meets L l xs -> Forall returned xs -> plays p l xs (Calls c k) -> allowed (holds_after L l xs) c.
  Proof using.
    intros H. revert l xs. induction H as [n L p E HP|n L c0 k0 A EN H IH]; intros l xs M F Pl.
    - inversion Pl; subst; destruct E.
    - inversion Pl as [q|c' k' x l' xs' q Pl' E1 E2 E3 E4]; subst; [exact A|]. cbn [S_CApi.meets S_CApi.holds_after] in *.
      destruct (does true L c0) as [L' o]. cbn [fst snd] in *. destruct M as [An M]. pose proof (Forall_inv F) as F1. apply Forall_inv_tail in F.
      apply (IH x An l' xs'); [|exact F|exact Pl']. destruct x; first [exact M|destruct F1].
  Qed.

  Section Threads.
    Hypothesis Hdef : methods_defined I construct value_of save_tr load_tr exec_one exec_many flush_many.
    Context {R : Type}.
    Variable programs : nat -> client R.
    Variable Ps : nat -> ledger -> client R -> Prop.
    Variable ns : nat -> nat.
    Hypothesis Hleads : forall i, leads (Ps i) (ns i) nothing (programs i).

    Lemma allowed_mine (past : list event) (b : @book S Tr Arg) i (L : ledger) (c : call) : thread_inv past b i L -> begun b i = None -> allowed L c ->
      allowed (unused b) c /\ forall t, about c = Some t -> ((exists o, look L t = Some o) -> holder past t = Some i).
    Proof using.
      intros H B A. unfold thread_inv in H. rewrite B in H.
      assert (Q : forall t o, look L t = Some o -> look (unused b) t = Some o /\ holder past t = Some i).
      { intros t o E. destruct (H t) as [H1 H2]. destruct (holder_is past t i) as [X|X]; [|rewrite (H2 X) in E; discriminate].
        split; [rewrite <- (H1 X); exact E|exact X]. }
      split; [|intros t _ [o E]; apply (Q t o E)].
      assert (QL : forall h o, live L h = Some o -> live (unused b) h = Some o) by (intros h o E; apply (Q (AHandleOf h) o E)).
      assert (QG : forall h o, given L h = Some o -> given (unused b) h = Some o) by (intros h o E; apply (Q (ABlockAt h) o E)).
      destruct c; cbn [allowed] in *; unfold an_estimator, a_transformer in *; try exact A;
        repeat match goal with H : _ \/ _ |- _ => destruct H as [H|H] end; try (left; exact A); try (right; left; exact A);
        destruct A as [o A]; try (right; exists o; apply QL; exact A); try (right; exists o; apply QG; exact A); try (right; right; exists o; apply QG; exact A).
      destruct A as [A A']. right. right. exists o. split; [apply QG; exact A|exact A'].
    Qed.
    (** A thing that the program uses is one that it holds. *)
    Lemma allowed_held (L : ledger) (c : call) t : allowed L c -> about c = Some t -> exists o, look L t = Some o.
    Proof using.
      intros A E. unfold about in E.
      destruct c; cbn [handle_of block_of allowed] in *; unfold an_estimator, a_transformer in *; try discriminate E;
        repeat match goal with H : context [if (?a =? 0) || (?n =? 0) then _ else _] |- _ => destruct (Z.eqb_spec a 0), (Z.eqb_spec n 0); cbn [orb] in H
                             | H : context [if ?a =? 0 then _ else _] |- _ => destruct (Z.eqb_spec a 0) end; try discriminate E; injection E as <-; cbn [look];
        repeat match goal with H : _ \/ _ |- _ => destruct H as [H|H] end; try contradiction;
        destruct A as [o A]; try (eexists; exact A). destruct A as [A _]. eexists. exact A.
    Qed.
    Lemma own_snoc (hist : list event) e : own_things hist -> match e with Begins j er c => forall t, about c = Some t -> holder hist t = Some j | Returns _ _ => True end -> own_things (hist ++ [e]).
    Proof using.
      intros O H past j er c future t E A. destruct (list_last future) as [->|(f & z & ->)].
      - apply app_inj_tail in E as [-> ->]. apply H. exact A.
      - change (past ++ Begins j er c :: f ++ [z]) with (past ++ (Begins j er c :: f) ++ [z]) in E. rewrite app_assoc in E. apply app_inj_tail in E as [-> _].
        exact (O past j er c f t eq_refl A).
    Qed.
    Lemma firstn_all_len {A} (l : list A) n : n = length l -> firstn n l = l.
    Proof using. intros ->. apply firstn_all. Qed.

    Lemma follow hist c : cruns c_start hist c -> (forall i, under_way (programs i) (calls_of i hist) (answers_of i hist)) ->
      disciplined new_book hist /\ own_things hist.
    Proof using Hdef Hleads.
      remember c_start as c0 eqn:E0. intros R0. induction R0 as [c|c es es' c' c2 R0 IH St]; subst; intros U.
      { split; [exact Logic.I|]. intros past j er c0 future t E. destruct past; discriminate E. }
      specialize (IH eq_refl).
      assert (CNT : forall i, length (calls_of i es) = (length (answers_of i es) + waiting (c_threads c' i))%nat) by (intros i; apply count; exact R0).
      assert (U0 : forall i, under_way (programs i) (calls_of i es) (answers_of i es)).
      { intros i. specialize (U i). rewrite calls_app, answers_app in U. specialize (CNT i). clear IH R0.
        inversion St as [c0 j er f H|c0 j p p' hp' H M|c0 j o k H|c0 j q q' k l' t' H M|c0 j r k H|c0 j x H]; subst; clear St;
          unfold calls_of at 2, answers_of at 2 in U; cbn [flat_map app] in U; rewrite ?app_nil_r in U; try exact U;
          destruct (Nat.eqb_spec j i) as [E|Ne]; rewrite ?app_nil_r in U; try exact U.
        - subst j. rewrite H in CNT. cbn [waiting] in CNT. apply (under_way_calls _ _ _ _ U). lia.
        - subst j. rewrite H in CNT. cbn [waiting] in CNT. eapply under_way_answers; [exact U|lia]. }
      destruct (IH U0) as [D O]. destruct (runs_J I construct value_of save_tr load_tr exec_one exec_many flush_many what Hdef es c' R0 D) as (An & Rt & Q & HJ).
      destruct (every_thread_end I construct value_of save_tr load_tr exec_one exec_many flush_many what es An O Rt) as [INVS _].
      clear IH. rewrite disciplined_app.
      inversion St as [c0 j er f H|c0 j p p' hp' H M|c0 j o k H|c0 j q q' k l' t' H M|c0 j r k H|c0 j x H]; subst; clear St;
        rewrite ?app_nil_r; try (split; [split; [exact D|exact Logic.I]|exact O]).
      - specialize (U j). specialize (CNT j). rewrite calls_app, answers_app in U. unfold calls_of at 2, answers_of at 2 in U. cbn [flat_map app] in U. rewrite Nat.eqb_refl in U.
        rewrite ?app_nil_r in U. cbn [app] in U. rewrite H in CNT. cbn [waiting] in CNT.
        destruct (under_way_calls _ _ _ _ U) as (_ & q & k & Pl & _ & Eq); [lia|]. cbn [snd] in Eq. subst q.
        assert (EA : answered_calls j es = calls_of j es) by (unfold answered_calls; apply firstn_all_len; lia).
        assert (MT : meets nothing (calls_of j es) (answers_of j es)).
        { rewrite <- EA. exact (every_thread I construct value_of save_tr load_tr exec_one exec_many flush_many what es j An O Rt). }
        assert (F : Forall returned (answers_of j es)).
        { apply Forall_forall. intros x Hx. unfold answers_of in Hx. apply in_flat_map in Hx as (e & He & Hx). destruct e as [|j' y]; [destruct Hx|].
          destruct (Nat.eqb j' j); [|destruct Hx]. destruct Hx as [<-|[]]. exact (Rt j' y He). }
        assert (AL : allowed (holds_after nothing (calls_of j es) (answers_of j es)) f) by (eapply leads_allowed; [apply Hleads|exact MT|exact F|exact Pl]).
        specialize (INVS j). cbv beta in INVS. rewrite EA in INVS.
        assert (B : begun (book_after new_book es) j = None).
        { pose proof (j_threads _ _ _ _ _ _ _ _ _ _ _ _ HJ j) as TJ. rewrite H in TJ. destruct (begun (book_after new_book es) j) as [[[a0 b0] M0]|]; [|reflexivity].
          destruct TJ as (p & t & hp & HH & N0 & _). discriminate N0. }
        destruct (allowed_mine _ _ _ _ _ INVS B AL) as [AL1 AL2]. split.
        + split; [exact D|]. split; [exact AL1|exact Logic.I].
        + apply own_snoc; [exact O|]. intros t Ht. apply (AL2 t Ht). eapply allowed_held; [exact AL|exact Ht].
      - split; [split; [exact D|split; exact Logic.I]|]. apply own_snoc; [exact O|exact Logic.I].
    Qed.
    (** Every program that has come to its end has come to the one that it would have come to alone. *)
    Theorem together hist c i p : cruns c_start hist c -> (forall i, under_way (programs i) (calls_of i hist) (answers_of i hist)) ->
      plays (programs i) (calls_of i hist) (answers_of i hist) p -> ended p -> Ps i (holds_after nothing (calls_of i hist) (answers_of i hist)) p.
    Proof using Hdef Hleads.
      intros R0 U Pl En. destruct (follow hist c R0 U) as [D O].
      destruct (runs_J I construct value_of save_tr load_tr exec_one exec_many flush_many what Hdef hist c R0 D) as (An & Rt & _).
      eapply leads_meets; [apply Hleads| |exact Pl|exact En].
      assert (LE : forall {R} (p : client R) l xs q, plays p l xs q -> length xs = length l) by (intros R1 p0 l xs q HH; induction HH; cbn [length]; lia).
      assert (EA : answered_calls i hist = calls_of i hist) by (unfold answered_calls; apply firstn_all_len; exact (LE _ _ _ _ _ Pl)).
      rewrite <- EA. exact (every_thread I construct value_of save_tr load_tr exec_one exec_many flush_many what hist i An O Rt).
    Qed.
    (** When all have given everything back, no memory is held. *)
    Theorem together_no_leak hist c : never_lost I construct -> cruns c_start hist c -> (forall i, under_way (programs i) (calls_of i hist) (answers_of i hist)) ->
      (forall i, c_threads c i = Idle) -> (forall i, same_things nothing (holds_after nothing (calls_of i hist) (answers_of i hist))) -> c_heap c = [] /\ c_table c = [].
    Proof using Hdef Hleads.
      intros NL R0 U Id Em. destruct (follow hist c R0 U) as [D O].
      destruct (runs_J I construct value_of save_tr load_tr exec_one exec_many flush_many what Hdef hist c R0 D) as (An & Rt & Q & HJ).
      destruct (every_thread_end I construct value_of save_tr load_tr exec_one exec_many flush_many what hist An O Rt) as [INVS NO].
      apply (conc_no_leak I construct value_of save_tr load_tr exec_one exec_many flush_many what Hdef hist c R0 D NL Id).
      assert (Z : forall t, look (unused (book_after new_book hist)) t = None).
      { intros t. destruct (holder hist t) as [i|] eqn:Hh; [|apply NO; exact Hh].
        assert (B : begun (book_after new_book hist) i = None).
        { pose proof (j_threads _ _ _ _ _ _ _ _ _ _ _ _ HJ i) as TJ. rewrite (Id i) in TJ. destruct (begun (book_after new_book hist) i) as [[[a0 b0] M0]|]; [|reflexivity].
          destruct TJ as (p & t0 & hp & HH & N0 & _). discriminate N0. }
        specialize (INVS i). cbv beta in INVS. unfold thread_inv in INVS. rewrite B in INVS. destruct (INVS t) as [X _]. rewrite <- (X Hh).
        assert (EA : answered_calls i hist = calls_of i hist).
        { unfold answered_calls. apply firstn_all_len. pose proof (count hist c i R0) as C. rewrite (Id i) in C. cbn [waiting] in C. lia. }
        rewrite EA. destruct (Em i) as [E1 E2]. destruct t as [h|a]; cbn [look]; [rewrite E1|rewrite E2]; reflexivity. }
      split; [intros h; exact (Z (AHandleOf h))|intros a; exact (Z (ABlockAt a))].
    Qed.
  End Threads.
End Client.
