From Coq Require Import String.
From Verif Require Import Base M_String M_Text M_Date L_Text L_Text2 L_Text3.
Open Scope Z_scope.

Lemma in_alphabet (first : Z) (n : nat) (l : list Z) : l = map (fun i => first + Z.of_nat i) (seq 0 n) -> forall c, first <= c < first + Z.of_nat n -> In c l.
Proof. intros -> c H. apply in_map_iff. exists (Z.to_nat (c - first)). split; [lia|]. apply in_seq. lia. Qed.
Lemma letter_case :
  to_lower (chars "ABCDEFGHIJKLMNOPQRSTUVWXYZ") = chars "abcdefghijklmnopqrstuvwxyz" /\
  to_upper (chars "abcdefghijklmnopqrstuvwxyz") = chars "ABCDEFGHIJKLMNOPQRSTUVWXYZ" /\
  (forall c, ~ In c (chars "ABCDEFGHIJKLMNOPQRSTUVWXYZ") -> to_lower [c] = [c]) /\
  (forall c, ~ In c (chars "abcdefghijklmnopqrstuvwxyz") -> to_upper [c] = [c]) /\
  (forall a b, to_lower (a ++ b) = to_lower a ++ to_lower b /\ to_upper (a ++ b) = to_upper a ++ to_upper b) /\
  forall s : list Z, to_lower (to_lower s) = to_lower s /\ to_upper (to_upper s) = to_upper s /\
  length (to_lower s) = length s /\ length (to_upper s) = length s.
Proof.
  split; [vm_compute; reflexivity|]. split; [vm_compute; reflexivity|]. split; [|split; [|split]].
  - intros c H. unfold to_lower. cbn [map]. unfold lower_char. destruct ((65 <=? c) && (c <=? 90)) eqn:E; [|reflexivity].
    exfalso. apply H. apply (in_alphabet 65 26); [vm_compute; reflexivity|]. lia.
  - intros c H. unfold to_upper. cbn [map]. unfold upper_char. destruct ((97 <=? c) && (c <=? 122)) eqn:E; [|reflexivity].
    exfalso. apply H. apply (in_alphabet 97 26); [vm_compute; reflexivity|]. lia.
  - intros a b. split; apply map_app.
  - intro s. split; [apply lower_idempotent|]. split; [apply upper_idempotent|]. split; apply map_length.
Qed.
