(** Hexadecimal numerals and the numbers they stand for. *)
From Coq Require Import Reals.
From Flocq Require Import Core.Core.
From Verif Require Import Base M_String S_TimeText S_FloatText.
Open Scope Z_scope.

(** White space, a sign, 0x, hexadecimal digits (capital or not), maybe a point and digits, maybe the letter p and a sign and decimal digits; and what follows. *)
Record hexadecimal := mkHex {
  h_blank : list Z;
  h_sign : option bool;                                     (* Some true: a minus sign *)
  h_capital : bool;                                         (* X *)
  h_whole : list (bool * Z);                                (* capital; a number from 0 to 15 *)
  h_point : option (list (bool * Z));
  h_exponent : option (bool * option bool * list Z);        (* capital P; sign; decimal digits *)
  h_rest : list Z
}.
Definition hex_char (d : bool * Z) : Z := if snd d <? 10 then 48 + snd d else (if fst d then 65 else 97) + (snd d - 10).
Definition hex_text (n : hexadecimal) : list Z :=
  h_blank n ++ sign_text (h_sign n) ++ 48 :: (if h_capital n then 88 else 120) :: map hex_char (h_whole n) ++
  match h_point n with None => [] | Some ds => 46 :: map hex_char ds end ++
  match h_exponent n with None => [] | Some (capital, s, ds) => (if capital then 80 else 112) :: sign_text s ++ digit_chars ds end ++
  h_rest n.
Definition hex_decimals (n : hexadecimal) : list (bool * Z) := match h_point n with None => [] | Some ds => ds end.
Definition digits_0_15 (ds : list (bool * Z)) : Prop := Forall (fun d => 0 <= snd d <= 15) ds.
Definition hex_ok (n : hexadecimal) : Prop :=
  Forall (fun c => is_space c = true) (h_blank n) /\ digits_0_15 (h_whole n) /\ digits_0_15 (hex_decimals n) /\ h_whole n ++ hex_decimals n <> [] /\
  match h_exponent n with None => True | Some (_, _, ds) => digits_0_9 ds /\ ds <> [] end /\ stops (h_rest n).
Definition hex_number (ds : list (bool * Z)) : Z := fold_left (fun x d => 16 * x + snd d) ds 0.
Definition hex_exponent (n : hexadecimal) : Z := match h_exponent n with None => 0 | Some (_, s, ds) => signed s (number ds) end.
(** The number. *)
Definition hex_value (n : hexadecimal) : R :=
  (IZR (signed (h_sign n) (hex_number (h_whole n ++ hex_decimals n))) * bpow radix2 (hex_exponent n - 4 * Z.of_nat (length (hex_decimals n))))%R.
