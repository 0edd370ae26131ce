(** Model of Traits<float_t> and Traits<double_t>: ToString and FromString (src/Traits.h:715-729, 793-807), that is of std::to_string,
    std::stof and std::stod as libstdc++ and glibc do them in the C locale and the default rounding mode.
    Strings are lists of chars. *)
From Flocq Require Import Core.Core IEEE754.BinarySingleNaN.
From Verif Require Import Base M_Scale M_String.
Open Scope Z_scope.

Section FloatText.
  (** float_t is (24, 128), double_t is (53, 1024). *)
  Context {prec emax : Z} {Hp : Prec_gt_0 prec} {Hm : Prec_lt_emax prec emax}.
  Notation F := (binary_float prec emax).

  (** ** std::to_string(float), std::to_string(double): vsnprintf with "%f".
      The digits are those of the exact value, rounded to six places (to the even digit in the middle). *)
  Definition millionths (m : positive) (e : Z) : Z :=
    let n := Zpos m * 1000000 in
    if 0 <=? e then n * 2 ^ e
    else let d := 2 ^ (- e) in
         let q := n / d in
         let r := n mod d in
         if 2 * r <? d then q else if d <? 2 * r then q + 1 else if Z.even q then q else q + 1.
  Definition six (n : Z) : list Z := let s := digits n in repeat 48 (6 - length s) ++ s.
  Definition fixed_text (neg : bool) (n : Z) : list Z := (if neg then [45] else []) ++ digits (n / 1000000) ++ [46] ++ six (n mod 1000000).
  Definition s_nan : list Z := [78; 97; 78].                       (* "NaN" *)
  Definition s_inf : list Z := [105; 110; 102].                    (* "inf" *)
  (** Traits.h:715-722, 793-800. *)
  Definition float_to_string (x : F) : list Z :=
    match x with
    | B754_nan => s_nan
    | B754_infinity neg => (if neg then [45] else []) ++ s_inf
    | B754_zero neg => fixed_text neg 0
    | B754_finite neg m e _ => fixed_text neg (millionths m e)
    end.

  (** ** strtof, strtod: white space, a sign, then inf or nan in any case, or decimal digits with a point and an exponent, or 0x and
      hexadecimal digits with a point and a binary exponent; what follows is not looked at. *)
  Definition lower_case (c : Z) : Z := if (65 <=? c) && (c <=? 90) then c + 32 else c.
  Definition digit_value (c : Z) : option Z :=
    let c := lower_case c in
    if is_digit c then Some (c - 48) else if (97 <=? c) && (c <=? 122) then Some (c - 87) else None.
  Fixpoint take_base (base : Z) (s : list Z) {struct s} : list Z * list Z :=
    match s with
    | [] => ([], [])
    | c :: r => match digit_value c with
                | Some d => if d <? base then let (a, b) := take_base base r in (d :: a, b) else ([], s)
                | None => ([], s)
                end
    end.
  Definition base_value (base : Z) (ds : list Z) : Z := fold_left (fun x d => base * x + d) ds 0.
  Definition take_mantissa (base : Z) (s : list Z) : list Z * list Z * list Z :=
    let (a, r) := take_base base s in
    match r with
    | c :: r' => if c =? 46 then let (b, r2) := take_base base r' in (a, b, r2) else (a, [], r)
    | [] => (a, [], [])
    end.
  Definition take_sign (s : list Z) : bool * list Z :=
    match s with
    | c :: r => if c =? 45 then (true, r) else if c =? 43 then (false, r) else (false, s)
    | [] => (false, [])
    end.
  (** [mark]: the letter e or p. *)
  Definition take_exponent (mark : Z) (s : list Z) : Z :=
    match s with
    | c :: r => if lower_case c =? mark then
                  let (neg, r2) := take_sign r in
                  let (ds, r3) := take_base 10 r2 in
                  if neg then - base_value 10 ds else base_value 10 ds
                else 0
    | [] => 0
    end.
  Fixpoint starts_with (word s : list Z) {struct word} : bool :=
    match word, s with
    | [], _ => true
    | w :: ws, c :: r => (lower_case c =? w) && starts_with ws r
    | _ :: _, [] => false
    end.
  (** m * b^e *)
  Inductive scanned := ScanInf | ScanNaN | ScanNumber (m b e : Z).
  Definition scan_number (s : list Z) : option scanned :=
    let '(a, b, r) := take_mantissa 10 s in
    match a ++ b with
    | [] => None
    | _ => Some (ScanNumber (base_value 10 (a ++ b)) 10 (take_exponent 101 r - Z.of_nat (length b)))
    end.
  Definition scan_hex (s : list Z) : scanned :=
    let '(a, b, r) := take_mantissa 16 s in
    match a ++ b with
    | [] => ScanNumber 0 10 0                                       (* "0" was read, and stops before the x *)
    | _ => ScanNumber (base_value 16 (a ++ b)) 2 (take_exponent 112 r - 4 * Z.of_nat (length b))
    end.
  Definition scan (s : list Z) : option (bool * scanned) :=
    let (neg, s) := take_sign (skip_space (until_nul s)) in
    if starts_with s_inf s then Some (neg, ScanInf)
    else if starts_with [110; 97; 110] s then Some (neg, ScanNaN)
    else if starts_with [48; 120] s then Some (neg, scan_hex (skipn 2 s))
    else match scan_number s with Some x => Some (neg, x) | None => None end.

  (** The float nearest to p/q (even in the middle); infinity if that is too large. *)
  Definition round_ratio (neg : bool) (p q : positive) : F :=
    SF2B _ (proj1 (Bdiv_correct_aux prec emax Hp Hm mode_NE neg p 0 false q 0)).
  (** Whether the library reports underflow (ERANGE) for this text; asked only for values below the normal range. *)
  Variable underflow : list Z -> bool.
  (** std::stof, std::stod: invalid_argument when nothing was read, out_of_range on ERANGE. *)
  Definition sto_float (s : list Z) : res F :=
    match scan s with
    | None => Throw InvalidArgument
    | Some (neg, ScanInf) => Ok (B754_infinity neg)
    | Some (_, ScanNaN) => Ok B754_nan
    | Some (neg, ScanNumber m b e) =>
        if m =? 0 then Ok (B754_zero neg)
        else let p := m * b ^ Z.max e 0 in
             let q := b ^ Z.max (- e) 0 in
             let y := round_ratio neg (Z.to_pos p) (Z.to_pos q) in
             if is_inf y || ((p * 2 ^ (emax - 2) <? q) && underflow s) then Throw OutOfRange else Ok y
    end.
  (** Traits.h:724-729, 802-807. *)
  Definition float_from_string (s : list Z) : res F :=
    if list_eqb s s_nan then Ok B754_nan else sto_float s.
End FloatText.
