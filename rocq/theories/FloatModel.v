(** Model of the type Float of /repo/types.go (533-610): a float64 by its IEEE
    754 bit pattern, an integer in [0, 2^64).  strconv.ParseFloat,
    strconv.FormatFloat(_, 'f', 6, 64) and fmt's %f are part of the model:
    strconv documents them as correctly rounded (nearest, ties to even), so the
    digit-truncation and fast paths inside strconv are not modelled, only the
    syntax they accept and the number they denote. *)
From Verif Require Import GoBase IdModel.
Open Scope Z_scope.

(** ** Numbers *)
(** Magnitudes are counted in units of 2^-1074, the smallest subnormal. *)
Definition unit_ : Z := 2 ^ 1074.
(** num / den rounded to an integer, halves to even (den > 0). *)
Definition round_even (num den : Z) : Z :=
  let q := num / den in let r := num mod den in
  if 2 * r <? den then q else if den <? 2 * r then q + 1 else if Z.even q then q else q + 1.
(** The exponent of the last place of a magnitude: 53 significant bits. *)
Definition ulp_exp (F : Z) : Z := Z.max 0 (Z.log2 F - 52).
(** p / q >= 0 rounded to 53 significant bits or to the last subnormal place,
    without a bound on the exponent (IEEE 754 roundTiesToEven). *)
Definition round_mag (p q : Z) : Z := let k := ulp_exp (p / q) in round_even p (q * 2 ^ k) * 2 ^ k.
(** Everything from 2^1024 on is an overflow. *)
Definition mag_limit : Z := 2 ^ 2098.
(** math.Float64bits of a magnitude, with sign; math.NaN(), math.Inf. *)
Definition mag_bits (F : Z) : Z := let k := ulp_exp F in k * 2 ^ 52 + F / 2 ^ k.
Definition with_sign (neg : bool) (b : Z) : Z := if neg then 2 ^ 63 + b else b.
Definition inf_bits : Z := 2047 * 2 ^ 52.
Definition nan_bits : Z := inf_bits + 2 ^ 51 + 1.
(** The parts of a bit pattern. *)
Definition f_neg (b : Z) : bool := 2 ^ 63 <=? b.
Definition f_abs (b : Z) : Z := b mod 2 ^ 63.
Definition f_mag (b : Z) : Z := let a := f_abs b in let e := Z.max 0 (a / 2 ^ 52 - 1) in (a - e * 2 ^ 52) * 2 ^ e.

(** ** strconv.ParseFloat(s, 64) *)
Definition chr (n : nat) (c : ascii) : bool := Nat.eqb (nat_of_ascii c) n.
(** A digit of a base 10 or 16 mantissa. *)
Definition flt_digit (hex : bool) (c : ascii) : option Z :=
  match dec_digit c with
  | Some d => Some d
  | None => let n := Z.of_nat (nat_of_ascii (lower_ascii c)) in
            if hex && (97 <=? n) && (n <=? 102) then Some (n - 87) else None
  end.
(** strconv/atof.go readFloat, the mantissa loop: digits, at most one dot and
    underscores.  Returns the mantissa as an integer, the number of digits
    after the dot, whether there were digits and underscores, and the rest. *)
Fixpoint read_mant (hex dot saw und : bool) (m f : Z) (s : bytes) : Z * Z * bool * bool * bytes :=
  match s with
  | [] => (m, f, saw, und, [])
  | c :: r =>
      if chr 95 c then read_mant hex dot saw true m f r
      else if chr 46 c then if dot then (m, f, saw, und, s) else read_mant hex true saw und m f r
      else match flt_digit hex c with
           | Some d => read_mant hex dot true und (m * (if hex then 16 else 10) + d) (if dot then f + 1 else f) r
           | None => (m, f, saw, und, s)
           end
  end.
(** readFloat, the digits of the exponent; "if e < 10000" caps it. *)
Fixpoint read_exp (und : bool) (e : Z) (s : bytes) : Z * bool * bytes :=
  match s with
  | [] => (e, und, [])
  | c :: r =>
      if chr 95 c then read_exp true e r
      else match dec_digit c with
           | Some d => read_exp und (if e <? 10000 then e * 10 + d else e) r
           | None => (e, und, s)
           end
  end.
(** readFloat, the sign. *)
Definition read_sign (s : bytes) : bool * bytes :=
  match s with
  | c :: r => if chr 43 c then (false, r) else if chr 45 c then (true, r) else (false, s)
  | [] => (false, [])
  end.
(** strconv underscoreOK, after the sign and the base prefix.  [p]: the
    previous character was a digit (or the prefix), an underscore, or other. *)
Inductive uprev := UDigit | UUnder | UOther.
Fixpoint under_ok (hex : bool) (p : uprev) (s : bytes) : bool :=
  match s with
  | [] => match p with UUnder => false | _ => true end
  | c :: r =>
      match flt_digit hex c with
      | Some _ => under_ok hex UDigit r
      | None => if chr 95 c then match p with UDigit => under_ok hex UUnder r | _ => false end
                else match p with UUnder => false | _ => under_ok hex UOther r end
      end
  end.
(** readFloat after sign and prefix: Some (mantissa, exponent) where the number
    is mantissa * 10^exponent, or mantissa * 2^exponent for [hex]; None is a
    syntax error, also when the text is not consumed entirely. *)
Definition read_float (hex : bool) (s : bytes) : option (Z * Z) :=
  let '(m, f, saw, und, r) := read_mant hex false false false 0 0 s in
  if negb saw then None
  else
    let dp := if hex then - (4 * f) else - f in
    let fin und e := if und && negb (under_ok hex (if hex then UDigit else UOther) s) then None else Some (m, dp + e) in
    match r with
    | [] => if hex then None else fin und 0
    | c :: r1 =>
        if chr (if hex then 112 else 101) (lower_ascii c) then
          let '(neg, r2) := read_sign r1 in
          match r2 with
          | d :: _ => match dec_digit d with
                      | None => None
                      | Some _ => let '(e, und', r3) := read_exp und 0 r2 in
                                  if is_empty r3 then fin und' (if neg then - e else e) else None
                      end
          | [] => None
          end
        else None
    end.
(** The float64 of mantissa * base^exponent; None is ErrRange. *)
Definition round_float (neg : bool) (base m e : Z) : option Z :=
  let F := if 0 <=? e then round_mag (m * base ^ e * unit_) 1 else round_mag (m * unit_) (base ^ (- e)) in
  if F <? mag_limit then Some (with_sign neg (mag_bits F)) else None.
(** strconv.ParseFloat: special values first, then the sign, the prefix 0x
    (which needs a third character) and the number.  None is an error. *)
Definition parse_float (s : bytes) : option Z :=
  let '(neg, t) := read_sign s in
  if equal_fold t (B "inf") || equal_fold t (B "infinity") then Some (with_sign neg inf_bits)
  else if equal_fold s (B "nan") then Some nan_bits
  else
    let hex := match t with z :: x :: _ :: _ => chr 48 z && chr 120 (lower_ascii x) | _ => false end in
    match read_float hex (if hex then skipn 2 t else t) with
    | Some (m, e) => round_float neg (if hex then 2 else 10) m e
    | None => None
    end.

(** ** Text *)
(** Millionths as a decimal with six fractional digits. *)
Definition pad6 (n : Z) : bytes := let s := fmt_uint 10 n in repeat (ascii_of_nat 48) (6 - length s) ++ s.
Definition micros_text (n : Z) : bytes := fmt_uint 10 (n / 1000000) ++ B "." ++ pad6 (n mod 1000000).
(** The value of a finite pattern in millionths, nearest, halves to even. *)
Definition f_micros (b : Z) : Z := round_even (f_mag b * 1000000) unit_.
(** types.go:557-559 String: FormatFloat(v, 'f', 6, 64) *)
Definition float_string (b : Z) : bytes :=
  if f_abs b <? inf_bits then (if f_neg b then B "-" else []) ++ micros_text (f_micros b)
  else if f_abs b =? inf_bits then if f_neg b then B "-Inf" else B "+Inf"
  else B "NaN".
(** types.go:536-538 MarshalJSON: %f is FormatFloat with precision 6 (fmt calls
    no Stringer for %f) and prints the plus sign of +Inf. *)
Definition float_json : Z -> bytes := float_string.
(** types.go:541-554 UnmarshalJSON *)
Definition float_unjson (old : Z) (data : bytes) : Z * bool :=
  let s := trim [dquote] data in
  if is_empty s || beqb s (B "0") || beqb s (B "NULL") then (0, true)
  else match parse_float s with None => (old, false) | Some f => (f, true) end.

(** ** Scan and Value *)
(** Go's conversion of an integer to float64: nearest, ties to even. *)
Definition int_float (n : Z) : Z := with_sign (n <? 0) (mag_bits (round_mag (Z.abs n * unit_) 1)).
(** float64(f) for a float32 given by its bit pattern: exact; a NaN keeps its
    payload and becomes quiet. *)
Definition widen (b : Z) : Z :=
  let a := b mod 2 ^ 31 in
  with_sign (2 ^ 31 <=? b)
    (if a <? 255 * 2 ^ 23 then let e := Z.max 0 (a / 2 ^ 23 - 1) in mag_bits ((a - e * 2 ^ 23) * 2 ^ e * 2 ^ 925)
     else if a =? 255 * 2 ^ 23 then inf_bits else Z.lor (inf_bits + (a - 255 * 2 ^ 23) * 2 ^ 29) (2 ^ 51)).
(** types.go:567-598 Float.Scan, 601-610 Value.  [v == 0] holds for both zeroes. *)
Definition float_zero (bits : Z) : bool := (bits =? 0) || (bits =? 2 ^ 63).
Definition float_scan (old : Z) (x : goany) : Z * bool :=
  match x with
  | ANil => (old, true)
  | ABytes s => match parse_float s with Some f => (f, true) | None => (old, false) end
  | AUint64 n | AUint n | AInt64 n | AInt n => (int_float n, true)
  | AFloat32 f => (widen f, true)
  | AFloat f => (f, true)
  | _ => (old, false)
  end.
Definition float_value (v : Z) : goany := if float_zero v then ANil else AFloat v.
