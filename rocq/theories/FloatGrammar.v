(** The texts strconv.ParseFloat accepts (Go's floating-point literals with an
    optional sign, infinities and NaN) and the numbers they denote, written
    down independently of the model's scanner. *)
From Verif Require Import GoBase IdSpec FloatSpec.
Open Scope Z_scope.

(** A digit of the mantissa: decimal, or hexadecimal in either case. *)
Definition hex_letter (c : ascii) : Prop := In c (B "abcdefABCDEF").
Definition mant_digit (hex : bool) (c : ascii) : Prop := is_digit c \/ (hex = true /\ hex_letter c).
(** 0-9, then a-f and A-F as 10-15. *)
Definition digit_value (c : ascii) : Z :=
  let n := Z.of_nat (nat_of_ascii c) in if n <? 58 then n - 48 else if n <? 97 then n - 55 else n - 87.
Definition mant_val (hex : bool) (ds : bytes) : Z :=
  fold_left (fun a c => (if hex then 16 else 10) * a + digit_value c) ds 0.
(** The fraction: nothing, or a point and any number of digits. *)
Inductive frac_part (hex : bool) : bytes -> bytes -> Prop :=
| fp_none : frac_part hex [] []
| fp_dot fp : Forall (mant_digit hex) fp -> frac_part hex (B "." ++ fp) fp.
(** The exponent, always in decimal: optional after e or E, mandatory after p
    or P in a hexadecimal literal. *)
Inductive exp_part : bool -> bytes -> Z -> Prop :=
| ep_none : exp_part false [] 0
| ep_exp (hex : bool) c t neg ds : In c (if hex then B "pP" else B "eE") -> sign_text t neg -> is_dec ds -> exp_part hex (c :: t ++ ds) (signed neg (dec_val ds)).
(** A literal without sign, prefix and underscores. *)
Definition plain (hex : bool) (s ip fp : bytes) (x : Z) : Prop :=
  exists fr ex, s = ip ++ fr ++ ex /\ Forall (mant_digit hex) ip /\ frac_part hex fr fp /\ ip ++ fp <> [] /\ exp_part hex ex x.
(** Underscores separate digits: there is a digit (or the prefix) before each of
    them and a digit after it. *)
Definition underscore : ascii := ascii_of_nat 95.
Definition separated (hex : bool) (s : bytes) : Prop :=
  forall a b, s = a ++ underscore :: b ->
    ((hex = true /\ a = []) \/ exists a' c, a = a' ++ [c] /\ mant_digit hex c) /\ exists c b', b = c :: b' /\ mant_digit hex c.
Definition without_underscores (s : bytes) : bytes := filter (fun c => negb (Ascii.eqb c underscore)) s.
(** The prefix of a hexadecimal literal. *)
Definition prefix_text (hex : bool) (p : bytes) : Prop := if hex then p = B "0x" \/ p = B "0X" else p = [].
(** [s] is a literal. *)
Definition literal (s : bytes) (neg hex : bool) (ip fp : bytes) (x : Z) : Prop :=
  exists t p u, s = t ++ p ++ u /\ sign_text t neg /\ prefix_text hex p /\ separated hex u /\ plain hex (without_underscores u) ip fp x.
(** The number it denotes is num/den with the sign [neg]: mantissa times 10 to
    the exponent, or mantissa times 2 to the exponent in hexadecimal. *)
Definition lit_num (hex : bool) (ip fp : bytes) (x : Z) : Z := mant_val hex (ip ++ fp) * (if hex then 2 else 10) ^ Z.max 0 x.
Definition lit_den (hex : bool) (fp : bytes) (x : Z) : Z :=
  (if hex then 16 else 10) ^ Z.of_nat (length fp) * (if hex then 2 else 10) ^ Z.max 0 (- x).
(** A word in any mixture of cases ([w] is in lower case). *)
Definition spelled (w s : bytes) : Prop := Forall2 (fun c l => c = l \/ (nat_of_ascii c + 32 = nat_of_ascii l)%nat) s w.
Definition infinity_text (s : bytes) (neg : bool) : Prop :=
  exists t u, s = t ++ u /\ sign_text t neg /\ (spelled (B "inf") u \/ spelled (B "infinity") u).
Definition nan_text (s : bytes) : Prop := spelled (B "nan") s.
(** What ParseFloat takes for a number. *)
Definition float_text (s : bytes) : Prop :=
  (exists neg hex ip fp x, literal s neg hex ip fp x) \/ (exists neg, infinity_text s neg) \/ nan_text s.
