(** Vocabulary of the Float theorems, independent of the model's functions. *)
From Verif Require Import GoBase IdModel IdSpec.
Open Scope Z_scope.

(** ** IEEE 754 binary64 *)
(** A bit pattern: sign, 11 bits of exponent, 52 bits of fraction. *)
Definition pattern (b : Z) : Prop := 0 <= b < 2 ^ 64.
Definition negative (b : Z) : Prop := 2 ^ 63 <= b.
Definition exponent (b : Z) : Z := (b / 2 ^ 52) mod 2 ^ 11.
Definition fraction (b : Z) : Z := b mod 2 ^ 52.
Definition finite (b : Z) : Prop := pattern b /\ exponent b < 2047.
Definition infinite (b : Z) : Prop := pattern b /\ exponent b = 2047 /\ fraction b = 0.
Definition nan (b : Z) : Prop := pattern b /\ exponent b = 2047 /\ fraction b <> 0.
(** The number a finite pattern stands for is [value b * 2^-1074]. *)
Definition magnitude (b : Z) : Z :=
  if exponent b =? 0 then fraction b else (2 ^ 52 + fraction b) * 2 ^ (exponent b - 1).
Definition value (b : Z) : Z := if 2 ^ 63 <=? b then - magnitude b else magnitude b.
(** Distance of the number of [b] to p/q, times 2^1074 * q. *)
Definition dist (p q b : Z) : Z := Z.abs (q * value b - p * 2 ^ 1074).
(** [b] is the float64 nearest to p/q, ties to even; a zero has the sign [neg]. *)
Definition nearest (neg : bool) (p q b : Z) : Prop :=
  finite b /\ (2 ^ 63 <=? b) = neg /\
  forall c, finite c -> dist p q b <= dist p q c /\ (dist p q b = dist p q c -> value c <> value b -> Z.even b = true).
(** |p/q| is beyond the largest float64 and half a place: 2^1024 - 2^970. *)
Definition too_large (p q : Z) : Prop := q * (2 ^ 1024 - 2 ^ 970) <= Z.abs p.
Definition signed (neg : bool) (p : Z) : Z := if neg then - p else p.

(** ** Decimal texts *)
Inductive sign_text : bytes -> bool -> Prop :=
| st_none : sign_text [] false | st_plus : sign_text (B "+") false | st_minus : sign_text (B "-") true.
Inductive frac_text : bytes -> bytes -> Prop :=
| ft_none : frac_text [] []
| ft_dot fp : Forall is_digit fp -> frac_text (B "." ++ fp) fp.
Inductive exp_text : bytes -> Z -> Prop :=
| et_none : exp_text [] 0
| et_exp c t neg ds : In c (B "eE") -> sign_text t neg -> is_dec ds -> exp_text (c :: t ++ ds) (signed neg (dec_val ds)).
(** [s] is a decimal literal: sign, integer digits [ip], fraction digits [fp]
    (at least one digit), exponent [x]. *)
Definition decimal (s : bytes) (neg : bool) (ip fp : bytes) (x : Z) : Prop :=
  exists t fr ex, s = t ++ ip ++ fr ++ ex /\ sign_text t neg /\ Forall is_digit ip /\ frac_text fr fp /\ ip ++ fp <> [] /\ exp_text ex x.
(** The number it denotes is p/q with the sign [neg]. *)
Definition dec_num (ip fp : bytes) (x : Z) : Z := dec_val (ip ++ fp) * 10 ^ Z.max 0 x.
Definition dec_den (fp : bytes) (x : Z) : Z := 10 ^ (Z.of_nat (length fp) + Z.max 0 (- x)).

(** ** IEEE 754 binary32, the number is [value32 b * 2^-149] *)
Definition exponent32 (b : Z) : Z := (b / 2 ^ 23) mod 2 ^ 8.
Definition fraction32 (b : Z) : Z := b mod 2 ^ 23.
Definition magnitude32 (b : Z) : Z :=
  if exponent32 b =? 0 then fraction32 b else (2 ^ 23 + fraction32 b) * 2 ^ (exponent32 b - 1).
Definition value32 (b : Z) : Z := if 2 ^ 31 <=? b then - magnitude32 b else magnitude32 b.

(** ** JSON numbers (RFC 8259 section 6), without exponent *)
Definition json_number (s : bytes) : Prop :=
  exists t ip fr fp, s = t ++ ip ++ fr /\ (t = [] \/ t = B "-") /\ canonical ip (dec_val ip) /\ frac_text fr fp /\ (fr <> [] -> fp <> []).
