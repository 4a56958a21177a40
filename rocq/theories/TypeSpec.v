(** Vocabulary of the value-type theorems. *)
From Verif Require Import GoBase IdModel IdSpec TypeModel.
From Coq Require Import Permutation.
Open Scope Z_scope.

Definition uint32 (z : Z) : Prop := 0 <= z < 2 ^ 32.
Definition int32 (z : Z) : Prop := - 2 ^ 31 <= z < 2 ^ 31.

(** A decimal integer with an optional sign, and its value. *)
Definition int_text (s : bytes) (v : Z) : Prop :=
  (is_dec s /\ v = dec_val s) \/
  (exists r, s = ascii_of_nat 45 :: r /\ is_dec r /\ v = - dec_val r) \/
  (exists r, s = ascii_of_nat 43 :: r /\ is_dec r /\ v = dec_val r).
(** Texts UnmarshalJSON takes for zero. *)
Definition zero_word (s : bytes) : Prop := s = [] \/ s = B "0" \/ s = B "NULL".

(** The integer in a driver value. *)
Definition int_of (x : goany) : option Z :=
  match x with AInt z | AInt64 z | AUint z | AUint64 z => Some z | _ => None end.
(** The value fits its Go type. *)
Definition any_ok (x : goany) : Prop :=
  match x with
  | AInt z | AInt64 z => int64 z
  | AUint z | AUint64 z => uint64 z
  | _ => True
  end.

(** Position of the first hex digit of byte [i] in the text of a UUID in SQL
    Server's mixed byte order. *)
Definition uuid_pos : list nat := [6; 4; 2; 0; 11; 9; 16; 14; 19; 21; 24; 26; 28; 30; 32; 34]%nat.
Definition is_hex_upper (c : ascii) : Prop := (48 <= nat_of_ascii c <= 57)%nat \/ (65 <= nat_of_ascii c <= 70)%nat.

(** A Go map value: keys unique. *)
Definition map_ok {V} (m : gmap V) : Prop := NoDup (map fst (entries m)).
Definition same_map {V} (a b : gmap V) : Prop := forall k, mget a k = mget b k.

(** Strict order of Go strings: first difference, or a proper prefix. *)
Definition str_lt (a b : bytes) : Prop :=
  exists p, (exists c r, b = p ++ c :: r /\ a = p) \/
            (exists c d r s, a = p ++ c :: r /\ b = p ++ d :: s /\ (nat_of_ascii c < nat_of_ascii d)%nat).

(** Fields of one struct type. *)
Definition same_type (a b : field) : Prop :=
  match a, b with
  | FTime _, FTime _ | FId _, FId _ | FNStr _, FNStr _ | FPlain _, FPlain _ => True
  | _, _ => False
  end.
Definition field_zero (f : field) : Prop :=
  match f with FTime t => t = 0 | FId v => id_val v = 0 | FNStr s => s = [] | FPlain z => z = 0 end.
