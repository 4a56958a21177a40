(** GoBase: the fragment of Go's value model and standard library used by the
    model of effective-security/xdb.  Definitions only. *)
From Coq Require Export String Ascii List Arith ZArith Bool Lia.
Export ListNotations.
Open Scope list_scope.
Open Scope Z_scope.

(** A Go string or []byte (Go language: both are sequences of bytes). *)
Definition bytes := list ascii.

(** A literal Go string. *)
Definition B (s : string) : bytes := list_ascii_of_string s.
Arguments B s%string_scope.

Definition ch (n : nat) : ascii := ascii_of_nat n.

(** Byte-string equality (Go ==). *)
Fixpoint beqb (a b : bytes) : bool :=
  match a, b with
  | [], [] => true
  | x :: a', y :: b' => if ascii_dec x y then beqb a' b' else false
  | _, _ => false
  end.

(** s == "" *)
Definition is_empty {A} (l : list A) : bool :=
  match l with [] => true | _ => false end.

(** Dynamic values that the API passes as [any]: driver values, bound
    arguments.  Pointers and other opaque values are identified by a number. *)
Inductive goany : Type :=
| ANil
| AInt (z : Z)        (* int, 64 bit *)
| AInt64 (z : Z)
| AUint (z : Z)
| AUint64 (z : Z)
| AUint32 (z : Z)
| AStr (s : bytes)
| ABytes (s : bytes)
| ABool (b : bool)
| AFloat (n : Z)      (* float64, by its bit pattern *)
| AFloat32 (n : Z)    (* float32, by its bit pattern *)
| ANamed (s : bytes) (v : goany)  (* sql.NamedArg *)
| AOpaque (n : Z).

(** Go integer conversions wrap modulo the width (Go spec, Conversions). *)
Definition wrap_u (w : Z) (z : Z) : Z := z mod 2 ^ w.
Definition wrap_s (w : Z) (z : Z) : Z := (z + 2 ^ (w - 1)) mod 2 ^ w - 2 ^ (w - 1).
Definition u64 := wrap_u 64.
Definition u32 := wrap_u 32.
Definition u16 := wrap_u 16.
Definition i64 := wrap_s 64.
Definition i32 := wrap_s 32.

(** strings.Join *)
Fixpoint join (sep : bytes) (l : list bytes) : bytes :=
  match l with
  | [] => []
  | [x] => x
  | x :: r => x ++ sep ++ join sep r
  end.

(** strings.Trim(s, cutset) for an ASCII cutset. *)
Definition in_set (cs : bytes) (c : ascii) : bool :=
  existsb (fun d => if ascii_dec c d then true else false) cs.
Fixpoint trim_left (cs : bytes) (s : bytes) : bytes :=
  match s with
  | [] => []
  | c :: r => if in_set cs c then trim_left cs r else s
  end.
Definition trim_right (cs : bytes) (s : bytes) : bytes := rev (trim_left cs (rev s)).
Definition trim (cs : bytes) (s : bytes) : bytes := trim_right cs (trim_left cs s).

(** strings.HasPrefix / HasSuffix / Contains *)
Fixpoint has_prefix (p s : bytes) : bool :=
  match p, s with
  | [], _ => true
  | a :: p', b :: s' => if ascii_dec a b then has_prefix p' s' else false
  | _ :: _, [] => false
  end.
Definition has_suffix (p s : bytes) : bool := has_prefix (rev p) (rev s).
Fixpoint contains (sub s : bytes) : bool :=
  has_prefix sub s || match s with [] => false | _ :: r => contains sub r end.

(** strings.Split(s, sep) for a one-byte separator. *)
Fixpoint split_on (c : ascii) (s : bytes) : list bytes :=
  match s with
  | [] => [[]]
  | d :: r =>
      if ascii_dec d c then [] :: split_on c r
      else match split_on c r with
           | [] => [[d]]
           | w :: ws => (d :: w) :: ws
           end
  end.

(** ASCII lower case, for strings.EqualFold on ASCII text. *)
Definition lower_ascii (c : ascii) : ascii :=
  let n := nat_of_ascii c in
  if (andb (Nat.leb 65 n) (Nat.leb n 90))%bool then ascii_of_nat (n + 32) else c.
Definition equal_fold (a b : bytes) : bool := beqb (map lower_ascii a) (map lower_ascii b).

(** Digits of strconv.FormatUint / FormatInt: 0-9 then a-z. *)
Definition digit_char (d : Z) : ascii :=
  if d <? 10 then ascii_of_nat (48 + Z.to_nat d) else ascii_of_nat (87 + Z.to_nat d).

(** strconv.FormatUint(n, base): most significant digit first. *)
Fixpoint fmt_fuel (fuel : nat) (base n : Z) (acc : bytes) : bytes :=
  match fuel with
  | O => acc
  | S f => if n <? base then digit_char n :: acc
           else fmt_fuel f base (n / base) (digit_char (n mod base) :: acc)
  end.
Definition fmt_uint (base n : Z) : bytes :=
  fmt_fuel (S (Z.to_nat (Z.log2 n))) base n [].

(** strconv.FormatInt(n, base), also fmt.Sprintf("%d", n). *)
Definition fmt_int (base n : Z) : bytes :=
  if n <? 0 then ascii_of_nat 45 :: fmt_uint base (- n) else fmt_uint base n.
Definition itoa (n : Z) : bytes := fmt_int 10 n.

(** strconv.ParseUint(s, 10, bits): None stands for a non-nil error (ErrSyntax
    or ErrRange).  The empty string, any byte outside '0'..'9' (no sign, no
    underscore: base is not 0) and values above the maximum are errors. *)
Definition dec_digit (c : ascii) : option Z :=
  let n := Z.of_nat (nat_of_ascii c) in
  if (48 <=? n) && (n <=? 57) then Some (n - 48) else None.
Fixpoint parse_digits (mx acc : Z) (s : bytes) : option Z :=
  match s with
  | [] => Some acc
  | c :: r => match dec_digit c with
              | None => None
              | Some d => let acc' := acc * 10 + d in
                          if mx <? acc' then None else parse_digits mx acc' r
              end
  end.
Definition parse_uint (bits : Z) (s : bytes) : option Z :=
  match s with [] => None | _ => parse_digits (2 ^ bits - 1) 0 s end.

(** strconv.ParseInt(s, 10, bits). *)
Definition parse_int (bits : Z) (s : bytes) : option Z :=
  match s with
  | [] => None
  | c :: r =>
      let neg := if ascii_dec c (ascii_of_nat 45) then true else false in
      let plus := if ascii_dec c (ascii_of_nat 43) then true else false in
      let body := if neg || plus then r else s in
      match parse_uint bits body with
      | None => None
      | Some un =>
          let cutoff := 2 ^ (bits - 1) in
          if negb neg && (cutoff <=? un) then None
          else if neg && (cutoff <? un) then None
          else Some (if neg then - un else un)
      end
  end.

(** Hex byte, upper case, two digits: fmt's %02X of one byte. *)
Definition hex_upper (d : Z) : ascii :=
  if d <? 10 then ascii_of_nat (48 + Z.to_nat d) else ascii_of_nat (55 + Z.to_nat d).
Definition hex_byte (c : ascii) : bytes :=
  let n := Z.of_nat (nat_of_ascii c) in [hex_upper (n / 16); hex_upper (n mod 16)].

(** values.StringsCoalesce (effective-security/x): first non-empty string. *)
Definition strings_coalesce (a b : bytes) : bytes := if is_empty a then b else a.

(** values.NumbersCoalesce: first non-zero number. *)
Definition numbers_coalesce (a b : Z) : Z := if a =? 0 then b else a.
