(** JSON as RFC 8259 defines it, with what Go makes of strings: which texts are JSON
    and which values they stand for.  Nothing here refers to a scanner. *)
From Verif Require Import GoBase GoBaseFacts IdModel TypeModel ParamModel JsonModel JsonSpec.
Open Scope Z_scope.

Definition blank (c : ascii) : Prop := byte c = 32 \/ byte c = 9 \/ byte c = 10 \/ byte c = 13.
Definition blanks (s : bytes) : Prop := Forall blank s.
Definition digit (c : ascii) : Prop := 48 <= byte c <= 57.
Definition digits (s : bytes) : Prop := s <> [] /\ Forall digit s.
(** [ minus ] int [ frac ] [ exp ] *)
Definition is_number (t : bytes) : Prop := exists sg i fr e, t = sg ++ i ++ fr ++ e /\
  (sg = [] \/ sg = B "-") /\
  (i = B "0" \/ exists c d, i = c :: d /\ 49 <= byte c <= 57 /\ Forall digit d) /\
  (fr = [] \/ exists d, fr = B "." ++ d /\ digits d) /\
  (e = [] \/ exists x s d, e = x ++ s ++ d /\ (x = B "e" \/ x = B "E") /\ (s = [] \/ s = B "+" \/ s = B "-") /\ digits d).
(** Four hexadecimal digits and their number. *)
Definition hex (c : ascii) (n : Z) : Prop :=
  48 <= byte c <= 57 /\ n = byte c - 48 \/ 97 <= byte c <= 102 /\ n = byte c - 87 \/ 65 <= byte c <= 70 /\ n = byte c - 55.
Definition hex4 (s : bytes) (n : Z) : Prop :=
  exists a b c d w x y z, s = [a; b; c; d] /\ hex a w /\ hex b x /\ hex c y /\ hex d z /\ n = w * 4096 + x * 256 + y * 16 + z.
Definition escape (c : ascii) (n : Z) : Prop :=
  In (c, n) [(dquote, 34); (ascii_of_nat 92, 92); (ascii_of_nat 47, 47); (ascii_of_nat 98, 8); (ascii_of_nat 102, 12); (ascii_of_nat 110, 10); (ascii_of_nat 114, 13); (ascii_of_nat 116, 9)].
Definition high (u : Z) : Prop := 55296 <= u < 56320.
Definition low (u : Z) : Prop := 56320 <= u < 57344.
Definition joined (u v : Z) : Z := 65536 + (u - 55296) * 1024 + (v - 56320).
Definition uxxxx (h : bytes) : bytes := B "\u" ++ h.
(** What is between the quotes of a string, and the string.  A byte that does not
    begin the UTF-8 of a character and half of a surrogate joined become U+FFFD. *)
Inductive chars : bytes -> bytes -> Prop :=
| ch_none : chars [] []
| ch_char r s x : scalar r -> 32 <= r -> r <> 34 -> r <> 92 -> chars s x -> chars (utf8_enc r ++ s) (utf8_enc r ++ x)
| ch_bad c s x : 128 <= byte c -> (forall r t, scalar r -> c :: s <> utf8_enc r ++ t) -> chars s x -> chars (c :: s) (replacement ++ x)
| ch_escape c n s x : escape c n -> chars s x -> chars (ascii_of_nat 92 :: c :: s) (zb n :: x)
| ch_unicode h u s x : hex4 h u -> ~ high u -> ~ low u -> chars s x -> chars (uxxxx h ++ s) (utf8_enc u ++ x)
| ch_pair h u h' v s x : hex4 h u -> high u -> hex4 h' v -> low v -> chars s x -> chars (uxxxx h ++ uxxxx h' ++ s) (utf8_enc (joined u v) ++ x)
| ch_half h u s x : hex4 h u -> high u \/ low u -> (high u -> forall h' v t, hex4 h' v -> low v -> s <> uxxxx h' ++ t) -> chars s x -> chars (uxxxx h ++ s) (replacement ++ x).
Definition is_string (t s : bytes) : Prop := exists b, t = [dquote] ++ b ++ [dquote] /\ chars b s.
(** Values; the elements and members are what is between the brackets. *)
Inductive is_value : bytes -> json -> Prop :=
| v_null : is_value (B "null") JNull
| v_true : is_value (B "true") (JBool true)
| v_false : is_value (B "false") (JBool false)
| v_number t : is_number t -> is_value t (JNum t)
| v_string t s : is_string t s -> is_value t (JStr s)
| v_no_elements w : blanks w -> is_value (B "[" ++ w ++ B "]") (JArr [])
| v_array s l : is_elements s l -> is_value (B "[" ++ s ++ B "]") (JArr l)
| v_no_members w : blanks w -> is_value (B "{" ++ w ++ B "}") (JObj [])
| v_object s l : is_members s l -> is_value (B "{" ++ s ++ B "}") (JObj l)
with is_elements : bytes -> list json -> Prop :=
| e_last a t b v : blanks a -> is_value t v -> blanks b -> is_elements (a ++ t ++ b) [v]
| e_more a t b v s l : blanks a -> is_value t v -> blanks b -> is_elements s l -> is_elements (a ++ t ++ b ++ B "," ++ s) (v :: l)
with is_members : bytes -> list (bytes * json) -> Prop :=
| m_last a k n b a' t b' v : blanks a -> is_string k n -> blanks b -> blanks a' -> is_value t v -> blanks b' -> is_members (a ++ k ++ b ++ B ":" ++ a' ++ t ++ b') [(n, v)]
| m_more a k n b a' t b' v s l : blanks a -> is_string k n -> blanks b -> blanks a' -> is_value t v -> blanks b' -> is_members s l ->
    is_members (a ++ k ++ b ++ B ":" ++ a' ++ t ++ b' ++ B "," ++ s) ((n, v) :: l).
Definition document (t : bytes) (v : json) : Prop := exists a s b, t = a ++ s ++ b /\ blanks a /\ is_value s v /\ blanks b.
