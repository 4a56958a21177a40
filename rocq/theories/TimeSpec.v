(** Vocabulary of the Time theorems. *)
From Verif Require Import GoBase TimeModel.
Open Scope Z_scope.

Definition int64 (z : Z) : Prop := - 2 ^ 63 <= z < 2 ^ 63.
Definition time_ok (t : gtime) : Prop := 0 <= t_nsec t < 1000000000.
(** The Gregorian calendar: the day after a day. *)
Definition month_len (y m : Z) : Z :=
  if m =? 2 then (if (y mod 4 =? 0) && (negb (y mod 100 =? 0) || (y mod 400 =? 0)) then 29 else 28)
  else if (m =? 4) || (m =? 6) || (m =? 9) || (m =? 11) then 30 else 31.
Definition next_day (x : Z * Z * Z) : Z * Z * Z :=
  let '(y, m, d) := x in
  if d <? month_len y m then (y, m, d + 1) else if m <? 12 then (y, m + 1, 1) else (y + 1, 1, 1).
Definition valid_day (y m d : Z) : Prop := 1 <= m <= 12 /\ 1 <= d <= month_len y m.
(** Milliseconds: the largest multiple of a millisecond not after [n] ns. *)
Definition floor_ms (n : Z) : Z := n / 1000000 * 1000000.
(** Two decimal digits. *)
Definition two (n : Z) : bytes := [digit_char (n / 10); digit_char (n mod 10)].
Definition date_text (y m d : Z) : bytes := two (y / 100) ++ two (y mod 100) ++ B "-" ++ two m ++ B "-" ++ two d.
Definition clock_text (h mi s : Z) : bytes := two h ++ B ":" ++ two mi ++ B ":" ++ two s.

(** The proleptic Gregorian calendar: day 0 is 1 January of year 1, and each
    day is followed by [next_day]. *)
Inductive gregorian : Z -> Z * Z * Z -> Prop :=
  | gr_first : gregorian 0 (1, 1, 1)
  | gr_next n x : gregorian n x -> gregorian (n + 1) (next_day x)
  | gr_prev n x : (let '(y, m, d) := x in valid_day y m d) -> gregorian (n + 1) (next_day x) -> gregorian n x.
(** Milliseconds after the seconds, without trailing zeros. *)
Definition ms_text (ms : Z) : bytes :=
  if ms =? 0 then []
  else if ms mod 100 =? 0 then B "." ++ [digit_char (ms / 100)]
  else if ms mod 10 =? 0 then B "." ++ two (ms / 10)
  else B "." ++ [digit_char (ms / 100)] ++ two (ms mod 100).

(** Blanks of JSON, and a value between blanks. *)
Definition blanks (s : bytes) : Prop := forall c, In c s -> In c [ascii_of_nat 32; ascii_of_nat 9; ascii_of_nat 13; ascii_of_nat 10].
Definition padded (v data : bytes) : Prop := exists a b, blanks a /\ blanks b /\ data = a ++ v ++ b.
