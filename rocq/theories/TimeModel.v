(** Model of /repo/time.go on top of Go's time package.
    A Time is the instant in UTC: seconds since 0001-01-01T00:00:00Z and
    nanoseconds in [0, 10^9).  Time zones other than UTC only occur in parsed
    text (the code converts to UTC); monotonic clock readings are not modelled.
    Seconds are mathematical integers: overflow of Go's int64 seconds (years
    beyond 10^11) is not modelled. *)
From Verif Require Import GoBase IdModel.
Open Scope Z_scope.

Record gtime := mkTime { t_sec : Z; t_nsec : Z }.
Definition zero_time : gtime := mkTime 0 0.
Definition nano : Z := 1000000000.
(** Nanoseconds since the zero time, and back. *)
Definition ns_of (t : gtime) : Z := t_sec t * nano + t_nsec t.
Definition of_ns (n : Z) : gtime := mkTime (n / nano) (n mod nano).
(** unixToInternal: seconds from year 1 to 1970. *)
Definition unix_epoch : Z := 62135596800.

(** time.Unix(sec, nsec): nsec may be outside [0, 10^9) (Go: the two ifs of
    time.Unix). *)
Definition time_unix (sec nsec : Z) : gtime :=
  let '(s, n) := if (nsec <? 0) || (nano <=? nsec)
                 then let k := Z.quot nsec nano in
                      let s := sec + k in let n := nsec - k * nano in
                      if n <? 0 then (s - 1, n + nano) else (s, n)
                 else (sec, nsec) in
  mkTime (s + unix_epoch) n.
(** time.go:99-101 UnixMilli; (time.Time).UnixMilli wraps in int64. *)
Definition unix_milli (t : gtime) : Z := i64 ((t_sec t - unix_epoch) * 1000 + t_nsec t / 1000000).
(** (time.Time).Add *)
Definition time_add (t : gtime) (d : Z) : gtime :=
  let s := t_sec t + Z.quot d nano in let n := t_nsec t + Z.rem d nano in
  if nano <=? n then mkTime (s + 1) (n - nano) else if n <? 0 then mkTime (s - 1) (n + nano) else mkTime s n.
(** (time.Time).Truncate(time.Millisecond): t.Add(-r), r the remainder since
    the zero time; a millisecond divides a second, so r = nsec mod 10^6. *)
Definition trunc_ms (t : gtime) : gtime := time_add t (- (t_nsec t mod 1000000)).
(** (time.Time).IsZero *)
Definition is_zero (t : gtime) : bool := (t_sec t =? 0) && (t_nsec t =? 0).

(** ** Calendar: Go's absDate and Date *)
Definition is_leap (y : Z) : bool := (y mod 4 =? 0) && (negb (y mod 100 =? 0) || (y mod 400 =? 0)).
(** time.daysBefore *)
Definition days_before (m : Z) : Z := nth (Z.to_nat m) [0; 31; 59; 90; 120; 151; 181; 212; 243; 273; 304; 334; 365] 0.
(** time.absDate: [d] days since 0001-01-01 to (year, month, day). *)
Definition month_day (leap : bool) (yday : Z) : Z * Z :=
  if leap && (yday =? 59) then (2, 29)
  else let d := if leap && (59 <? yday) then yday - 1 else yday in
       let m := d / 31 in
       let e := days_before (m + 1) in
       if e <=? d then (m + 2, d - e + 1) else (m + 1, d - days_before m + 1).
Definition civil (d : Z) : Z * Z * Z :=
  let n400 := d / 146097 in let d := d - 146097 * n400 in
  let n100 := d / 36524 in let n100 := n100 - n100 / 4 in let d := d - 36524 * n100 in
  let n4 := d / 1461 in let d := d - 1461 * n4 in
  let n1 := d / 365 in let n1 := n1 - n1 / 4 in let d := d - 365 * n1 in
  let y := 400 * n400 + 100 * n100 + 4 * n4 + n1 + 1 in
  let '(m, dd) := month_day (is_leap y) d in (y, m, dd).
(** time.Date for a day of the calendar: days since 0001-01-01. *)
Definition days_of (y m d : Z) : Z :=
  let y0 := y - 1 in
  let n400 := y0 / 400 in let y0 := y0 - 400 * n400 in
  let n100 := y0 / 100 in let y0 := y0 - 100 * n100 in
  let n4 := y0 / 4 in let n1 := y0 - 4 * n4 in
  146097 * n400 + 36524 * n100 + 1461 * n4 + 365 * n1 + days_before (m - 1) + (if is_leap y && (3 <=? m) then 1 else 0) + (d - 1).
(** time.daysIn *)
Definition days_in (m y : Z) : Z := if (m =? 2) && is_leap y then 29 else days_before m - days_before (m - 1).

(** ** Format *)
(** time.appendInt(b, n, width) for n >= 0 *)
Definition pad (w : nat) (n : Z) : bytes := let s := fmt_uint 10 n in repeat (ascii_of_nat 48) (w - length s) ++ s.
(** A year: negative years get a sign. *)
Definition fmt_year (y : Z) : bytes := if y <? 0 then ascii_of_nat 45 :: pad 4 (- y) else pad 4 y.
(** time.appendNano for .999...: [k] digits of the fraction, trailing zeros
    removed, nothing if none is left. *)
Fixpoint strip_zeros (s : bytes) : bytes :=
  match s with c :: r => if ascii_dec c (ascii_of_nat 48) then strip_zeros r else s | [] => [] end.
Definition fmt_frac (k : nat) (nsec : Z) : bytes :=
  let s := rev (strip_zeros (rev (firstn k (pad 9 nsec)))) in
  if is_empty s then [] else ascii_of_nat 46 :: s.
(** (time.Time).Format of a UTC time with layout 2006-01-02T15:04:05.9..9Z07:00
    having [k] fraction digits (3: DefaultTimeFormat, time.go:14; 9: RFC3339Nano). *)
Definition fmt_date (d : Z) : bytes := let '(y, m, dd) := civil d in fmt_year y ++ B "-" ++ pad 2 m ++ B "-" ++ pad 2 dd.
Definition fmt_clock (s : Z) : bytes := pad 2 (s / 3600) ++ B ":" ++ pad 2 (s / 60 mod 60) ++ B ":" ++ pad 2 (s mod 60).
Definition time_format (k : nat) (t : gtime) : bytes :=
  fmt_date (t_sec t / 86400) ++ B "T" ++ fmt_clock (t_sec t mod 86400) ++ fmt_frac k (t_nsec t) ++ B "Z".

(** ** time.Parse *)
(** time.getnum: two digits, or one when not [fixed]. *)
Definition getnum (fixed : bool) (s : bytes) : option (Z * bytes) :=
  match s with
  | a :: r => match dec_digit a with
              | None => None
              | Some x => match r with
                          | b :: r' => match dec_digit b with
                                       | Some y => Some (x * 10 + y, r')
                                       | None => if fixed then None else Some (x, r)
                                       end
                          | [] => if fixed then None else Some (x, r)
                          end
              end
  | [] => None
  end.
(** A literal of the layout. *)
Definition lit (c : ascii) (s : bytes) : option bytes :=
  match s with d :: r => if ascii_dec d c then Some r else None | [] => None end.
(** A blank of the layout: time.skip takes a run of blanks for it; nothing is
    left to skip at the end of the text. *)
Definition skip_blank (s : bytes) : option bytes :=
  match s with [] => Some [] | c :: _ => if ascii_dec c (ascii_of_nat 32) then Some (trim_left [ascii_of_nat 32] s) else None end.
Definition ranged (lo hi : Z) (x : option (Z * bytes)) : option (Z * bytes) :=
  match x with Some (v, r) => if (lo <=? v) && (v <=? hi) then Some (v, r) else None | None => None end.
(** stdLongYear: four digits. *)
Definition get_year (s : bytes) : option (Z * bytes) :=
  match getnum true s with
  | Some (a, r) => match getnum true r with Some (b, r') => Some (a * 100 + b, r') | None => None end
  | None => None
  end.
Notation "'let*' x := a 'in' b" := (match a with Some x => b | None => None end) (at level 200, x pattern, a at level 100, b at level 200).
(** 2006-01-02, as days since year 1; the day must exist. *)
Definition get_date (s : bytes) : option (Z * bytes) :=
  let* (y, s) := get_year s in let* s := lit (ascii_of_nat 45) s in
  let* (m, s) := ranged 1 12 (getnum true s) in let* s := lit (ascii_of_nat 45) s in
  let* (d, s) := getnum true s in
  if (1 <=? d) && (d <=? days_in m y) then Some (days_of y m d, s) else None.
(** 15:04:05, in seconds; the hour may have one digit. *)
Definition get_clock (s : bytes) : option (Z * bytes) :=
  let* (h, s) := ranged 0 23 (getnum false s) in let* s := lit (ascii_of_nat 58) s in
  let* (mi, s) := ranged 0 59 (getnum true s) in let* s := lit (ascii_of_nat 58) s in
  let* (se, s) := ranged 0 59 (getnum true s) in Some (h * 3600 + mi * 60 + se, s).
(** A fraction, if present: '.' or ',' and digits, nine of which count
    (parseNanoseconds); time.Parse accepts it after the seconds whether or not
    the layout has one. *)
Fixpoint take_digits (s : bytes) : list Z * bytes :=
  match s with
  | c :: r => match dec_digit c with Some d => let '(l, t) := take_digits r in (d :: l, t) | None => ([], s) end
  | [] => ([], [])
  end.
Fixpoint nanos (k : nat) (l : list Z) : Z :=
  match k with O => 0 | S k' => match l with [] => 0 | d :: r => d * 10 ^ Z.of_nat k' + nanos k' r end end.
Definition get_frac (s : bytes) : Z * bytes :=
  match s with
  | c :: r => if (if ascii_dec c (ascii_of_nat 46) then true else if ascii_dec c (ascii_of_nat 44) then true else false)
              then match take_digits r with ([], _) => (0, s) | (l, t) => (nanos 9 l, t) end
              else (0, s)
  | [] => (0, s)
  end.
(** Z07:00: Z or a signed offset, in seconds. *)
Definition get_zone (s : bytes) : option (Z * bytes) :=
  match s with
  | c :: r =>
      if ascii_dec c (ascii_of_nat 90) then Some (0, r)
      else let* (h, r) := ranged 0 24 (getnum true r) in let* r := lit (ascii_of_nat 58) r in
           let* (m, r) := ranged 0 60 (getnum true r) in
           if ascii_dec c (ascii_of_nat 43) then Some ((h * 60 + m) * 60, r)
           else if ascii_dec c (ascii_of_nat 45) then Some (- ((h * 60 + m) * 60), r) else None
  | [] => None
  end.
Definition finished (x : option (Z * Z * bytes)) : option gtime :=
  match x with Some (s, n, []) => Some (mkTime s n) | _ => None end.
(** time.Parse with RFC3339, RFC3339Nano or DefaultTimeFormat (they accept the
    same texts), then UTC. *)
Definition parse_rfc3339 (s : bytes) : option gtime :=
  finished (let* (d, s) := get_date s in let* s := lit (ascii_of_nat 84) s in let* (c, s) := get_clock s in
            let '(n, s) := get_frac s in let* (z, s) := get_zone s in Some (d * 86400 + c - z, n, s)).
(** time.Parse with time.DateTime and time.DateOnly *)
Definition parse_datetime (s : bytes) : option gtime :=
  finished (let* (d, s) := get_date s in let* s := skip_blank s in let* (c, s) := get_clock s in
            let '(n, s) := get_frac s in Some (d * 86400 + c, n, s)).
Definition parse_dateonly (s : bytes) : option gtime :=
  finished (let* (d, s) := get_date s in Some (d * 86400, 0, s)).

(** ** time.go *)
(** time.go:77-96 ParseTime: a failed Parse returns the zero time and the error
    is dropped. *)
Definition parse_time (val : bytes) : gtime :=
  if is_empty val then zero_time
  else let r := match length val with
                | 19%nat => parse_datetime val
                | 10%nat => parse_dateonly val
                | _ => parse_rfc3339 val
                end in
       trunc_ms (match r with Some t => t | None => zero_time end).
(** time.go:59-61 UTC(t); Now and FromNow (54-67) apply it to a clock reading. *)
Definition time_utc (t : gtime) : gtime := trunc_ms t.
(** time.go:70-74 FromUnixMilli *)
Definition from_unix_milli (tm : Z) : gtime := time_unix (Z.quot tm 1000) (Z.rem tm 1000 * 1000000).
(** time.go:105-107 (Time).Add *)
Definition xtime_add (t : gtime) (d : Z) : gtime := trunc_ms (time_add t d).
(** time.go:135-141 (Time).String *)
Definition time_string (t : gtime) : bytes := if is_zero t then [] else time_format 3 t.

(** Driver values for Time: a string, a time, NULL, anything else. *)
Inductive tany := TNil | TStr (s : bytes) | TTime (t : gtime) | TOther.
(** time.go:24-42 Scan (sql.NullTime.Scan takes NULL and time.Time) *)
Definition time_scan (old : gtime) (x : tany) : gtime * bool :=
  match x with
  | TStr s => (parse_time s, true)
  | TNil => (zero_time, true)
  | TTime t => (t, true)
  | TOther => (old, false)
  end.
(** time.go:45-51 Value *)
Definition time_value (t : gtime) : tany := if is_zero t then TNil else TTime t.

(** time.go:145-151 MarshalJSON; (time.Time).MarshalJSON fails for years
    outside 0..9999. *)
Definition year_of (t : gtime) : Z := let '(y, _, _) := civil (t_sec t / 86400) in y.
Definition time_json (t : gtime) : option bytes :=
  if is_zero t then Some [dquote; dquote]
  else if (0 <=? year_of t) && (year_of t <=? 9999) then Some ([dquote] ++ time_format 9 t ++ [dquote]) else None.
(** time.go:155-161 UnmarshalJSON: empty, null (kept), or a quoted RFC 3339
    time.  json.Unmarshal refuses what is not JSON and drops blanks around the
    value; (time.Time).UnmarshalJSON refuses what is not a string, does not undo
    the escapes of the string, and stores the zero time when parsing fails (its
    stricter checks of the text, go.dev/issue/54580, are switched off in Go). *)
Definition json_blanks : bytes := [ascii_of_nat 32; ascii_of_nat 9; ascii_of_nat 13; ascii_of_nat 10].
Definition is_hex (c : ascii) : bool :=
  let n := nat_of_ascii c in ((48 <=? n) && (n <=? 57) || (65 <=? n) && (n <=? 70) || (97 <=? n) && (n <=? 102))%nat.
(** What follows the opening quote of a JSON string that ends with the text. *)
Fixpoint json_tail (s : bytes) : bool :=
  match s with
  | [] => false
  | c :: r =>
      if ascii_dec c dquote then is_empty r
      else if ascii_dec c (ascii_of_nat 92) then
        match r with
        | e :: r' => if in_set (dquote :: ascii_of_nat 92 :: B "/bfnrt") e then json_tail r'
                     else if ascii_dec e (ascii_of_nat 117)
                     then match r' with h1 :: h2 :: h3 :: h4 :: r'' => is_hex h1 && is_hex h2 && is_hex h3 && is_hex h4 && json_tail r'' | _ => false end
                     else false
        | [] => false
        end
      else (32 <=? nat_of_ascii c)%nat && json_tail r
  end.
Definition unquote (s : bytes) : option bytes :=
  match s with
  | c :: r => if ascii_dec c dquote then if json_tail r then Some (removelast r) else None else None
  | [] => None
  end.
Definition time_unjson (old : gtime) (data : bytes) : gtime * bool :=
  if is_empty data || beqb data [dquote; dquote] then (zero_time, true)
  else let v := trim json_blanks data in
       if beqb v (B "null") then (old, true)
       else match unquote v with
            | Some s => match parse_rfc3339 s with Some t => (t, true) | None => (zero_time, false) end
            | None => (old, false)
            end.
