(** Model of /repo/time.go that keeps the time zone of a Time: what TimeModel drops.
    A time.Time is an instant and a location; the location is UTC or another one,
    of which only the offset at that instant matters (seconds east of UTC).  Go's
    == compares the instant and the location, so two records are equal exactly
    when the Go values are ==, up to names of locations and monotonic readings. *)
From Verif Require Import GoBase IdModel TimeModel.
Open Scope Z_scope.

Record ztime := mkZ { zt : gtime; zo : option Z }.   (* None: UTC *)
Definition zzero : ztime := mkZ zero_time None.
(** (time.Time).UTC; time.go:110-112 *)
Definition z_utc (z : ztime) : ztime := mkZ (zt z) None.
Definition z_off (z : ztime) : Z := match zo z with None => 0 | Some o => o end.
(** (time.Time).Truncate(time.Millisecond), Add, IsZero: the location is kept *)
Definition z_trunc (z : ztime) : ztime := mkZ (trunc_ms (zt z)) (zo z).
Definition z_add (z : ztime) (d : Z) : ztime := mkZ (time_add (zt z) d) (zo z).
Definition z_is_zero (z : ztime) : bool := is_zero (zt z).
(** The offset of layout Z07:00 *)
Definition fmt_zone (off : Z) : bytes :=
  if off =? 0 then B "Z"
  else let m := Z.quot off 60 in
       (if m <? 0 then B "-" else B "+") ++ pad 2 (Z.abs m / 60) ++ B ":" ++ pad 2 (Z.abs m mod 60).
(** (time.Time).Format in the location of the time *)
Definition z_format (k : nat) (z : ztime) : bytes :=
  let s := t_sec (zt z) + z_off z in
  fmt_date (s / 86400) ++ B "T" ++ fmt_clock (s mod 86400) ++ fmt_frac k (t_nsec (zt z)) ++ fmt_zone (z_off z).
Definition z_year (z : ztime) : Z := let '(y, _, _) := civil ((t_sec (zt z) + z_off z) / 86400) in y.

(** time.go:59-61 UTC, 54-56 Now and 64-67 FromNow of a clock reading *)
Definition zx_utc (z : ztime) : ztime := z_utc (z_trunc z).
Definition zx_now (clock : ztime) : ztime := z_utc (z_trunc clock).
Definition zx_from_now (clock : ztime) (d : Z) : ztime := z_utc (z_trunc (z_add clock d)).
(** time.go:70-74 FromUnixMilli: time.Unix is in the local zone, of offset [local] *)
Definition zx_from_unix_milli (local : option Z) (tm : Z) : ztime := z_utc (mkZ (from_unix_milli tm) local).
(** time.go:105-107 Add *)
Definition zx_add (z : ztime) (d : Z) : ztime := z_utc (z_trunc (z_add z d)).
(** time.go:125-131 Ptr, types.go:96-102 TimePtr (which does not convert) *)
Definition zx_ptr (z : ztime) : option ztime := let t := z_utc z in if z_is_zero t then None else Some t.
Definition zx_timeptr (z : ztime) : option ztime := if z_is_zero z then None else Some z.
(** time.go:135-141 String *)
Definition zx_string (z : ztime) : bytes := let t := z_utc z in if z_is_zero t then [] else z_format 3 t.
(** time.go:145-151 MarshalJSON; time.Time's refuses years outside 0..9999 and
    offsets of 24 hours or more *)
Definition zx_json (z : ztime) : option bytes :=
  let t := z_utc z in
  if z_is_zero t then Some [dquote; dquote]
  else if (0 <=? z_year t) && (z_year t <=? 9999) && (Z.abs (z_off t) <? 86400) then Some ([dquote] ++ z_format 9 t ++ [dquote]) else None.
(** time.go:45-51 Value; 24-42 Scan *)
Inductive ztany := ZNil | ZStr (s : bytes) | ZTime (z : ztime) | ZOther.
Definition zx_value (z : ztime) : ztany := if z_is_zero z then ZNil else ZTime (z_utc z).
(** time.Parse: the zone read from the text; time.go:77-96 ParseTime *)
Definition z_zone (s : bytes) : option Z :=
  match get_zone s with
  | Some (o, _) => match s with c :: _ => if ascii_dec c (ascii_of_nat 90) then None else Some o | [] => None end
  | None => None
  end.
Definition z_parse_rfc3339 (s : bytes) : option ztime :=
  match parse_rfc3339 s with
  | None => None
  | Some t => Some (mkZ t (match (let* (d, s) := get_date s in let* s := lit (ascii_of_nat 84) s in let* (c, s) := get_clock s in Some (snd (get_frac s))) with
                           | Some z => z_zone z | None => None end))
  end.
Definition zx_parse_time (val : bytes) : ztime :=
  if is_empty val then zzero
  else let r := match length val with
                | 19%nat => match parse_datetime val with Some t => Some (mkZ t None) | None => None end
                | 10%nat => match parse_dateonly val with Some t => Some (mkZ t None) | None => None end
                | _ => z_parse_rfc3339 val
                end in
       z_utc (z_trunc (match r with Some t => t | None => zzero end)).
Definition zx_scan (old : ztime) (x : ztany) : ztime * bool :=
  match x with
  | ZStr s => (zx_parse_time s, true)
  | ZNil => (zzero, true)
  | ZTime z => (z_utc z, true)
  | ZOther => (old, false)
  end.
(** time.go:155-161 UnmarshalJSON: the parsed time is stored as it is *)
Definition zx_unjson (old : ztime) (data : bytes) : ztime * bool :=
  if is_empty data || beqb data [dquote; dquote] then (zzero, true)
  else let v := trim json_blanks data in
       if beqb v (B "null") then (old, true)
       else match unquote v with
            | Some s => match z_parse_rfc3339 s with Some t => (t, true) | None => (zzero, false) end
            | None => (old, false)
            end.

(** ** The instants are those of TimeModel. *)
Lemma zx_string_same z : zx_string z = time_string (zt z).
Proof. unfold zx_string, time_string, z_is_zero, z_format, time_format, z_utc, z_off. cbn [zt zo]. rewrite Z.add_0_r. reflexivity. Qed.
Lemma zx_json_same z : zx_json z = time_json (zt z).
Proof.
  unfold zx_json, time_json, z_is_zero, z_format, time_format, z_utc, z_off, z_year, year_of. cbv zeta. cbn [zt zo]. rewrite !Z.add_0_r. change (Z.abs 0 <? 86400) with true. rewrite andb_true_r. reflexivity.
Qed.
Lemma zx_parse_same s : zt (zx_parse_time s) = parse_time s.
Proof.
  unfold zx_parse_time, parse_time. destruct (is_empty s); [reflexivity|]. unfold z_parse_rfc3339.
  destruct (length s) as [|[|[|[|[|[|[|[|[|[|[|[|[|[|[|[|[|[|[|[|n]]]]]]]]]]]]]]]]]]]]; cbn [z_utc z_trunc zt];
  first [destruct (parse_datetime s); reflexivity | destruct (parse_dateonly s); reflexivity | destruct (parse_rfc3339 s); reflexivity].
Qed.
Lemma zx_unjson_same old data : let '(w, ok) := zx_unjson old data in time_unjson (zt old) data = (zt w, ok).
Proof.
  unfold zx_unjson, time_unjson. destruct (is_empty data || _); [reflexivity|]. cbv zeta. destruct (beqb (trim json_blanks data) _); [reflexivity|]. destruct (unquote (trim json_blanks data)) as [s|]; [|reflexivity].
  unfold z_parse_rfc3339. destruct (parse_rfc3339 s); reflexivity.
Qed.
Definition inst_any (x : ztany) : tany := match x with ZNil => TNil | ZStr s => TStr s | ZTime z => TTime (zt z) | ZOther => TOther end.
Lemma zx_scan_same old x : let '(w, ok) := zx_scan old x in time_scan (zt old) (inst_any x) = (zt w, ok).
Proof. destruct x; cbn [zx_scan inst_any time_scan]; try reflexivity. rewrite zx_parse_same. reflexivity. Qed.
Lemma zx_value_same z : inst_any (zx_value z) = time_value (zt z).
Proof. unfold zx_value, time_value, z_is_zero. destruct (is_zero (zt z)); reflexivity. Qed.
