(** The texts that are times, and the instants they denote, without reference to a
    parser: date, date and clock, RFC 3339.  The variations Go allows (a single digit
    for the hour, a comma before the fraction, any number of fraction digits, offsets
    up to 24:60) are part of the grammar. *)
From Verif Require Import GoBase TimeModel TimeSpec.
Open Scope Z_scope.

(** The days of a date in the years 0000 to 9999 that exists in the calendar. *)
Definition date_of (s : bytes) (n : Z) : Prop := exists y m d, gregorian n (y, m, d) /\ 0 <= y <= 9999 /\ s = date_text y m d.
Definition hour_of (s : bytes) (h : Z) : Prop := 0 <= h <= 23 /\ (s = two h \/ h < 10 /\ s = [digit_char h]).
Definition clock_of (s : bytes) (c : Z) : Prop := exists hs h mi se,
  hour_of hs h /\ 0 <= mi <= 59 /\ 0 <= se <= 59 /\ s = hs ++ B ":" ++ two mi ++ B ":" ++ two se /\ c = h * 3600 + mi * 60 + se.
(** Decimal digits and their number. *)
Fixpoint decimal (l : list Z) (acc : Z) : Z := match l with [] => acc | d :: r => decimal r (acc * 10 + d) end.
(** Nothing, or a point or comma and digits: that fraction of a second, in whole nanoseconds. *)
Definition fraction_of (s : bytes) (ns : Z) : Prop :=
  s = [] /\ ns = 0 \/
  exists p l, (p = B "." \/ p = B ",") /\ l <> [] /\ Forall (fun d => 0 <= d <= 9) l /\ s = p ++ map digit_char l /\
    ns = decimal l 0 * 10 ^ 9 / 10 ^ Z.of_nat (length l).
(** Z, or the hours and minutes a zone is ahead or behind. *)
Definition zone_of (s : bytes) (sec : Z) : Prop :=
  s = B "Z" /\ sec = 0 \/
  exists h m, 0 <= h <= 24 /\ 0 <= m <= 60 /\
    (s = B "+" ++ two h ++ B ":" ++ two m /\ sec = (h * 60 + m) * 60 \/ s = B "-" ++ two h ++ B ":" ++ two m /\ sec = - ((h * 60 + m) * 60)).
Definition rfc3339 (s : bytes) (t : gtime) : Prop := exists D n C c F ns Z z,
  date_of D n /\ clock_of C c /\ fraction_of F ns /\ zone_of Z z /\ s = D ++ B "T" ++ C ++ F ++ Z /\ t = mkTime (n * 86400 + c - z) ns.
Definition date_time (s : bytes) (t : gtime) : Prop := exists D n k C c F ns,
  date_of D n /\ clock_of C c /\ fraction_of F ns /\ s = D ++ repeat (ascii_of_nat 32) (S k) ++ C ++ F /\ t = mkTime (n * 86400 + c) ns.
Definition date_only (s : bytes) (t : gtime) : Prop := exists n, date_of s n /\ t = mkTime (n * 86400) 0.
(** What ParseTime reads: 10 bytes are a date, 19 bytes a date and a clock, anything
    else RFC 3339. *)
Definition time_text (s : bytes) (t : gtime) : Prop :=
  length s = 10%nat /\ date_only s t \/ length s = 19%nat /\ date_time s t \/ length s <> 10%nat /\ length s <> 19%nat /\ rfc3339 s t.
