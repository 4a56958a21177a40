(** Model of pkg/flake/flake.go: the ID generator, its concurrent callers, and
    the uses of it in prov.go:134-144.

    Times are int64 nanoseconds since 1970 (time.Time.UnixNano); every clock
    reading (NowFunc) is an input.  A panic is [None]. *)
From Verif Require Import GoBase.
Open Scope Z_scope.

(** flake.go:42-53 *)
Definition bitLenMachineID : Z := 16.
Definition bitLenSequence : Z := 6.
Definition bitLenTime : Z := 63 - bitLenMachineID - bitLenSequence.
Definition maskSequence16 : Z := 2 ^ bitLenSequence - 1.
Definition maskSequence : Z := Z.shiftl maskSequence16 bitLenMachineID.
Definition maskMachineID : Z := 2 ^ bitLenMachineID - 1.
Definition flakeTimeUnit : Z := 1000000.
Definition maxValue : Z := 9223372036854775807.

(** flake.go:79-88 Flake, without the mutex (see [cstate]). *)
Record flake := mkFlake {
  f_start : Z; f_elapsed : Z; f_seq : Z; f_maxseq : Z; f_machine : Z; f_first : Z; f_last : Z }.

Definition set_elapsed (f : flake) e := mkFlake (f_start f) e (f_seq f) (f_maxseq f) (f_machine f) (f_first f) (f_last f).
Definition set_seq (f : flake) s := mkFlake (f_start f) (f_elapsed f) s (f_maxseq f) (f_machine f) (f_first f) (f_last f).
Definition set_maxseq (f : flake) m := mkFlake (f_start f) (f_elapsed f) (f_seq f) m (f_machine f) (f_first f) (f_last f).
Definition set_last (f : flake) i := mkFlake (f_start f) (f_elapsed f) (f_seq f) (f_maxseq f) (f_machine f) (f_first f) i.
Definition set_first (f : flake) i := mkFlake (f_start f) (f_elapsed f) (f_seq f) (f_maxseq f) (f_machine f) i (f_last f).

(** flake.go:167-169 toFlakeTime (int64 division truncates) *)
Definition to_flake_time (ns : Z) : Z := Z.quot ns flakeTimeUnit.
(** flake.go:171-173 fromFlakeTime, as nanoseconds *)
Definition from_flake_time (f : Z) : Z := i64 (f * flakeTimeUnit).
(** flake.go:175-177 currentElapsedTime at clock reading [now] *)
Definition current_elapsed (start now : Z) : Z := i64 (to_flake_time now - start).
(** flake.go:179-182 sleepTime at clock reading [now] (int64 % truncates) *)
Definition sleep_time (overtime now : Z) : Z := i64 (i64 (overtime * flakeTimeUnit) - Z.rem now flakeTimeUnit).

(** flake.go:184-192 toID; None: "over the time limit" panic.  The operands of
    | are uint64. *)
Definition to_id (f : flake) : option Z :=
  if 2 ^ bitLenTime <=? f_elapsed f then None
  else Some (Z.lor (Z.lor (u64 (Z.shiftl (u64 (f_elapsed f)) (bitLenSequence + bitLenMachineID)))
                          (u64 (Z.shiftl (u64 (f_seq f)) bitLenMachineID)))
                   (u64 (f_machine f))).

(** flake.go:140-165 NextID, run alone.  [t1]: the clock reading of line 144;
    [t2]: that of line 157, used only when sleeping.  Result: the generator
    (updated also when NextID panics), the ID or a panic, and the duration
    passed to time.Sleep. *)
Record next_result := mkNext { n_flake : flake; n_id : option Z; n_sleep : option Z }.
Definition next_id (f : flake) (t1 t2 : Z) : next_result :=
  let current := current_elapsed (f_start f) t1 in
  let '(f1, sl) :=
    if f_elapsed f <? current then (set_seq (set_elapsed f current) 0, None)
    else
      let s := Z.land (u16 (f_seq f + 1)) maskSequence16 in
      let fs := set_seq f s in
      let fm := if f_maxseq fs <? s then set_maxseq fs s else fs in
      if s =? 0 then
        let fe := set_elapsed fm (i64 (f_elapsed fm + 1)) in
        (fe, Some (sleep_time (i64 (f_elapsed fe - current)) t2))
      else (fm, None) in
  match to_id f1 with
  | None => mkNext f1 None sl
  | Some i => mkNext (set_last f1 i) (Some i) sl
  end.

(** Successive calls; each element of the history gives the two clock readings. *)
Fixpoint next_ids (f : flake) (h : list (Z * Z)) : flake * list (option Z) :=
  match h with
  | [] => (f, [])
  | (t1, t2) :: r => let n := next_id f t1 t2 in let '(f', l) := next_ids (n_flake n) r in (f', n_id n :: l)
  end.
(** The IDs returned by calls that did not panic. *)
Fixpoint somes {A} (l : list (option A)) : list A :=
  match l with [] => [] | Some x :: r => x :: somes r | None :: r => somes r end.

(** flake.go:72-76 Settings.  [s_start]: StartTime as nanoseconds, None for the
    zero Time; [s_machine]: what the MachineID function (or the default one,
    line 112) returns, None for an error; [s_check]: result of CheckMachineID
    (true when nil). *)
Record settings := mkSettings { s_start : option Z; s_machine : option Z; s_check : Z -> bool }.
(** flake.go:56 2021-01-01 00:00:00 UTC *)
Definition default_start : Z := 1609459200 * 1000000000.

(** flake.go:95-136 NewIDGenerator; [t0]: the reading of line 99, [t1], [t2]
    those of the first NextID. *)
Definition new_generator (st : settings) (t0 t1 t2 : Z) : option flake :=
  let start := match s_start st with None => default_start | Some s => s end in
  if t0 <? start then None
  else match s_machine st with
       | None => None
       | Some m =>
           if negb (s_check st m) then None
           else
             let n := next_id (mkFlake (to_flake_time start) 0 maskSequence16 0 m 0 0) t1 t2 in
             match n_id n with
             | None => None
             | Some i => Some (set_first (n_flake n) i)
             end
       end.

(** flake.go:237-249 Decompose *)
Record parts := mkParts { p_id : Z; p_msb : Z; p_time : Z; p_seq : Z; p_machine : Z }.
Definition decompose (id : Z) : parts :=
  mkParts id (Z.shiftr id 63) (Z.shiftr id (bitLenSequence + bitLenMachineID))
          (Z.shiftr (Z.land id maskSequence) bitLenMachineID) (Z.land id maskMachineID).

(** An IDGenerator value: a *Flake of this package, or any other type.  The
    foreign generator that matters here is effective-security/x/flake (db.go:14
    imports it), which has the same fields. *)
Inductive generator := GFlake (f : flake) | GOther (f : flake).
(** flake.go:252-258 IDTime, as nanoseconds *)
Definition id_time (g : generator) (id : Z) : Z :=
  let start := match g with GFlake f => f_start f | GOther _ => 0 end in
  from_flake_time (i64 (start + i64 (Z.shiftr id (bitLenSequence + bitLenMachineID)))).
(** flake.go:261-274 FirstID, LastID *)
Definition first_id (g : generator) : Z := match g with GFlake f => f_first f | GOther _ => 0 end.
Definition last_id (g : generator) : Z := match g with GFlake f => f_last f | GOther _ => 0 end.
(** prov.go:137-144 SQLProvider.NextID / IDTime use the generator as given. *)
Definition provider_id_time (g : generator) (id : Z) : Z := id_time g id.

(** flake.go:194-198 machineIDFromProgram: low 16 bits of FNV-1a of the
    program name. *)
Fixpoint fnv32a (h : Z) (s : bytes) : Z :=
  match s with [] => h | c :: r => fnv32a (u32 (Z.lxor h (Z.of_nat (nat_of_ascii c)) * 16777619)) r end.
Definition machine_from_program (arg0 : bytes) : Z := u16 (fnv32a 2166136261 arg0).
(** flake.go:201-203 IsTestRun *)
Definition is_test_run (arg0 : bytes) : bool := contains (B "test") arg0 || contains (B "debug") arg0.
(** An interface address: [ia_net]: it is a *net.IPNet; [ia_ip]: its 16-byte
    form (To16). *)
Record iface_addr := mkIface { ia_net : bool; ia_ip : list Z }.
(** net.IP.IsLoopback: 127.0.0.0/8 (IPv4-mapped) or ::1. *)
Definition v4_prefix : list Z := [0;0;0;0;0;0;0;0;0;0;255;255].
Definition zeqb_list (a b : list Z) : bool := if list_eq_dec Z.eq_dec a b then true else false.
Definition is_loopback (ip : list Z) : bool :=
  if zeqb_list (firstn 12 ip) v4_prefix then nth 12 ip 0 =? 127
  else zeqb_list ip [0;0;0;0;0;0;0;0;0;0;0;0;0;0;0;1].
(** flake.go:207-234 defaultMachineID; [addrs]: None when InterfaceAddrs fails.
    It never returns an error. *)
Fixpoint first_iface (l : list iface_addr) : option (list Z) :=
  match l with
  | [] => None
  | a :: r => if negb (ia_net a) || is_loopback (ia_ip a) then first_iface r else Some (ia_ip a)
  end.
Definition default_machine_id (arg0 : bytes) (addrs : option (list iface_addr)) : Z :=
  if is_test_run arg0 then machine_from_program arg0
  else match addrs with
       | None => 0
       | Some l => match first_iface l with
                   | None => 0
                   | Some ip => Z.land (u16 (u16 (Z.shiftl (nth 14 ip 0) 8) + nth 15 ip 0)) maskMachineID
                   end
       end.

(** ** Concurrent callers (flake.go:140-165 with the mutex)
    Each goroutine runs NextID statement by statement; a step reads or writes
    shared fields once.  The scheduler picks a goroutine and a clock value. *)
Inductive pc :=
| PIdle                      (* not in a call *)
| PLock                      (* line 141, waiting *)
| PClock                     (* line 144 *)
| PBranch (current : Z)      (* line 145 *)
| PSetElapsed (current : Z)  (* line 146 *)
| PSetSeq                    (* line 147 *)
| PIncSeq (current : Z)      (* line 149 *)
| PMaxSeq (current : Z)      (* lines 150-152 *)
| PTestSeq (current : Z)     (* line 154 *)
| PIncElapsed (current : Z)  (* line 155 *)
| PSleep (current : Z)       (* lines 156-159 *)
| PToID                      (* line 163 *)
| PUnlock (r : option Z)     (* deferred Unlock; None: panicking *)
| PReturn (r : option Z).    (* line 164 *)

Inductive event := EvCall (t : nat) | EvRet (t : nat) (id : Z) | EvPanic (t : nat).
Record cstate := mkC { c_flake : flake; c_lock : option nat; c_pc : nat -> pc; c_trace : list event }.
Definition set_pc (m : nat -> pc) (t : nat) (p : pc) : nat -> pc := fun x => if Nat.eqb x t then p else m x.

(** One step of goroutine [t]; [now] is used if the step reads the clock.  A
    goroutine waiting for the mutex stutters. *)
Definition cstep (s : cstate) (t : nat) (now : Z) : cstate :=
  let f := c_flake s in
  let go f' p := mkC f' (c_lock s) (set_pc (c_pc s) t p) (c_trace s) in
  match c_pc s t with
  | PIdle => mkC f (c_lock s) (set_pc (c_pc s) t PLock) (c_trace s ++ [EvCall t])
  | PLock => match c_lock s with
             | Some _ => s
             | None => mkC f (Some t) (set_pc (c_pc s) t PClock) (c_trace s)
             end
  | PClock => go f (PBranch (current_elapsed (f_start f) now))
  | PBranch c => go f (if f_elapsed f <? c then PSetElapsed c else PIncSeq c)
  | PSetElapsed c => go (set_elapsed f c) PSetSeq
  | PSetSeq => go (set_seq f 0) PToID
  | PIncSeq c => go (set_seq f (Z.land (u16 (f_seq f + 1)) maskSequence16)) (PMaxSeq c)
  | PMaxSeq c => go (if f_maxseq f <? f_seq f then set_maxseq f (f_seq f) else f) (PTestSeq c)
  | PTestSeq c => go f (if f_seq f =? 0 then PIncElapsed c else PToID)
  | PIncElapsed c => go (set_elapsed f (i64 (f_elapsed f + 1))) (PSleep c)
  | PSleep c => go f PToID
  | PToID => match to_id f with
             | Some i => go (set_last f i) (PUnlock (Some i))
             | None => go f (PUnlock None)
             end
  | PUnlock r => mkC f None (set_pc (c_pc s) t (PReturn r)) (c_trace s)
  | PReturn r => mkC f (c_lock s) (set_pc (c_pc s) t PIdle)
                     (c_trace s ++ [match r with Some i => EvRet t i | None => EvPanic t end])
  end.
Definition crun (s : cstate) (sched : list (nat * Z)) : cstate := fold_left (fun s x => cstep s (fst x) (snd x)) sched s.
Definition cinit (f : flake) : cstate := mkC f None (fun _ => PIdle) [].
