(** Vocabulary of the flake theorems. *)
From Verif Require Import GoBase FlakeModel.
Open Scope Z_scope.

Definition int64 (z : Z) : Prop := - 2 ^ 63 <= z < 2 ^ 63.
Definition uint64 (z : Z) : Prop := 0 <= z < 2 ^ 64.
Definition uint16 (z : Z) : Prop := 0 <= z < 2 ^ 16.
(** The number packed by time [e], sequence [s], machine [m]. *)
Definition packed (e s m : Z) : Z := (e * 64 + s) * 65536 + m.

(** A call history: every clock reading is an int64. *)
Definition readings (h : list (Z * Z)) : Prop := Forall (fun x => int64 (fst x) /\ int64 (snd x)) h.

Definition good_settings (st : settings) : Prop :=
  (forall s, s_start st = Some s -> int64 s) /\ (forall m, s_machine st = Some m -> uint16 m).
Definition start_of (st : settings) : Z := match s_start st with None => default_start | Some s => s end.

(** The generator as built by NewIDGenerator up to line 122, before its first
    NextID. *)
Definition blank (st : settings) (m : Z) : flake := mkFlake (to_flake_time (start_of st)) 0 maskSequence16 0 m 0 0.

(** IDs returned so far, in order of return; those returned to goroutine [t]. *)
Definition ret_ids (tr : list event) : list Z := flat_map (fun e => match e with EvRet _ i => [i] | _ => [] end) tr.
Definition ret_ids_of (t : nat) (tr : list event) : list Z :=
  flat_map (fun e => match e with EvRet u i => if Nat.eqb u t then [i] else [] | _ => [] end) tr.

(** One call against a clock that does not go back and a Sleep that lasts long
    enough: [t3] is the reading at return. *)
Definition timely (f : flake) (t1 t2 t3 : Z) : Prop :=
  t1 <= t2 <= t3 /\ match n_sleep (next_id f t1 t2) with Some d => t2 + d <= t3 | None => True end.
Fixpoint timely_run (f : flake) (now : Z) (h : list (Z * Z * Z)) : Prop :=
  match h with
  | [] => True
  | (t1, t2, t3) :: r => now <= t1 /\ timely f t1 t2 t3 /\ timely_run (n_flake (next_id f t1 t2)) t3 r
  end.


(** A loopback address, in its 16-byte form: 127.x.y.z or ::1. *)
Definition loopback_ip (ip : list Z) : Prop := (exists b c d, ip = [0;0;0;0;0;0;0;0;0;0;255;255;127;b;c;d]) \/ ip = [0;0;0;0;0;0;0;0;0;0;0;0;0;0;0;1].
(** An address a machine ID can be taken from. *)
Definition usable (a : iface_addr) : Prop := ia_net a = true /\ ~ loopback_ip (ia_ip a).
