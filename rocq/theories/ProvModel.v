(** Model of the provider (prov.go), of opening connections (db.go), of
    migrations (migrate/migrate.go), of the notifier (pkg/notifier/listener.go)
    and of the connections of the command line tool (internal/cli/cli.go).
    The packages below the code are modelled by the rules the theorems need:
    database/sql (a transaction is done after its first Commit, Rollback or
    cancelled context, whatever the driver answers; a done transaction answers
    sql.ErrTxDone; a closed DB answers an error and can be closed again; a method
    of a nil *sql.DB panics), time.Ticker, lib/pq, golang-migrate.  What the
    driver answers is a parameter of each operation. *)
From Verif Require Import GoBase.
Open Scope Z_scope.

(** ** Transactions *)
Inductive perr := EStarted | ENoTx | ETxDone | EDbClosed | EDriver (z : Z).
Inductive txstate := TActive | TCommitted | TRolledBack | TBroken.
Inductive target := OnDb | OnTx (n : nat).
(** prov.go:16-24 SQLProvider: [pr_conn] tells whether conn is not nil;
    conn, name and idGen are shared by a provider and its transactions *)
Record provider := mkPr { pr_conn : bool; pr_db : target; pr_tx : option nat; pr_ticker : bool; pr_connstr : bytes; pr_name : bytes; pr_gen : nat }.
(** The *sql.DB (open or closed), its transactions, and the providers made so
    far. *)
Record pstate := mkPS { s_open : bool; s_txs : list txstate; s_provs : list provider }.
Inductive pres := PNil | PErr (e : perr) | PPanic | PProvider (n : nat) | PSent (t : target) | PInvalid.

(** prov.go:27-41 New, 43-46 WithConnectionString *)
Definition new_state (name connstr : bytes) (gen : nat) : pstate := mkPS true [] [mkPr true OnDb None true connstr name gen].

(** Operations on provider [p]; [e] is the driver's answer. *)
Inductive pop :=
| OBegin (p : nat) (e : option Z)
| OCommit (p : nat) (e : option Z)
| ORollback (p : nat) (e : option Z)
| OClose (p : nat) (e : option Z)
| OQuery (p : nat) (e : option Z)
| OCancel (tx : nat).

Fixpoint set_nth {A} (n : nat) (x : A) (l : list A) : list A :=
  match l, n with [], _ => [] | _ :: r, O => x :: r | y :: r, S n => y :: set_nth n x r end.
(** database/sql Tx.Commit, Tx.Rollback *)
Definition end_tx (s : pstate) (n : nat) (good : txstate) (e : option Z) : pstate * pres :=
  match nth_error (s_txs s) n with
  | Some TActive => match e with
                    | None => (mkPS (s_open s) (set_nth n good (s_txs s)) (s_provs s), PNil)
                    | Some z => (mkPS (s_open s) (set_nth n TBroken (s_txs s)) (s_provs s), PErr (EDriver z))
                    end
  | Some _ => (s, PErr ETxDone)
  | None => (s, PInvalid)
  end.
(** prov.go:175-184 Rollback *)
Definition rollback (s : pstate) (pr : provider) (e : option Z) : pstate * pres :=
  match pr_tx pr with
  | None => (s, PErr ENoTx)
  | Some n => match end_tx s n TRolledBack e with
              | (s', PErr ETxDone) => (s', PNil)
              | x => x
              end
  end.
Definition put_prov (s : pstate) (p : nat) (pr : provider) : pstate := mkPS (s_open s) (s_txs s) (set_nth p pr (s_provs s)).
Definition no_ticker (pr : provider) : provider := mkPr (pr_conn pr) (pr_db pr) (pr_tx pr) false (pr_connstr pr) (pr_name pr) (pr_gen pr).
Definition no_conn (pr : provider) : provider := mkPr false (pr_db pr) (pr_tx pr) (pr_ticker pr) (pr_connstr pr) (pr_name pr) (pr_gen pr).

Definition pstep (s : pstate) (o : pop) : pstate * pres :=
  match o with
  | OBegin p e =>                                        (* prov.go:85-103 *)
      match nth_error (s_provs s) p with
      | None => (s, PInvalid)
      | Some pr =>
          match pr_tx pr with
          | Some _ => (s, PErr EStarted)
          | None =>
              if negb (pr_conn pr) then (s, PPanic)
              else if negb (s_open s) then (s, PErr EDbClosed)
              else match e with
                   | Some z => (s, PErr (EDriver z))
                   | None => let n := length (s_txs s) in
                             (mkPS (s_open s) (s_txs s ++ [TActive]) (s_provs s ++ [mkPr (pr_conn pr) (OnTx n) (Some n) false [] (pr_name pr) (pr_gen pr)]),
                              PProvider (length (s_provs s)))
                   end
          end
      end
  | OCommit p e =>                                       (* prov.go:168-173 *)
      match nth_error (s_provs s) p with
      | None => (s, PInvalid)
      | Some pr => match pr_tx pr with None => (s, PErr ENoTx) | Some n => end_tx s n TCommitted e end
      end
  | ORollback p e =>
      match nth_error (s_provs s) p with None => (s, PInvalid) | Some pr => rollback s pr e end
  | OClose p e =>                                        (* prov.go:105-124 *)
      match nth_error (s_provs s) p with
      | None => (s, PInvalid)
      | Some pr0 =>
          let pr := no_ticker pr0 in let s := put_prov s p pr in
          if negb (pr_conn pr) then (s, PNil)
          else match pr_tx pr with
               | Some _ => rollback s pr e
               | None => match (if s_open s then e else None) with
                         | Some z => (mkPS false (s_txs s) (s_provs s), PErr (EDriver z))
                         | None => (put_prov (mkPS false (s_txs s) (s_provs s)) p (no_conn pr), PNil)
                         end
               end
      end
  | OQuery p e =>                                        (* prov.go:148-166, database/sql *)
      match nth_error (s_provs s) p with
      | None => (s, PInvalid)
      | Some pr =>
          match pr_db pr with
          | OnDb => if s_open s then (s, match e with None => PSent OnDb | Some z => PErr (EDriver z) end) else (s, PErr EDbClosed)
          | OnTx n => match nth_error (s_txs s) n with
                      | Some TActive => (s, match e with None => PSent (OnTx n) | Some z => PErr (EDriver z) end)
                      | Some _ => (s, PErr ETxDone)
                      | None => (s, PInvalid)
                      end
          end
      end
  | OCancel n =>                                         (* database/sql: the context of the transaction is done *)
      match nth_error (s_txs s) n with
      | Some TActive => (mkPS (s_open s) (set_nth n TRolledBack (s_txs s)) (s_provs s), PNil)
      | _ => (s, PNil)
      end
  end.
Fixpoint prun (s : pstate) (ops : list pop) : pstate * list pres :=
  match ops with
  | [] => (s, [])
  | o :: r => let '(s1, x) := pstep s o in let '(s2, xs) := prun s1 r in (s2, x :: xs)
  end.

(** ** prov.go:57-73 keepAlive and Close *)
(** The goroutine waits for a tick, or has received one and is about to read
    p.conn; Close has four steps.  A stopped ticker delivers no tick (Go 1.23
    and later) and its channel is never closed. *)
Inductive gor := GWait | GGot | GPanicked | GEnded.
Inductive closer := CIdle | CStopped | CClosed | CDone.
Record kstate := mkK { k_run : bool; k_chan_closed : bool; k_conn : bool; k_gor : gor; k_close : closer }.
Definition k_init : kstate := mkK true false true GWait CIdle.
Inductive kstep : kstate -> kstate -> Prop :=
| k_tick s : k_run s = true -> k_gor s = GWait -> kstep s (mkK (k_run s) (k_chan_closed s) (k_conn s) GGot (k_close s))
| k_ping s : k_gor s = GGot -> k_conn s = true -> kstep s (mkK (k_run s) (k_chan_closed s) (k_conn s) GWait (k_close s))
| k_nil s : k_gor s = GGot -> k_conn s = false -> kstep s (mkK (k_run s) (k_chan_closed s) (k_conn s) GPanicked (k_close s))
| k_range_end s : k_gor s = GWait -> k_chan_closed s = true -> kstep s (mkK (k_run s) (k_chan_closed s) (k_conn s) GEnded (k_close s))
| k_stop s : k_close s = CIdle -> kstep s (mkK false (k_chan_closed s) (k_conn s) (k_gor s) CStopped)
| k_dbclose s : k_close s = CStopped -> kstep s (mkK (k_run s) (k_chan_closed s) (k_conn s) (k_gor s) CClosed)
| k_setnil s : k_close s = CClosed -> kstep s (mkK (k_run s) (k_chan_closed s) false (k_gor s) CDone).
Inductive kreach : kstate -> kstate -> Prop :=
| kr_refl s : kreach s s
| kr_step s1 s2 s3 : kreach s1 s2 -> kstep s2 s3 -> kreach s1 s3.

(** db.go:120-164, 173-198 Open, NewProvider: the calls made on the connection;
    [None] for a step is success *)
Inductive dbcall := CallOpen | CallPing | CallMigrate | CallClose | CallKeepAlive.
Record openenv := mkOE { oe_resolve : option Z; oe_supported : bool; oe_open : option Z; oe_ping : option Z; oe_migrate : option Z }.
Definition new_provider (cfg : option bytes) (e : openenv) : list dbcall * bool :=
  match oe_resolve e with
  | Some _ => ([], false)
  | None =>
  if negb (oe_supported e) then ([], false) else
  match oe_open e with
  | Some _ => ([], false)
  | None =>
  match oe_ping e with
  | Some _ => ([CallOpen; CallPing], false)
  | None =>
      match cfg with
      | Some (_ :: _) => match oe_migrate e with
                         | Some _ => ([CallOpen; CallPing; CallMigrate], false)
                         | None => ([CallOpen; CallPing; CallMigrate; CallKeepAlive], true)
                         end
      | _ => ([CallOpen; CallPing; CallKeepAlive], true)
      end
  end end end.

(** ** migrate/migrate.go:25-113 *)
(** What golang-migrate answers: an error is its text. *)
Definition nil_version : bytes := B "no migration".
Record migenv := mkME { me_stat : option bytes; me_driver : option bytes; me_new : option bytes; me_version : option bytes; me_force : Z -> option bytes; me_migrate : Z -> option bytes; me_up : option bytes; me_version2 : option bytes }.
Inductive migcall := MForce (v : Z) | MMigrate (v : Z) | MUp.
Inductive migres := MigOk | MigErr (t : bytes).
Definition wrap (o : option bytes) (k : list migcall * migres) (pre : list migcall) : list migcall * migres := match o with Some t => (pre, MigErr t) | None => k end.
Definition known_provider (p : bytes) : bool := beqb p (B "postgres") || beqb p (B "pgsql") || beqb p (B "sqlserver").
Definition migrate (provider dir : bytes) (force target : Z) (e : migenv) : list migcall * migres :=
  if is_empty dir then ([], MigOk) else
  wrap (me_stat e) (
  if negb (known_provider provider) then ([], MigErr (B "unsupported provider: " ++ provider)) else
  wrap (me_driver e) (
  wrap (me_new e) (
  wrap (match me_version e with Some t => if beqb t nil_version then None else Some t | None => None end) (
  let forced := if 0 <? force then [MForce force] else [] in
  match (if 0 <? force then me_force e force else None) with
  | Some t => (forced, MigErr t)
  | None =>
      let '(call, answer) := if 0 <? target then (MMigrate target, me_migrate e (u64 target)) else (MUp, me_up e) in
      let calls := forced ++ [call] in
      match answer with
      | Some t => if contains (B "no change") t then (calls, MigOk) else (calls, MigErr t)
      | None => wrap (me_version2 e) (calls, MigOk) calls
      end
  end) []) []) []) [].

(** ** pkg/notifier/listener.go *)
Record notif := mkN { n_channel : bytes; n_extra : bytes }.
(** listener.go:24-30 Notification, 135-150 parsePayload; [dec] is what
    json.Unmarshal leaves in the map, also when it returns an error, which is only
    logged (AnyModel.unmarshal_map) *)
Record gnotif (P : Type) := mkGN { gn_channel : bytes; gn_payload : option P; gn_raw : bytes }.
Arguments mkGN {P}. Arguments gn_channel {P}. Arguments gn_payload {P}. Arguments gn_raw {P}.
Definition parse_payload {P} (dec : bytes -> option P) (n : notif) : gnotif P :=
  mkGN (n_channel n)
    (if is_empty (n_extra n) || beqb (n_extra n) (B "{}") || beqb (n_extra n) (B "[]") then None else dec (n_extra n)) (n_extra n).
(** listener.go:89-133: one goroutine per Listen call, all receiving from one
    channel; nil notifications ([None]) mark a reconnect.  A closed channel
    delivers nil without end. *)
Record lgor := mkL { l_topic : bytes; l_done : bool; l_stopped : bool; l_got : list notif }.
Record lstate := mkLS { ls_queue : list (option notif); ls_closed : bool; ls_gors : list lgor }.
(** One step of a run; [None] when it cannot happen.  [EvListen]: Listen, which
    fails for a topic that is being listened to (lib/pq); [EvArrive]: lib/pq puts a
    notification (or nil) on the channel; [EvDeliver], [EvNil]: goroutine [i]
    receives the head of the channel and calls its callback with it, or nothing
    for nil; [EvSpin]: it receives from the closed channel; [EvCancel]: its
    context is done; [EvStop]: it chooses the context case and returns;
    [EvPing]: a minute passed. *)
Inductive levent := EvListen (t : bytes) | EvArrive (o : option notif) | EvDeliver (i : nat) | EvNil (i : nat) | EvSpin (i : nat) | EvCancel (i : nat) | EvStop (i : nat) | EvPing (i : nat) | EvClose.
Definition with_gor (s : lstate) (i : nat) (f : lgor -> option lgor) (q : list (option notif)) : option lstate :=
  match nth_error (ls_gors s) i with
  | Some g => match f g with Some g' => Some (mkLS q (ls_closed s) (set_nth i g' (ls_gors s))) | None => None end
  | None => None
  end.
Definition running (k : lgor -> lgor) (g : lgor) : option lgor := if l_stopped g then None else Some (k g).
Definition lstep (s : lstate) (e : levent) : option lstate :=
  match e with
  | EvListen t => if existsb (fun g => beqb (l_topic g) t && negb (l_stopped g)) (ls_gors s) then Some s
                  else Some (mkLS (ls_queue s) (ls_closed s) (ls_gors s ++ [mkL t false false []]))
  | EvArrive o => if ls_closed s then None else Some (mkLS (ls_queue s ++ [o]) false (ls_gors s))
  | EvDeliver i => match ls_queue s with
                   | Some n :: q => with_gor s i (running (fun g => mkL (l_topic g) (l_done g) (l_stopped g) (l_got g ++ [n]))) q
                   | _ => None
                   end
  | EvNil i => match ls_queue s with None :: q => with_gor s i (running (fun g => g)) q | _ => None end
  | EvSpin i => match ls_queue s with [] => if ls_closed s then with_gor s i (running (fun g => g)) [] else None | _ => None end
  | EvCancel i => with_gor s i (fun g => Some (mkL (l_topic g) true (l_stopped g) (l_got g))) (ls_queue s)
  | EvStop i => with_gor s i (fun g => if l_done g then running (fun g => mkL (l_topic g) true true (l_got g)) g else None) (ls_queue s)
  | EvPing i => with_gor s i (running (fun g => g)) (ls_queue s)
  | EvClose => Some (mkLS (ls_queue s) true (ls_gors s))
  end.
Definition l_init : lstate := mkLS [] false [].
Fixpoint lrun (s : lstate) (es : list levent) : option lstate :=
  match es with [] => Some s | e :: r => match lstep s e with Some s' => lrun s' r | None => None end end.

(** ** internal/cli/cli.go *)
(** The cached connection and schema provider: which database each talks to,
    and whether the connection behind it was closed.  cli.go:30-45, 115-145 *)
Record cli := mkCli { cl_db : option nat; cl_schema : option nat; cl_conns : list (bytes * bool) }.
Definition cli_init : cli := mkCli None None [].
Inductive cliop := KDb (name : bytes) (e : option Z) | KSchema (name : bytes) (e : option Z) | KClose.
Definition cli_db (c : cli) (name : bytes) (e : option Z) : cli * option nat :=
  match cl_db c with
  | Some n => (c, Some n)
  | None => match e with
            | Some _ => (c, None)
            | None => let n := length (cl_conns c) in (mkCli (Some n) (cl_schema c) (cl_conns c ++ [(name, true)]), Some n)
            end
  end.
Definition cli_step (c : cli) (o : cliop) : cli * option nat :=
  match o with
  | KDb name e => cli_db c name e
  | KSchema name e =>
      match cl_schema c with
      | Some n => (c, Some n)
      | None => match cli_db c name e with
                | (c', Some n) => (mkCli (cl_db c') (Some n) (cl_conns c'), Some n)
                | (c', None) => (c', None)
                end
      end
  | KClose =>
      match cl_db c with
      | Some n => (mkCli None (cl_schema c) (set_nth n (fst (nth n (cl_conns c) ([], false)), false) (cl_conns c)), None)
      | None => (c, None)
      end
  end.
Fixpoint cli_run (c : cli) (ops : list cliop) : cli * list (option nat) :=
  match ops with [] => (c, []) | o :: r => let '(c1, x) := cli_step c o in let '(c2, xs) := cli_run c1 r in (c2, x :: xs) end.
