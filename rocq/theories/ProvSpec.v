(** Vocabulary of the theorems on providers, connections, migrations and
    notifications. *)
From Verif Require Import GoBase ProvModel.
Open Scope Z_scope.

(** ** Transactions *)
(** States a provider and its transactions can get into. *)
Definition history (name connstr : bytes) (gen : nat) (ops : list pop) (s : pstate) : Prop := exists rs, prun (new_state name connstr gen) ops = (s, rs).
(** Provider 0 is the one that was opened; provider [S n] is the one returned by
    the BeginTx that started transaction [n].  The operations that end
    transaction [n]: Commit, Rollback or Close of its provider, or its context. *)
Definition ends (n : nat) (o : pop) : option txstate :=
  match o with
  | OCommit p e => if (p =? S n)%nat then Some (match e with None => TCommitted | Some _ => TBroken end) else None
  | ORollback p e | OClose p e => if (p =? S n)%nat then Some (match e with None => TRolledBack | Some _ => TBroken end) else None
  | OCancel m => if (m =? n)%nat then Some TRolledBack else None
  | _ => None
  end.
(** What becomes of a transaction: the first of these decides. *)
Fixpoint fate (n : nat) (ops : list pop) : txstate :=
  match ops with [] => TActive | o :: r => match ends n o with Some t => t | None => fate n r end end.

(** ** Notifications *)
(** The notifications that arrived during a run, nil ones included. *)
Definition arrived (es : list levent) : list (option notif) := flat_map (fun e => match e with EvArrive o => [o] | _ => [] end) es.
Definition real (l : list (option notif)) : list notif := flat_map (fun o => match o with Some n => [n] | None => [] end) l.
(** [a] is part of [b], in the order of [b]. *)
Inductive subseq {A} : list A -> list A -> Prop :=
| ss_nil l : subseq [] l
| ss_skip x a b : subseq a b -> subseq a (x :: b)
| ss_take x a b : subseq a b -> subseq (x :: a) (x :: b).

(** ** Transactions, again *)
(** After [before], BeginTx on [p] returned provider [k]; then [after] was done,
    and the state is [s]. *)
Definition started (nm cs : bytes) (g : nat) (before : list pop) (p : nat) (e : option Z) (k : nat) (after : list pop) (s : pstate) : Prop :=
  exists s1 s2 rs, history nm cs g before s1 /\ pstep s1 (OBegin p e) = (s2, PProvider k) /\ prun s2 after = (s, rs).

(** ** Migrations *)
(** Everything before the first change succeeds. *)
Definition ready (provider : bytes) (e : migenv) : Prop :=
  me_stat e = None /\ (provider = B "postgres" \/ provider = B "pgsql" \/ provider = B "sqlserver") /\ me_driver e = None /\ me_new e = None
  /\ (me_version e = None \/ me_version e = Some nil_version).
(** What the run to the wanted version answers. *)
Definition outcome (target : Z) (e : migenv) : option bytes := if 0 <? target then me_migrate e target else me_up e.
Definition forcing (force : Z) (e : migenv) : option bytes := if 0 <? force then me_force e force else None.
