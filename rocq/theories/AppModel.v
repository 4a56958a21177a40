(** Model of the life of the command line application: the connection and the
    schema provider a Cli keeps (internal/cli/cli.go:39-45, 114-144) and the main
    function (cmd/xdbcli/main.go:25-61).

    Simplifications: whether xdb.NewProvider succeeds is an input of the call; a
    connection is its number in the order of opening, with the database name it
    was asked for; kong's parser is a function of the arguments given by its
    outcome (main.go:53); output is not modelled here (CliModel). *)
From Verif Require Import GoBase GoBaseFacts.
Open Scope nat_scope.

(** xdb.NewProvider(c.SQLSource, dbname, nil, nil): a connection that was made *)
Record conn := mkConn { cn_name : bytes; cn_open : bool }.
(** schema.Provider: one given by WithSchemaProvider, or one on a connection *)
Inductive sprov := SCustom (n : nat) | SOn (c : nat).
(** cli.go:32-36: the fields schema and db of Cli; [w_conns]: all connections ever made *)
Record cli := mkCli { cl_db : option nat; cl_schema : option sprov; w_conns : list conn }.
Definition cli0 : cli := mkCli None None [].

Inductive cop :=
| DB (name : bytes) (ok : bool)              (* ok: NewProvider succeeds, if it is called *)
| SchemaProvider (name : bytes) (ok : bool)
| WithSchemaProvider (n : nat)
| Close.
Inductive cres := RConn (c : nat) | RSchema (p : sprov) | RError | RUnit.

Definition close_nth (l : list conn) (i : nat) : list conn :=
  match nth_error l i with
  | Some c => firstn i l ++ mkConn (cn_name c) false :: skipn (S i) l
  | None => l
  end.

(** cli.go:114-124 DB *)
Definition do_db (s : cli) (name : bytes) (ok : bool) : cli * cres :=
  match cl_db s with
  | Some c => (s, RConn c)
  | None =>
      if ok then
        let c := length (w_conns s) in
        (mkCli (Some c) (cl_schema s) (w_conns s ++ [mkConn name true]), RConn c)
      else (s, RError)
  end.
(** cli.go:126-138 SchemaProvider *)
Definition do_schema (s : cli) (name : bytes) (ok : bool) : cli * cres :=
  match cl_schema s with
  | Some p => (s, RSchema p)
  | None =>
      match do_db s name ok with
      | (s', RConn c) => (mkCli (cl_db s') (Some (SOn c)) (w_conns s'), RSchema (SOn c))
      | (s', r) => (s', r)
      end
  end.
(** cli.go:39-45 Close: the error of Provider.Close is dropped *)
Definition do_close (s : cli) : cli :=
  match cl_db s with
  | Some c => mkCli None (cl_schema s) (close_nth (w_conns s) c)
  | None => s
  end.
(** cli.go:140-144 WithSchemaProvider *)
Definition do_with (s : cli) (n : nat) : cli := mkCli (cl_db s) (Some (SCustom n)) (w_conns s).

Definition cstep (s : cli) (o : cop) : cli * cres :=
  match o with
  | DB n ok => do_db s n ok
  | SchemaProvider n ok => do_schema s n ok
  | WithSchemaProvider n => (do_with s n, RUnit)
  | Close => (do_close s, RUnit)
  end.
Fixpoint crun (s : cli) (l : list cop) : cli * list cres :=
  match l with
  | [] => (s, [])
  | o :: l => let '(s1, r) := cstep s o in let '(s2, rs) := crun s1 l in (s2, r :: rs)
  end.

(** ** main.go:25-61 realMain *)
(** parser.Parse(args[1:]) (main.go:53): a flag such as --help or --version calls
    exit itself, and Parse goes on when exit returns; an error, with or without a
    context; a context to run.  kong gives a usage error the code 80 and any other
    error of the parser 1 (main_test.go:22 asserts the former). *)
Inductive parsed := PExit (code : nat) (rest : parsed) | PError (ctx usage : bool) | PCommand.
Definition parse_code (usage : bool) : nat := if usage then 80 else 1.
(** The selected command: what it does with the Cli, and whether it returns an
    error (main.go:57), which is not one that chooses its own exit code *)
Record command := mkCmd { cm_ops : list cop; cm_err : bool }.
(** [real]: exit ends the process (os.Exit: deferred calls do not run); otherwise
    it is a function that returns (main_test.go).  The result: the codes given to
    exit, in order, and the state of the Cli at the end. *)
Definition run_command (real : bool) (c : command) (s : cli) : list nat * cli :=
  let s1 := fst (crun s (cm_ops c)) in
  if cm_err c then if real then ([1], s1) else ([1], do_close s1)   (* 58 FatalIfErrorf; 33 defer *)
  else ([], do_close s1).
Fixpoint real_main (real : bool) (p : parsed) (c : command) : list nat * cli :=
  match p with
  | PExit code rest => if real then ([code], cli0) else let '(e, s) := real_main real rest c in (code :: e, s)
  | PError ctx usage =>                                             (* 54 FatalIfErrorf *)
      if real then ([parse_code usage], cli0)
      else if ctx then let '(e, s) := run_command real c cli0 in (parse_code usage :: e, s)
      else ([parse_code usage], do_close cli0)
  | PCommand => run_command real c cli0
  end.
(** The status of the process: the first code given to exit, or 0 when main returns *)
Definition status (codes : list nat) : nat := hd 0 codes.
