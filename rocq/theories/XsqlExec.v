(** Model of xsql/executor.go: running a statement against an Executor, as a
    trace of the calls made to the database and to the handler.

    Simplification: the database is an oracle (a function of the text and the
    arguments it receives); a *sql.Rows is given by its rows (each with the
    outcome of scanning it into the statement's destinations), the error
    reported by rows.Err() and the one returned by rows.Close(). *)
From Verif Require Import GoBase GoBaseFacts XsqlModel.
Open Scope Z_scope.

(** Errors are identified by numbers. *)
Definition goerr := option Z.

Record rowset := mkRows { rs_rows : list goerr; rs_err : goerr; rs_close : goerr }.

Inductive event :=
| EvQuery (sql : bytes) (args : list goany)      (* db.QueryContext *)
| EvQueryRow (sql : bytes) (args : list goany)   (* db.QueryRowContext *)
| EvExec (sql : bytes) (args : list goany)       (* db.ExecContext *)
| EvScan (row : nat) (dest : list Z)             (* rows.Scan on row number [row] *)
| EvHandle (row : nat)                           (* handler(rows) *)
| EvClose                                        (* rows.Close *)
| EvRelease.                                     (* q.Close *)

(** executor.go:29-40, the loop; [n] is the number of the current row. *)
Fixpoint query_loop (dest : list Z) (handler : bool) (n : nat) (rows : list goerr) : list event * goerr :=
  match rows with
  | [] => ([], None)
  | r :: rest =>
      let hd := if handler then [EvHandle n] else [] in
      match dest with
      | [] => let '(t, e) := query_loop dest handler (S n) rest in (hd ++ t, e)
      | _ => match r with
             | Some e => ([EvScan n dest], Some e)
             | None => let '(t, e) := query_loop dest handler (S n) rest in (EvScan n dest :: hd ++ t, e)
             end
      end
  end.

(** executor.go:21-55 Query.  None: String() panicked. *)
Definition query (d : dialect) (q : stmt) (db : bytes -> list goany -> rowset + Z) (handler : bool)
  : option (dialect * stmt * list event * goerr) :=
  match stmt_string d q with
  | None => None
  | Some (d1, q1, s) =>
      match db s (st_args q1) with
      | inr e => Some (d1, q1, [EvQuery s (st_args q1)], Some e)
      | inl rs =>
          let '(t, err) := query_loop (st_dest q1) handler 0 (rs_rows rs) in
          let tr := EvQuery s (st_args q1) :: t ++ [EvClose] in
          Some (d1, q1, tr, match rs_close rs with Some e => Some e | None => match err with Some e => Some e | None => rs_err rs end end)
      end
  end.

(** executor.go:62-66 QueryAndClose; reuseStmt as in pool.go:29-50 *)
Definition query_and_close d q db handler :=
  match query d q db handler with
  | None => None
  | Some (d1, q1, t, e) => Some (d1, reuse_stmt q1, t ++ [EvRelease], e)
  end.

(** executor.go:70-73 QueryRow: [db] gives the outcome of row.Scan. *)
Definition query_row (d : dialect) (q : stmt) (db : bytes -> list goany -> goerr) : option (dialect * stmt * list event * goerr) :=
  match stmt_string d q with
  | None => None
  | Some (d1, q1, s) => Some (d1, q1, [EvQueryRow s (st_args q1); EvScan 0 (st_dest q1)], db s (st_args q1))
  end.

(** executor.go:88-90 Exec *)
Definition exec (d : dialect) (q : stmt) (db : bytes -> list goany -> goerr) : option (dialect * stmt * list event * goerr) :=
  match stmt_string d q with
  | None => None
  | Some (d1, q1, s) => Some (d1, q1, [EvExec s (st_args q1)], db s (st_args q1))
  end.

(** ** Specification *)
(** Number of rows handed to the handler: all of them without destinations,
    else those before the first row that cannot be scanned. *)
Fixpoint good_rows (rows : list goerr) : nat :=
  match rows with None :: r => S (good_rows r) | _ => 0%nat end.
Fixpoint first_scan_err (rows : list goerr) : goerr :=
  match rows with [] => None | Some e :: _ => Some e | None :: r => first_scan_err r end.
Definition visited (dest : list Z) (rows : list goerr) : nat := match dest with [] => length rows | _ => good_rows rows end.
Definition first_some (l : list goerr) : goerr := fold_right (fun x acc => match x with Some e => Some e | None => acc end) None l.

Definition handles (t : list event) : list nat := flat_map (fun e => match e with EvHandle n => [n] | _ => [] end) t.
Definition scans (t : list event) : list nat := flat_map (fun e => match e with EvScan n _ => [n] | _ => [] end) t.
Definition closes (t : list event) : nat := length (filter (fun e => match e with EvClose => true | _ => false end) t).
Definition scans_into (t : list event) (dest : list Z) : Prop :=
  Forall (fun e => match e with EvScan _ ds => ds = dest | _ => True end) t.
Definition queries (t : list event) : list (bytes * list goany) := flat_map (fun e => match e with EvQuery s a => [(s, a)] | _ => [] end) t.

Lemma query_loop_spec dest handler rows : forall n t e,
  query_loop dest handler n rows = (t, e) ->
  handles t = (if handler then seq n (visited dest rows) else []) /\
  scans t = (match dest with [] => [] | _ => seq n (visited dest rows + match first_scan_err rows with Some _ => 1 | None => 0 end) end) /\
  e = (match dest with [] => None | _ => first_scan_err rows end) /\ closes t = 0%nat /\ queries t = [] /\ scans_into t dest.
Proof.
  induction rows as [|r rows IH]; intros n t e; cbn [query_loop].
  - intros H; injection H as <- <-. destruct dest, handler; repeat split; constructor.
  - destruct dest as [|z dest].
    + destruct (query_loop [] handler (S n) rows) as [t' e'] eqn:E. intros H; injection H as <- <-.
      destruct (IH _ _ _ E) as (H1 & H2 & H3 & H4 & H5 & H6). cbn [visited length] in *.
      destruct handler; cbn; unfold handles, scans, closes, queries in *; cbn; rewrite ?H1, ?H2, ?H4, ?H5; repeat split; auto.
      constructor; auto.
    + destruct r as [x|].
      * intros H; injection H as <- <-. destruct handler; cbn; repeat split; repeat constructor.
      * destruct (query_loop (z :: dest) handler (S n) rows) as [t' e'] eqn:E. intros H; injection H as <- <-.
        destruct (IH _ _ _ E) as (H1 & H2 & H3 & H4 & H5 & H6). cbn [visited good_rows first_scan_err] in *.
        destruct handler; cbn; unfold handles, scans, closes, queries in *; cbn; rewrite ?H1, ?H2, ?H4, ?H5; repeat split; auto; repeat (constructor; auto).
Qed.

(** Every scan of row n comes before its handler call, which comes before the
    scan of row n+1: the trace seen by handler and scanner is in row order. *)
Definition ev_key (e : event) : option nat :=
  match e with EvScan n _ => Some (2 * n)%nat | EvHandle n => Some (2 * n + 1)%nat | _ => None end.
Definition keys (t : list event) : list nat := flat_map (fun e => match ev_key e with Some k => [k] | None => [] end) t.
From Coq Require Import Sorted.
Lemma query_loop_order dest handler rows : forall n t e, query_loop dest handler n rows = (t, e) ->
  StronglySorted lt (keys t) /\ Forall (fun k => (2 * n <= k)%nat) (keys t).
Proof.
  assert (W : forall m n l, (m <= n)%nat -> Forall (fun k => (n <= k)%nat) l -> Forall (fun k => (m <= k)%nat) l).
  { intros m n l H. apply Forall_impl. intros; lia. }
  assert (L : forall n l, Forall (fun k => (2 * S n <= k)%nat) l -> Forall (lt (n + (n + 0) + 1)) l).
  { intros n l. apply Forall_impl. intros; lia. }
  assert (L2 : forall n l, Forall (fun k => (2 * S n <= k)%nat) l -> Forall (lt (n + (n + 0))) l).
  { intros n l. apply Forall_impl. intros; lia. }
  induction rows as [|r rows IH]; intros n t e; cbn [query_loop].
  - intros H; injection H as <- <-. split; constructor.
  - destruct dest as [|z dest].
    + destruct (query_loop [] handler (S n) rows) as [t' e'] eqn:E. intros H; injection H as <- <-.
      destruct (IH _ _ _ E) as (H1 & H2). destruct handler; cbn.
      * split; constructor; auto; try lia. eapply W; [|exact H2]; lia.
      * split; [exact H1|]. eapply W; [|exact H2]; lia.
    + destruct r as [x|].
      * intros H; injection H as <- <-. cbn. split; [repeat constructor|]. constructor; [lia|constructor].
      * destruct (query_loop (z :: dest) handler (S n) rows) as [t' e'] eqn:E. intros H; injection H as <- <-.
        destruct (IH _ _ _ E) as (H1 & H2). destruct handler; cbn.
        -- split; [constructor; [constructor; auto|constructor; [lia|auto]]|]. constructor; [lia|constructor; [lia|]]. eapply W; [|exact H2]; lia.
        -- split; constructor; auto; try lia. eapply W; [|exact H2]; lia.
Qed.

Lemma query_spec d q db handler d1 q1 t e : query d q db handler = Some (d1, q1, t, e) ->
  exists s, shown d q = Some (s, st_args q1, st_dest q1) /\ queries t = [(s, st_args q1)] /\
  match db s (st_args q1) with
  | inr err => t = [EvQuery s (st_args q1)] /\ e = Some err
  | inl rs => closes t = 1%nat /\ (exists t', t = t' ++ [EvClose]) /\
              handles t = (if handler then seq 0 (visited (st_dest q1) (rs_rows rs)) else []) /\
              scans_into t (st_dest q1) /\
              StronglySorted lt (keys t) /\
              e = first_some [rs_close rs; match st_dest q1 with [] => None | _ => first_scan_err (rs_rows rs) end; rs_err rs]
  end.
Proof.
  unfold query. destruct (stmt_string d q) as [[[d2 q2] s]|] eqn:ES; [|discriminate].
  assert (Sh : shown d q = Some (s, st_args q2, st_dest q2)).
  { unfold shown. rewrite ES. cbn [bind].
    enough (st_args q2 = st_args q /\ st_dest q2 = st_dest q) as [-> ->] by reflexivity.
    unfold stmt_string in ES. destruct (is_empty (st_sql q)); [|injection ES as <- <- <-; auto].
    destruct (get_cached _ _); [injection ES as <- <- <-; auto|]. destruct (render _ _); [injection ES as <- <- <-; auto|discriminate]. }
  destruct (db s (st_args q2)) as [rs|err] eqn:ED.
  - destruct (query_loop (st_dest q2) handler 0 (rs_rows rs)) as [tl er] eqn:EL. intros H; injection H as <- <- <- <-.
    destruct (query_loop_spec _ _ _ _ _ _ EL) as (H1 & H2 & H3 & H4 & H5 & H6). destruct (query_loop_order _ _ _ _ _ _ EL) as [H7 _].
    exists s. split; [exact Sh|]. unfold queries in *. cbn [flat_map]. rewrite flat_map_app, H5. split; [reflexivity|].
    rewrite ED. unfold closes in *. cbn [filter]. rewrite filter_app, app_length, H4. split; [reflexivity|].
    split; [exists (EvQuery s (st_args q2) :: tl); reflexivity|].
    unfold handles in *. cbn [flat_map]. rewrite flat_map_app, H1. cbn. rewrite app_nil_r. split; [reflexivity|].
    split; [constructor; [exact I|]; apply Forall_app; split; [exact H6|repeat constructor]|].
    split. { unfold keys in *. cbn [flat_map ev_key app]. rewrite flat_map_app. cbn. rewrite app_nil_r. exact H7. }
    rewrite H3. destruct (rs_close rs), (st_dest q2), (first_scan_err (rs_rows rs)), (rs_err rs); reflexivity.
  - intros H; injection H as <- <- <- <-. exists s. rewrite ED. cbn. repeat split; auto.
Qed.
