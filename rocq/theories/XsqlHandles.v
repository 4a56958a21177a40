(** Running statements with a handler that may panic, the AndClose variants of the
    executor methods, Row values used more than once, and the default dialect. *)
From Verif Require Import GoBase GoBaseFacts XsqlModel XsqlExec.
Open Scope Z_scope.

(** ** executor.go *)
(** executor.go:79-84 QueryRowAndClose, 97-101 ExecAndClose *)
Definition query_row_and_close d q db :=
  match query_row d q db with None => None | Some (d1, q1, t, e) => Some (d1, reuse_stmt q1, t ++ [EvRelease], e) end.
Definition exec_and_close d q db :=
  match exec d q db with None => None | Some (d1, q1, t, e) => Some (d1, reuse_stmt q1, t ++ [EvRelease], e) end.

(** executor.go:21-66 with a handler that panics on the rows [bad] says; the
    second component is true if the call ended in a panic (then nothing after the
    handler call is executed: there is no defer). *)
Fixpoint query_loop_p (dest : list Z) (bad : nat -> bool) (n : nat) (rows : list goerr) : list event * bool * goerr :=
  match rows with
  | [] => ([], false, None)
  | r :: rest =>
      let scanned := match dest with [] => ([], None) | _ => ([EvScan n dest], r) end in
      match snd scanned with
      | Some e => (fst scanned, false, Some e)
      | None => if bad n then (fst scanned ++ [EvHandle n], true, None)
                else let '(t, p, e) := query_loop_p dest bad (S n) rest in (fst scanned ++ EvHandle n :: t, p, e)
      end
  end.
Definition query_and_close_p (d : dialect) (q : stmt) (db : bytes -> list goany -> rowset + Z) (bad : nat -> bool)
  : option (list event * bool * goerr) :=
  match stmt_string d q with
  | None => None
  | Some (d1, q1, s) =>
      match db s (st_args q1) with
      | inr e => Some ([EvQuery s (st_args q1); EvRelease], false, Some e)
      | inl rs =>
          match query_loop_p (st_dest q1) bad 0 (rs_rows rs) with
          | (t, true, _) => Some (EvQuery s (st_args q1) :: t, true, None)
          | (t, false, err) =>
              Some ((EvQuery s (st_args q1) :: t ++ [EvClose]) ++ [EvRelease], false,
                    match rs_close rs with Some e => Some e | None => match err with Some e => Some e | None => rs_err rs end end)
          end
      end
  end.
Definition releases (t : list event) : nat := length (filter (fun e => match e with EvRelease => true | _ => false end) t).

(** Without a panic this is [query_and_close]. *)
Lemma loop_p_same dest rows : forall n,
  query_loop_p dest (fun _ => false) n rows = (fst (query_loop dest true n rows), false, snd (query_loop dest true n rows)).
Proof.
  induction rows as [|r rows IH]; intros n; [reflexivity|]. cbn [query_loop_p query_loop]. destruct dest as [|z dest]; cbn [fst snd].
  - rewrite IH. destruct (query_loop [] true (S n) rows). reflexivity.
  - destruct r as [e|]; [reflexivity|]. rewrite IH. destruct (query_loop (z :: dest) true (S n) rows). reflexivity.
Qed.
Lemma and_close_p_same d q db : query_and_close_p d q db (fun _ => false) =
  match query_and_close d q db true with Some (_, _, t, e) => Some (t, false, e) | None => None end.
Proof.
  unfold query_and_close_p, query_and_close, query. destruct (stmt_string d q) as [[[d1 q1] s]|]; [|reflexivity].
  destruct (db s (st_args q1)) as [rs|e]; [|reflexivity]. rewrite loop_p_same. destruct (query_loop (st_dest q1) true 0 (rs_rows rs)). reflexivity.
Qed.
Lemma loop_p_quiet dest bad rows : forall n t p e, query_loop_p dest bad n rows = (t, p, e) -> closes t = 0%nat /\ releases t = 0%nat.
Proof.
  unfold closes, releases. induction rows as [|r rows IH]; intros n t p e; cbn [query_loop_p]; [intros E; injection E as <- _ _; split; reflexivity|].
  destruct dest as [|z dest]; cbn [fst snd].
  - destruct (bad n); [intros E; injection E as <- _ _; split; reflexivity|]. destruct (query_loop_p [] bad (S n) rows) as [[t' p'] e'] eqn:E. intros X; injection X as <- _ _. apply IH in E. exact E.
  - destruct r as [x|]; [intros E; injection E as <- _ _; split; reflexivity|]. destruct (bad n); [intros E; injection E as <- _ _; split; reflexivity|].
    destruct (query_loop_p (z :: dest) bad (S n) rows) as [[t' p'] e'] eqn:E. intros X; injection X as <- _ _. apply IH in E. exact E.
Qed.
(** The handler is reached on row k of k+1 readable rows. *)
Lemma loop_p_reached bad rows : forall n k dest, nth_error rows k <> None -> (forall j, (j <= k)%nat -> nth_error rows j = Some None) -> bad (n + k)%nat = true -> (forall j, (j < k)%nat -> bad (n + j)%nat = false) ->
  exists t, query_loop_p dest bad n rows = (t, true, None).
Proof.
  induction rows as [|r rows IH]; intros n k dest N G Hb Hs; [destruct k; cbn in N; congruence|]. cbn [query_loop_p].
  assert (r = None) as -> by (specialize (G 0%nat ltac:(lia)); injection G; auto).
  assert (T : exists t, (if bad n then ((match dest with [] => [] | _ => [EvScan n dest] end) ++ [EvHandle n], true, None)
                        else let '(t, p, e) := query_loop_p dest bad (S n) rows in ((match dest with [] => [] | _ => [EvScan n dest] end) ++ EvHandle n :: t, p, e)) = (t, true, None : goerr)).
  { destruct k as [|k].
    - rewrite Nat.add_0_r in Hb. rewrite Hb. eexists. reflexivity.
    - pose proof (Hs 0%nat ltac:(lia)) as H0. rewrite Nat.add_0_r in H0. rewrite H0.
      destruct (IH (S n) k dest) as [t E]; [exact N|intros j Hj; apply (G (S j)); lia| | |].
      + replace (S n + k)%nat with (n + S k)%nat by lia. exact Hb.
      + intros j Hj. replace (S n + j)%nat with (n + S j)%nat by lia. apply Hs. lia.
      + rewrite E. eexists. reflexivity. }
  destruct dest; exact T.
Qed.

(** ** Rows *)
(** row.Set(...) for every entry, each on the value [r] that NewRow returned
    (stmt.go:1216-1247: SetExpr has a value receiver and returns a new Row) *)
Fixpoint row_sets_unchained (q : stmt) (r : row) (l : list (bytes * bytes * list goany)) : option stmt :=
  match l with
  | [] => Some q
  | (f, e, a) :: l' => match row_set_expr q r f e a with Some (q1, _) => row_sets_unchained q1 r l' | None => None end
  end.
Lemma first_row_unchained l : forall q b, row_sets_unchained q (mkRow true b) l = row_sets q (mkRow true b) l.
Proof.
  induction l as [|[[f e] a] l IH]; intros q b; [reflexivity|]. cbn [row_sets_unchained row_sets]. unfold row_set_expr. cbn [row_first row_notEmpty bind].
  destruct (addc q posInsertFields [] f [] (B ", ")) as [q1|]; [|reflexivity]. cbn [bind]. destruct (addc q1 posValues [] e a (B ", ")) as [q2|]; [|reflexivity]. cbn [bind].
  rewrite IH. clear IH. revert q2. destruct b; [reflexivity|]. induction l as [|[[f' e'] a'] l IH]; intros q2; [reflexivity|]. cbn [row_sets]. unfold row_set_expr. cbn [row_first]. reflexivity.
Qed.
(** A row of one value: nothing to separate. *)
Lemma one_value_unchained q r f e a : row_sets_unchained q r [(f, e, a)] = row_sets q r [(f, e, a)].
Proof. cbn [row_sets_unchained row_sets]. destruct (row_set_expr q r f e a) as [[q1 r1]|]; reflexivity. Qed.
(** InsertInto(t), then for every row NewRow() and its Sets, chained or not. *)
Fixpoint insert_rows (chained : bool) (q : stmt) (rows : list (list (bytes * bytes * list goany))) : option stmt :=
  match rows with
  | [] => Some q
  | r :: rest => match new_row q with
                 | Some (q1, h) => match (if chained then row_sets q1 h r else row_sets_unchained q1 h r) with Some q2 => insert_rows chained q2 rest | None => None end
                 | None => None
                 end
  end.

(** ** The default dialect *)
(** dialect.go:98-115, stmt.go:351-444.  A dialect value: one of the *Dialect objects,
    or an object of another type that implements SQLDialect.  atomic.Value.Store
    panics on nil and on a value of another type than the stored one. *)
Inductive dvalue := DStd (did : nat) | DOther (ty id : nat) | DNil.
Definition same_type (a b : dvalue) : bool :=
  match a, b with DStd _, DStd _ => true | DOther x _, DOther y _ => Nat.eqb x y | _, _ => false end.
(** init: NoDialect is object 0 *)
Definition initial_dialect : dvalue := DStd 0.
Definition set_dialect (cell v : dvalue) : option dvalue := if same_type cell v then Some v else None.
(** A program: SetDialect calls (a panic is recovered from) and statements started
    with the package level functions, of which the dialect used is observed. *)
Inductive dop := OSet (v : dvalue) | OStart.
Definition dstep (cell : dvalue) (o : dop) : dvalue * (bool * option dvalue) :=
  match o with
  | OSet v => match set_dialect cell v with Some c => (c, (false, None)) | None => (cell, (true, None)) end
  | OStart => (cell, (false, Some cell))
  end.
Fixpoint drun (cell : dvalue) (ops : list dop) : dvalue * list (bool * option dvalue) :=
  match ops with [] => (cell, []) | o :: r => let '(c1, x) := dstep cell o in let '(c2, xs) := drun c1 r in (c2, x :: xs) end.
(** Specification: the last standard dialect that was set. *)
Fixpoint last_set (dflt : nat) (ops : list dop) : nat :=
  match ops with [] => dflt | OSet (DStd n) :: r => last_set n r | _ :: r => last_set dflt r end.
Lemma drun_cell ops : forall n, fst (drun (DStd n) ops) = DStd (last_set n ops).
Proof.
  induction ops as [|o ops IH]; intros n; [reflexivity|]. cbn [drun last_set]. destruct o as [[m|ty id|]|]; cbn [dstep set_dialect same_type].
  - specialize (IH m). destruct (drun (DStd m) ops). exact IH.
  - specialize (IH n). destruct (drun (DStd n) ops). exact IH.
  - specialize (IH n). destruct (drun (DStd n) ops). exact IH.
  - specialize (IH n). destruct (drun (DStd n) ops). exact IH.
Qed.
Lemma drun_app a b c : fst (drun c (a ++ b)) = fst (drun (fst (drun c a)) b).
Proof. revert c. induction a as [|o a IH]; intros c; [reflexivity|]. cbn [app drun]. destruct (dstep c o) as [c1 x]. specialize (IH c1). destruct (drun c1 (a ++ b)), (drun c1 a). exact IH. Qed.
