(** A second, user-level specification of the builder: what the README promises
    for SELECT / UPDATE / DELETE statements and for bulk INSERT.  It mentions
    neither ranks nor writes. *)
From Verif Require Import GoBase XsqlModel XsqlSpec.
Open Scope Z_scope.

Inductive sql_clause :=
| ClDelete | ClUpdate | ClSet | ClSelect | ClFrom | ClWhere | ClGroupBy | ClHaving | ClOrderBy
| ClLimit | ClOffset | ClReturning.

(** SQL order. *)
Definition clause_order : list sql_clause :=
  [ClDelete; ClUpdate; ClSet; ClSelect; ClFrom; ClWhere; ClGroupBy; ClHaving; ClOrderBy; ClLimit; ClOffset; ClReturning].

Definition keyword (c : sql_clause) : bytes :=
  match c with
  | ClDelete => B "DELETE FROM" | ClUpdate => B "UPDATE" | ClSet => B "SET" | ClSelect => B "SELECT"
  | ClFrom => B "FROM" | ClWhere => B "WHERE" | ClGroupBy => B "GROUP BY" | ClHaving => B "HAVING"
  | ClOrderBy => B "ORDER BY" | ClLimit => B "LIMIT ?" | ClOffset => B "OFFSET ?" | ClReturning => B "RETURNING"
  end.
Definition separator (c : sql_clause) : bytes :=
  match c with ClWhere | ClHaving => B " AND " | _ => B ", " end.

(** What a call contributes: the clause, an expression, its arguments. *)
Definition part (c : bcall) : option (sql_clause * bytes * list goany) :=
  match c with
  | CDeleteFrom t => Some (ClDelete, t, [])
  | CUpdate t => Some (ClUpdate, t, [])
  | CSet f v => Some (ClSet, f ++ B "=?", [v])
  | CSetExpr f e a => Some (ClSet, f ++ B "=" ++ e, a)
  | CSelect e a => Some (ClSelect, e, a)
  | CFrom e a => Some (ClFrom, e, a)
  | CWhere e a => Some (ClWhere, e, a)
  | CGroupBy e => Some (ClGroupBy, e, [])
  | CHaving e a => Some (ClHaving, e, a)
  | COrderBy es => Some (ClOrderBy, join (B ", ") es, [])
  | CLimit v => Some (ClLimit, [], [v])
  | COffset v => Some (ClOffset, [], [v])
  | CReturning e => Some (ClReturning, e, [])
  | _ => None
  end.

Definition clause_eqb (a b : sql_clause) : bool :=
  match a, b with
  | ClDelete, ClDelete | ClUpdate, ClUpdate | ClSet, ClSet | ClSelect, ClSelect | ClFrom, ClFrom
  | ClWhere, ClWhere | ClGroupBy, ClGroupBy | ClHaving, ClHaving | ClOrderBy, ClOrderBy
  | ClLimit, ClLimit | ClOffset, ClOffset | ClReturning, ClReturning => true
  | _, _ => false
  end.

(** The expressions and arguments given for clause [cl], in call order. *)
Definition parts (cl : sql_clause) (cs : list bcall) : list (bytes * list goany) :=
  flat_map (fun c => match part c with
                     | Some (cl', e, a) => if clause_eqb cl cl' then [(e, a)] else []
                     | None => []
                     end) cs.

(** Text and arguments of one clause: nothing if it was never mentioned;
    LIMIT and OFFSET appear once with the last value. *)
Definition u_clause_text (nl : bool) (cl : sql_clause) (cs : list bcall) : list bytes :=
  match parts cl cs with
  | [] => []
  | ps => [(if nl then [ch 10] else []) ++ keyword cl ++
           match cl with
           | ClLimit | ClOffset => []
           | _ => B " " ++ join (separator cl) (map fst ps)
           end]
  end.
Definition u_clause_args (cl : sql_clause) (cs : list bcall) : list goany :=
  match cl with
  | ClLimit | ClOffset => last (map snd (parts cl cs)) []
  | _ => concat (map snd (parts cl cs))
  end.

Definition user_sql (nl : bool) (cs : list bcall) : bytes :=
  trim sql_ws (join (B " ") (flat_map (fun cl => u_clause_text nl cl cs) clause_order)).
Definition user_args (cs : list bcall) : list goany :=
  flat_map (fun cl => u_clause_args cl cs) clause_order.

(** Statements covered: started with Select/From/Update/DeleteFrom; every
    expression non-empty; Set only on an UPDATE. *)
Definition start_call (k : ctor) : option bcall :=
  match k with
  | KSelect e a => Some (CSelect e a)
  | KFrom e a => Some (CFrom e a)
  | KUpdate t => Some (CUpdate t)
  | KDeleteFrom t => Some (CDeleteFrom t)
  | _ => None
  end.
Definition is_update (k : ctor) : bool := match k with KUpdate _ => true | _ => false end.
Definition dml_call (upd : bool) (c : bcall) : bool :=
  match c with
  | CLimit _ | COffset _ => true
  | CSet f _ | CSetExpr f _ _ => upd
  | CDeleteFrom e | CUpdate e | CSelect e _ | CFrom e _ | CWhere e _ | CGroupBy e | CHaving e _ | CReturning e =>
      negb (is_empty e)
  | COrderBy es => negb (is_empty (join (B ", ") es))
  | _ => false
  end.

(** ** Bulk INSERT *)
(** "( ?, ?, ? )" *)
Definition row_marks (n : nat) : bytes := join (B ", ") (repeat (B "?") n).
Definition insert_sql (nl : bool) (table : bytes) (cols : list bytes) (rows : nat) : bytes :=
  let n := if nl then [ch 10] else [] in
  trim sql_ws
    (n ++ B "INSERT INTO " ++ table ++ B " " ++ n ++ B "( " ++ join (B ", ") cols ++ B " " ++ n ++ B ") VALUES ( " ++
     join (B " ), ( ") (repeat (row_marks (length cols)) rows) ++ B " " ++ n ++ B ")").

(** NewRow().Set(c1, v1).Set(c2, v2)... *)
Definition row_call (cols : list bytes) (vals : list goany) : bcall :=
  CNewRow (map (fun cv => (fst cv, B "?", [snd cv])) (combine cols vals)).

(** ** Calls that name a clause *)
(** The clause a call writes to; joins belong to FROM and In to WHERE.  None:
    the call's effect depends on earlier calls, or it writes to several
    clauses. *)
Definition clause_of (c : bcall) : option bytes :=
  match c with
  | CWith _ _ _ => Some (B "WITH")
  | CDeleteFrom _ => Some (B "DELETE FROM")
  | CUpdate _ => Some (B "UPDATE")
  | CSelect _ _ => Some (B "SELECT")
  | CFrom _ _ | CJoin _ _ | CLeftJoin _ _ | CRightJoin _ _ | CFullJoin _ _ => Some (B "FROM")
  | CWhere _ _ | CIn _ => Some (B "WHERE")
  | CGroupBy _ => Some (B "GROUP BY")
  | CHaving _ _ => Some (B "HAVING")
  | COrderBy _ => Some (B "ORDER BY")
  | CLimit _ => Some (B "LIMIT")
  | COffset _ => Some (B "OFFSET")
  | CReturning _ => Some (B "RETURNING")
  | _ => None
  end.
Definition is_clause (cl : bytes) (c : bcall) : bool :=
  match clause_of c with Some x => beqb x cl | None => false end.
Definition has_clause (c : bcall) : bool := match clause_of c with Some _ => true | None => false end.

(** Text of an INSERT with column list [cols] and the text [vals] between the
    outer parentheses of VALUES. *)
Definition insert_text (nl : bool) (table : bytes) (cols : list bytes) (vals : bytes) : bytes :=
  let n := if nl then [ch 10] else [] in
  trim sql_ws
    (n ++ B "INSERT INTO " ++ table ++ B " " ++ n ++ B "( " ++ join (B ", ") cols ++ B " " ++ n ++ B ") VALUES ( " ++
     vals ++ B " " ++ n ++ B ")").

(** One row as (column, expression, arguments) triples; the VALUES text of a
    list of rows and their arguments in row-major order. *)
Definition row_text (sets : list (bytes * bytes * list goany)) : bytes :=
  join (B ", ") (map (fun x => snd (fst x)) sets).
Definition rows_text (rows : list (list (bytes * bytes * list goany))) : bytes :=
  join (B " ), ( ") (map row_text rows).
Definition rows_args (rows : list (list (bytes * bytes * list goany))) : list goany :=
  concat (map snd (concat rows)).
Definition row_cols (sets : list (bytes * bytes * list goany)) : list bytes := map (fun x => fst (fst x)) sets.
