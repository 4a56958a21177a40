(** Specification of the statement builder, independent of chunks, buffers and
    offsets: a statement is the list of the things written to it, in call
    order; its text is obtained clause by clause. *)
From Verif Require Import GoBase XsqlModel.
Open Scope Z_scope.

(** One thing written: [w_pos] is the rank of the clause in SQL order, [w_kw]
    the keyword text that opens the clause (with its leading new line if
    requested), [w_expr] the expression, [w_sep] what separates it from a
    preceding expression of the same clause. *)
Record write := mkWrite {
  w_pos : Z; w_kw : bytes; w_expr : bytes; w_args : list goany; w_sep : bytes }.

Record sstate := mkS { s_hist : list write; s_cur : Z; s_nl : bool; s_dest : list Z }.

(** The writes that belong to clause [p], in call order. *)
Definition at_pos (p : Z) (h : list write) : list write := filter (fun w => w_pos w =? p) h.
Definition has_pos (p : Z) (h : list write) : bool := negb (is_empty (at_pos p h)).

(** The ranks in use, increasing, each once. *)
Fixpoint ins_pos (p : Z) (l : list Z) : list Z :=
  match l with
  | [] => [p]
  | x :: r => if p <? x then p :: l else if p =? x then l else x :: ins_pos p r
  end.
Definition positions (h : list write) : list Z :=
  fold_left (fun l w => ins_pos (w_pos w) l) h [].

(** Text of one clause: the keyword, a space, the expressions with their
    separators; empty expressions write nothing. *)
Definition first_text (w : write) : bytes :=
  w_kw w ++ (if is_empty (w_kw w) || is_empty (w_expr w) then [] else B " ") ++ w_expr w.
Fixpoint more_text (has : bool) (ws : list write) : bytes :=
  match ws with
  | [] => []
  | w :: r =>
      if is_empty (w_expr w) then more_text has r
      else (if has then w_sep w else B " ") ++ w_expr w ++ more_text true r
  end.
Definition clause_text (ws : list write) : bytes :=
  match ws with
  | [] => []
  | w :: r => first_text w ++ more_text (negb (is_empty (w_expr w))) r
  end.

(** Arguments of one clause: those of its expressions in order; repeating a
    clause that consists of its keyword only (LIMIT ?) replaces its argument. *)
Fixpoint more_args (acc : list goany) (ws : list write) : list goany :=
  match ws with
  | [] => acc
  | w :: r =>
      more_args (if is_empty (w_expr w) then w_args w ++ skipn (length (w_args w)) acc
                 else acc ++ w_args w) r
  end.
Definition clause_args (ws : list write) : list goany :=
  match ws with [] => [] | w :: r => more_args (w_args w) r end.

(** The statement: clauses by increasing rank, separated by one space. *)
Definition spec_text (h : list write) : bytes :=
  join (B " ") (map (fun p => clause_text (at_pos p h)) (positions h)).
Definition spec_sql (h : list write) : bytes := trim sql_ws (spec_text h).
Definition spec_args (h : list write) : list goany :=
  concat (map (fun p => clause_args (at_pos p h)) (positions h)).

(** ** What each builder call writes *)
Definition nlkw (s : sstate) (kw : bytes) : bytes :=
  if is_empty kw then [] else (if s_nl s then [ch 10] else []) ++ kw.

Definition max_pos (h : list write) : option Z :=
  match positions h with [] => None | ps => Some (last ps 0) end.

Definition row_writes (first : bool) : bool -> list (bytes * bytes * list goany) -> list write :=
  fix go (notEmpty : bool) l :=
    match l with
    | [] => []
    | (f, e, a) :: r =>
        (if first
         then [mkWrite 400 [] f [] (B ", "); mkWrite 500 [] e a (B ", ")]
         else [mkWrite 500 [] e a (if notEmpty then B ", " else [])]) ++ go true r
    end.

Fixpoint bind_leaves (f : bfield) : list (bytes * Z) :=
  match f with
  | BEmbedded fs => flat_map bind_leaves fs
  | BLeaf tag addr => if is_empty tag then [] else [(tag_name tag, addr)]
  end.

(** Ranks: WITH 200, INSERT 300, its column list 400 and value list 500, DELETE
    600, UPDATE 700, SET 800, SELECT 900, FROM 1100, WHERE 1200, GROUP BY 1300,
    HAVING 1400, UNION 1500, ORDER BY 1600, LIMIT 1700, OFFSET 1800, RETURNING
    1900. *)
Definition emits (s : sstate) (c : bcall) : list write :=
  match c with
  | CSelect e a => [mkWrite 900 (nlkw s (B "SELECT")) e a (B ", ")]
  | CReturning e => [mkWrite 1900 (nlkw s (B "RETURNING")) e [] (B ", ")]
  | CUpdate t => [mkWrite 700 (nlkw s (B "UPDATE")) t [] (B ", ")]
  | CInsertInto t => [mkWrite 300 (nlkw s (B "INSERT INTO")) t [] (B ", ");
                      mkWrite 399 (nlkw s (B "(")) [] [] [];
                      mkWrite 499 (nlkw s (B ") VALUES (")) [] [] [];
                      mkWrite 501 (nlkw s (B ")")) [] [] []]
  | CDeleteFrom t => [mkWrite 600 (nlkw s (B "DELETE FROM")) t [] (B ", ")]
  | CSet f v =>
      if has_pos 300 (s_hist s) then [mkWrite 400 [] f [] (B ", "); mkWrite 500 [] (B "?") [v] (B ", ")]
      else if has_pos 700 (s_hist s) then [mkWrite 800 (nlkw s (B "SET")) (f ++ B "=?") [v] (B ", ")]
      else []
  | CSetExpr f e a =>
      if has_pos 300 (s_hist s) then [mkWrite 400 [] f [] (B ", "); mkWrite 500 [] e a (B ", ")]
      else if has_pos 700 (s_hist s) then [mkWrite 800 (nlkw s (B "SET")) (f ++ B "=" ++ e) a (B ", ")]
      else []
  | CFrom e a => [mkWrite 1100 (nlkw s (B "FROM")) e a (B ", ")]
  | CWhere e a => [mkWrite 1200 (nlkw s (B "WHERE")) e a (B " AND ")]
  | CIn a => [mkWrite 1200 [] (B "IN (" ++ join (B ",") (repeat (B "?") (length a)) ++ B ")") a (B " ")]
  | CJoin t on => [mkWrite 1100 [] (B "JOIN " ++ t ++ B " ON (" ++ on ++ B ")") [] (B " ")]
  | CLeftJoin t on => [mkWrite 1100 [] (B "LEFT JOIN " ++ t ++ B " ON (" ++ on ++ B ")") [] (B " ")]
  | CRightJoin t on => [mkWrite 1100 [] (B "RIGHT JOIN " ++ t ++ B " ON (" ++ on ++ B ")") [] (B " ")]
  | CFullJoin t on => [mkWrite 1100 [] (B "FULL JOIN " ++ t ++ B " ON (" ++ on ++ B ")") [] (B " ")]
  | COrderBy es => [mkWrite 1600 (nlkw s (B "ORDER BY")) (join (B ", ") es) [] (B ", ")]
  | CGroupBy e => [mkWrite 1300 (nlkw s (B "GROUP BY")) e [] (B ", ")]
  | CHaving e a => [mkWrite 1400 (nlkw s (B "HAVING")) e a (B " AND ")]
  | CLimit v => [mkWrite 1700 (nlkw s (B "LIMIT ?")) [] [v] []]
  | COffset v => [mkWrite 1800 (nlkw s (B "OFFSET ?")) [] [v] []]
  | CPaginate p n =>
      (if 1 <? p then [mkWrite 1800 (nlkw s (B "OFFSET ?")) [] [AInt (i64 ((p - 1) * Z.max 1 n))] []] else [])
      ++ [mkWrite 1700 (nlkw s (B "LIMIT ?")) [] [AInt (Z.max 1 n)] []]
  | CExpr e a => [mkWrite (s_cur s) [] e a (B ", ")]
  | CClause e a =>
      [mkWrite (match max_pos (s_hist s) with None => 100 | Some p => p + 10 end) (nlkw s e) [] a (B ", ")]
  | CWith n t a => [mkWrite 200 (nlkw s (B "WITH")) [] [] [];
                    mkWrite 200 [] (n ++ B " AS (" ++ t ++ B ")") a (B ", ")]
  | CSubQuery p x t a => [mkWrite (s_cur s) [] (p ++ t ++ x) a (if s_cur s =? 1200 then B " AND " else B ", ")]
  | CUnion all t a =>
      [mkWrite (match max_pos (s_hist s) with None => 1500 | Some l => if 1500 <=? l then l + 1 else 1500 end)
               (nlkw s ((if all then B "UNION ALL " else B "UNION ") ++ t)) [] a []]
  | CNewRow sets =>
      if has_pos 500 (s_hist s)
      then mkWrite 500 [] (B " ") [] (B " ), (") :: row_writes false false sets
      else row_writes true false sets
  | CBind fs => map (fun x => mkWrite 900 (nlkw s (B "SELECT")) (fst x) [] (B ", ")) (flat_map bind_leaves fs)
  | CTo _ | CUseNewLines _ | CSetName _ | CInvalidate => []
  end.

(** The clause a following Expr/SubQuery appends to: the last one written,
    except that after InsertInto it is the column list. *)
Definition cur_after (s : sstate) (c : bcall) : Z :=
  match c with
  | CInsertInto _ => 400
  | _ => match emits s c with [] => s_cur s | ws => w_pos (last ws (mkWrite 0 [] [] [] [])) end
  end.

Definition dests (c : bcall) : list Z :=
  match c with
  | CTo ds => ds
  | CBind fs => map snd (flat_map bind_leaves fs)
  | _ => []
  end.

Definition spec_call (s : sstate) (c : bcall) : sstate :=
  mkS (s_hist s ++ emits s c) (cur_after s c)
      (match c with CUseNewLines b => b | _ => s_nl s end)
      (s_dest s ++ dests c).

Definition spec_calls (s : sstate) (cs : list bcall) : sstate := fold_left spec_call cs s.

(** ** Calls covered by the argument-order theorem
    An argument-carrying write must come with a non-empty expression, or open
    its clause, or repeat a keyword-only clause with the same number of
    arguments (LIMIT ? / OFFSET ?).  SubQuery needs a non-empty prefix. *)
Definition ok_write (h : list write) (w : write) : bool :=
  is_empty (w_args w) || negb (is_empty (w_expr w)) ||
  match at_pos (w_pos w) h with
  | [] => true
  | w0 :: _ => forallb (fun x => is_empty (w_expr x)) (at_pos (w_pos w) h)
               && (length (w_args w0) =? length (w_args w))%nat
  end.
Fixpoint ok_writes (h : list write) (ws : list write) : bool :=
  match ws with [] => true | w :: r => ok_write h w && ok_writes (h ++ [w]) r end.
Definition ok_call (s : sstate) (c : bcall) : bool :=
  ok_writes (s_hist s) (emits s c) &&
  match c with CSubQuery p _ _ _ => negb (is_empty p) | _ => true end.
Fixpoint ok_calls (s : sstate) (cs : list bcall) : bool :=
  match cs with [] => true | c :: r => ok_call s c && ok_calls (spec_call s c) r end.

(** Statement constructors. *)
Definition init_state (nl : bool) : sstate := mkS [] 0 nl [].
Definition spec_ctor (s : sstate) (k : ctor) : sstate :=
  match k with
  | KNew v a => mkS [mkWrite 900 (nlkw s v) [] a (B ", ")] 900 (s_nl s) []
  | KWith n t a => spec_call s (CWith n t a)
  | KFrom e a => spec_call s (CFrom e a)
  | KSelect e a => spec_call s (CSelect e a)
  | KUpdate t => spec_call s (CUpdate t)
  | KInsertInto t => spec_call s (CInsertInto t)
  | KDeleteFrom t => spec_call s (CDeleteFrom t)
  end.
Definition ok_ctor (k : ctor) : bool :=
  match k with
  | KFrom e a | KSelect e a => is_empty a || negb (is_empty e)
  | _ => true
  end.
Definition ok_build (nl : bool) (k : ctor) (cs : list bcall) : bool :=
  ok_ctor k && ok_calls (spec_ctor (init_state nl) k) cs.
Definition spec_build (nl : bool) (k : ctor) (cs : list bcall) : sstate :=
  spec_calls (spec_ctor (init_state nl) k) cs.

(** ** Postgres numbering
    [pg_number k s]: from left to right, each '?' becomes $k, $k+1, ...; the
    two bytes "\?" become '?'; every other byte is kept.  Returns also the next
    number. *)
Fixpoint pg_number (k : Z) (s : bytes) : Z * bytes :=
  match s with
  | [] => (k, [])
  | c :: r =>
      if ascii_dec c c_bs then
        match r with
        | d :: r' =>
            if ascii_dec d c_qm then let '(k', o) := pg_number k r' in (k', c_qm :: o)
            else let '(k', o) := pg_number k r in (k', c :: o)
        | [] => (k, [c])
        end
      else if ascii_dec c c_qm then
        let '(k', o) := pg_number (k + 1) r in (k', [c_dollar] ++ fmt_uint 10 k ++ o)
      else let '(k', o) := pg_number k r in (k', c :: o)
  end.

(** Number of placeholders: '?' not preceded by an (unconsumed) backslash. *)
Fixpoint placeholders (s : bytes) : nat :=
  match s with
  | [] => 0
  | c :: r =>
      if ascii_dec c c_bs then
        match r with
        | d :: r' => if ascii_dec d c_qm then placeholders r' else placeholders r
        | [] => 0%nat
        end
      else if ascii_dec c c_qm then S (placeholders r) else placeholders r
  end.

(** A fragment fit for the postgres dialect: one placeholder per argument, no
    '?' at all without arguments, and no backslash at its end. *)
Definition ends_bs (s : bytes) : bool := has_suffix [c_bs] s.
Definition pg_fragment (text : bytes) (args : list goany) : bool :=
  (placeholders text =? length args)%nat
  && (negb (is_empty args) || negb (existsb (fun c => if ascii_dec c c_qm then true else false) text))
  && negb (ends_bs text).
Definition pg_write (h : list write) (w : write) : bool :=
  pg_fragment (if is_empty (at_pos (w_pos w) h) then first_text w else w_expr w)
              (if is_empty (at_pos (w_pos w) h) || negb (is_empty (w_expr w)) then w_args w else [])
  && pg_fragment (w_sep w) [].
Fixpoint pg_hist (h ws : list write) : bool :=
  match ws with [] => true | w :: r => pg_write h w && pg_hist (h ++ [w]) r end.

(** The text a dialect shows for a dialect-neutral text. *)
Definition numbered (d : dialect) (s : bytes) : bytes := if is_pg d then snd (pg_number 1 s) else s.
