(** A user-level specification of whole statements, wider than XsqlUserSpec: it
    also covers WITH, joins, In, Paginate, Bind and To.  It mentions neither
    ranks nor chunks. *)
From Verif Require Import GoBase XsqlModel XsqlSpec.
Open Scope Z_scope.

Inductive fclause :=
| FWith | FDelete | FUpdate | FSet | FSelect | FFrom | FWhere | FGroupBy | FHaving | FOrderBy
| FLimit | FOffset | FReturning.
(** SQL order. *)
Definition forder : list fclause :=
  [FWith; FDelete; FUpdate; FSet; FSelect; FFrom; FWhere; FGroupBy; FHaving; FOrderBy; FLimit; FOffset; FReturning].
Definition fclause_eqb (a b : fclause) : bool :=
  match a, b with
  | FWith, FWith | FDelete, FDelete | FUpdate, FUpdate | FSet, FSet | FSelect, FSelect | FFrom, FFrom | FWhere, FWhere
  | FGroupBy, FGroupBy | FHaving, FHaving | FOrderBy, FOrderBy | FLimit, FLimit | FOffset, FOffset | FReturning, FReturning => true
  | _, _ => false
  end.
Definition fkeyword (c : fclause) : bytes :=
  match c with
  | FWith => B "WITH" | FDelete => B "DELETE FROM" | FUpdate => B "UPDATE" | FSet => B "SET" | FSelect => B "SELECT"
  | FFrom => B "FROM" | FWhere => B "WHERE" | FGroupBy => B "GROUP BY" | FHaving => B "HAVING"
  | FOrderBy => B "ORDER BY" | FLimit => B "LIMIT ?" | FOffset => B "OFFSET ?" | FReturning => B "RETURNING"
  end.

(** What a call contributes to a clause: the text that separates it from what
    the clause already has, its expression and its arguments. *)
Record item := mkItem { i_clause : fclause; i_sep : bytes; i_expr : bytes; i_args : list goany }.
Definition comma := B ", ".
Definition join_item (kind t on : bytes) : item := mkItem FFrom (B " ") (kind ++ B " " ++ t ++ B " ON (" ++ on ++ B ")") [].
Definition items (c : bcall) : list item :=
  match c with
  | CWith n t a => [mkItem FWith comma (n ++ B " AS (" ++ t ++ B ")") a]
  | CDeleteFrom t => [mkItem FDelete comma t []]
  | CUpdate t => [mkItem FUpdate comma t []]
  | CSet f v => [mkItem FSet comma (f ++ B "=?") [v]]
  | CSetExpr f e a => [mkItem FSet comma (f ++ B "=" ++ e) a]
  | CSelect e a => [mkItem FSelect comma e a]
  | CBind fs => map (fun x => mkItem FSelect comma (fst x) []) (flat_map bind_leaves fs)
  | CFrom e a => [mkItem FFrom comma e a]
  | CJoin t on => [join_item (B "JOIN") t on]
  | CLeftJoin t on => [join_item (B "LEFT JOIN") t on]
  | CRightJoin t on => [join_item (B "RIGHT JOIN") t on]
  | CFullJoin t on => [join_item (B "FULL JOIN") t on]
  | CWhere e a => [mkItem FWhere (B " AND ") e a]
  | CIn a => [mkItem FWhere (B " ") (B "IN (" ++ join (B ",") (repeat (B "?") (length a)) ++ B ")") a]
  | CGroupBy e => [mkItem FGroupBy comma e []]
  | CHaving e a => [mkItem FHaving (B " AND ") e a]
  | COrderBy es => [mkItem FOrderBy comma (join (B ", ") es) []]
  | CLimit v => [mkItem FLimit [] [] [v]]
  | COffset v => [mkItem FOffset [] [] [v]]
  | CPaginate p n =>
      (if 1 <? p then [mkItem FOffset [] [] [AInt (i64 ((p - 1) * Z.max 1 n))]] else []) ++
      [mkItem FLimit [] [] [AInt (Z.max 1 n)]]
  | CReturning e => [mkItem FReturning comma e []]
  | _ => []
  end.
Definition of_clause (cl : fclause) (cs : list bcall) : list item :=
  filter (fun i => fclause_eqb cl (i_clause i)) (flat_map items cs).

Definition paging (cl : fclause) : bool := match cl with FLimit | FOffset => true | _ => false end.
(** Keyword, then the expressions in call order; LIMIT ? and OFFSET ? once. *)
Definition f_text (nl : bool) (cl : fclause) (is : list item) : list bytes :=
  match is with
  | [] => []
  | i :: r => [(if nl then [ch 10] else []) ++ fkeyword cl ++
               (if paging cl then [] else B " " ++ i_expr i ++ concat (map (fun j => i_sep j ++ i_expr j) r))]
  end.
Definition f_args (cl : fclause) (is : list item) : list goany :=
  if paging cl then last (map i_args is) [] else concat (map i_args is).

Definition full_sql (nl : bool) (cs : list bcall) : bytes :=
  trim sql_ws (join (B " ") (flat_map (fun cl => f_text nl cl (of_clause cl cs)) forder)).
Definition full_args (cs : list bcall) : list goany := flat_map (fun cl => f_args cl (of_clause cl cs)) forder.
Definition full_dest (cs : list bcall) : list Z :=
  flat_map (fun c => match c with CTo ds => ds | CBind fs => map snd (flat_map bind_leaves fs) | _ => [] end) cs.

(** Statements covered: any constructor but New and InsertInto, expressions not
    empty, Set only on an UPDATE, no join before the first From and no In before
    the first Where. *)
Definition full_start (k : ctor) : option bcall :=
  match k with
  | KWith n t a => Some (CWith n t a)
  | KSelect e a => Some (CSelect e a)
  | KFrom e a => Some (CFrom e a)
  | KUpdate t => Some (CUpdate t)
  | KDeleteFrom t => Some (CDeleteFrom t)
  | _ => None
  end.
Definition updates (k : ctor) : bool := match k with KUpdate _ => true | _ => false end.
Definition full_call (upd : bool) (c : bcall) : bool :=
  match c with
  | CDeleteFrom e | CUpdate e | CSelect e _ | CFrom e _ | CWhere e _ | CGroupBy e | CHaving e _ | CReturning e => negb (is_empty e)
  | COrderBy es => negb (is_empty (join (B ", ") es))
  | CSet _ _ | CSetExpr _ _ _ => upd
  | CBind fs => forallb (fun x => negb (is_empty (fst x))) (flat_map bind_leaves fs)
  | CLimit _ | COffset _ | CPaginate _ _ | CWith _ _ _ | CTo _ | CIn _
  | CJoin _ _ | CLeftJoin _ _ | CRightJoin _ _ | CFullJoin _ _ => true
  | _ => false
  end.
Fixpoint opened_first (seen_from seen_where : bool) (cs : list bcall) : bool :=
  match cs with
  | [] => true
  | c :: r =>
      match c with
      | CJoin _ _ | CLeftJoin _ _ | CRightJoin _ _ | CFullJoin _ _ => seen_from
      | CIn _ => seen_where
      | _ => true
      end &&
      opened_first (seen_from || match c with CFrom _ _ => true | _ => false end)
                   (seen_where || match c with CWhere _ _ => true | _ => false end) r
  end.
