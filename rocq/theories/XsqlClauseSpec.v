(** User-level specification of Clause(expr, args...) (stmt.go:497-508): an
    expression of the caller's own, put after every clause the statement has at
    that moment.  A statement is laid out as a list of slots; a clause of SQL that
    the statement does not have yet goes directly before the first clause that
    follows it in SQL order. *)
From Verif Require Import GoBase XsqlModel XsqlSpec XsqlUserSpec.

Inductive slot := Std (cl : sql_clause) | Extra (e : bytes) (a : list goany).

(** Index in SQL order. *)
Fixpoint index_of (cl : sql_clause) (l : list sql_clause) : nat :=
  match l with [] => 0%nat | x :: r => if clause_eqb cl x then 0%nat else S (index_of cl r) end.
Definition follows (a b : sql_clause) : bool := Nat.ltb (index_of b clause_order) (index_of a clause_order).

Fixpoint place (cl : sql_clause) (l : list slot) : list slot :=
  match l with
  | [] => [Std cl]
  | Extra e a :: r => Extra e a :: place cl r
  | Std c :: r => if clause_eqb cl c then Std c :: r else if follows c cl then Std cl :: Std c :: r else Std c :: place cl r
  end.
Definition add_slot (l : list slot) (c : bcall) : list slot :=
  match c with
  | CClause e a => l ++ [Extra e a]
  | _ => match part c with Some (cl, _, _) => place cl l | None => l end
  end.
Definition layout (cs : list bcall) : list slot := fold_left add_slot cs [].

Definition slot_text (nl : bool) (cs : list bcall) (s : slot) : list bytes :=
  match s with
  | Std cl => u_clause_text nl cl cs
  | Extra e _ => [(if nl then [ch 10] else []) ++ e]
  end.
Definition slot_args (cs : list bcall) (s : slot) : list goany :=
  match s with Std cl => u_clause_args cl cs | Extra _ a => a end.
Definition laid_sql (nl : bool) (cs : list bcall) : bytes :=
  trim sql_ws (join (B " ") (flat_map (slot_text nl cs) (layout cs))).
Definition laid_args (cs : list bcall) : list goany := flat_map (slot_args cs) (layout cs).

(** The statements covered: those of XsqlUserSpec with Clause calls. *)
Definition own_clause (c : bcall) : bool := match c with CClause _ _ => true | _ => false end.
Definition dml_or_clause (upd : bool) (c : bcall) : bool :=
  match c with CClause e _ => negb (is_empty e) | _ => dml_call upd c end.
