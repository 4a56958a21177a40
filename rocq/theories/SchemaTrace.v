(** Result sets opened and closed by a listing (schema/provider.go), beside the
    functions of SchemaModel that compute its result.  provider.go never calls
    rows.Close(): database/sql closes a result set when Next returns false (there
    is one result set per query), so the set stays open when the loop is left
    early.  A query that fails opens nothing. *)
From Verif Require Import GoBase TypeModel ParamModel SchemaModel.
Open Scope Z_scope.

Inductive ev := EOpen | EClose.

(** for rows.Next() { .. } : [ev1] are the events of the body. *)
Fixpoint loop_events {S R} (f : S -> R -> S * outcome unit) (ev1 : S -> R -> list ev) (st : S) (rows : list (scan R)) : list ev :=
  match rows with
  | [] => [EClose]
  | SRow r :: rest => ev1 st r ++ match f st r with (st', ROk _) => loop_events f ev1 st' rest | _ => [] end
  | _ => []
  end.
Definition query_events {S R} (f : S -> R -> S * outcome unit) (ev1 : S -> R -> list ev) (st : S) (q : rowsrc R + Z) : list ev :=
  match q with inr _ => [] | inl src => EOpen :: loop_events f ev1 st (src_rows src) end.
Definition no_events {S R} (st : S) (r : R) : list ev := [].
(** provider.go:205-239 readColumnsSchema *)
Definition columns_events (cat : catalog) (st : prov) (s t : bytes) : list ev :=
  query_events (column_row s t) no_events (st, []) (cat_columns cat s t).
(** provider.go:241-276 readIndexesSchema *)
Definition indexes_events (cat : catalog) (s t : bytes) : list ev :=
  query_events (fun ii r => (ii ++ [make_index r], ROk tt)) no_events [] (cat_indexes cat s t).
(** provider.go:75-115 *)
Definition table_events (cat : catalog) (schemas tables : list bytes) (x : prov * list table) (r : tabrow) : list ev :=
  if negb (wanted schemas tables (tr_schema r) (tr_name r)) then []
  else columns_events cat (fst x) (tr_schema r) (tr_name r) ++
       match snd (read_columns cat (fst x) (tr_schema r) (tr_name r)) with
       | ROk _ => indexes_events cat (tr_schema r) (tr_name r)
       | _ => []
       end.
(** provider.go:67-119, ListTables without dependencies *)
Definition list_tables_events (cat : catalog) (st : prov) (schemas tables : list bytes) : list ev :=
  query_events (table_row cat schemas tables) (table_events cat schemas tables) (st, []) (cat_tables cat).
(** provider.go:139-201 ListViews *)
Definition list_views_events (cat : catalog) (st : prov) (schemas tables : list bytes) : list ev :=
  query_events (view_row schemas tables) no_events (st, []) (cat_views cat).
(** provider.go:281-322 ListForeignKeys *)
Definition list_fks_events (cat : catalog) (st : prov) (schemas tables : list bytes) : list ev :=
  query_events (fk_row schemas tables) no_events (st, []) (cat_fks cat).
(** provider.go:374-385; [rec_ev] are the events of discoverTable *)
Fixpoint each_col_events (rec : prov -> bytes -> bytes -> option (prov * outcome unit)) (rec_ev : prov -> bytes -> bytes -> list ev) (st : prov) (ids : list nat) : list ev :=
  match ids with
  | [] => []
  | id :: r =>
      match nth_error (p_heap st) id with
      | None => []
      | Some c => match mget (c_fqn c) (p_fks st) with
                  | None => each_col_events rec rec_ev st r
                  | Some k => let st1 := set_heap st (upd_heap (p_heap st) id (set_ref k)) in
                              rec_ev st1 (k_rschema k) (k_rtable k) ++
                              match rec st1 (k_rschema k) (k_rtable k) with
                              | Some (st', ROk _) => each_col_events rec rec_ev st' r
                              | _ => []
                              end
                  end
      end
  end.
(** provider.go:354-388 discoverTable *)
Fixpoint discover_table_events (fuel : nat) (cat : catalog) (st : prov) (s t : bytes) : list ev :=
  match fuel with
  | O => []
  | S f => match mget (fqn2 s t) (p_tabs st) with
           | Some _ => []
           | None => columns_events cat st s t ++
                     match read_columns cat st s t with
                     | (st1, ROk cc) => each_col_events (discover_table f cat) (discover_table_events f cat) (put_table st1 (mkTab s t [] false cc [] None (fqn2 s t))) cc
                     | _ => []
                     end
           end
  end.
(** provider.go:332-343 *)
Fixpoint each_key_events (fuel : nat) (cat : catalog) (st : prov) (ord : list bytes) : list ev :=
  match ord with
  | [] => []
  | n :: r =>
      match mget n (p_cols st), mget n (p_fks st) with
      | Some id, Some k => let st1 := set_heap st (upd_heap (p_heap st) id (set_ref k)) in
                           discover_table_events fuel cat st1 (k_rschema k) (k_rtable k) ++
                           match discover_table fuel cat st1 (k_rschema k) (k_rtable k) with
                           | Some (st', ROk _) => each_key_events fuel cat st' r
                           | _ => []
                           end
      | _, _ => each_key_events fuel cat st r
      end
  end.
(** provider.go:325-352 discover *)
Definition discover_events (fuel : nat) (cat : catalog) (st : prov) (ord : list bytes) : list ev :=
  list_fks_events cat st [] [] ++
  match list_fks cat st [] [] with (st1, ROk _) => each_key_events fuel cat st1 ord | _ => [] end.
(** provider.go:67-134 ListTables with dependencies *)
Definition list_tables_deps_events (fuel : nat) (cat : catalog) (st : prov) (schemas tables : list bytes) (ord : list bytes) : list ev :=
  list_tables_events cat st schemas tables ++
  match list_tables_only cat st schemas tables with (st1, ROk _) => discover_events fuel cat st1 ord | _ => [] end.

(** ** Specification *)
(** Result sets (and so connections) still open after the events, [n] before. *)
Fixpoint held (n : nat) (l : list ev) : nat :=
  match l with [] => n | EOpen :: r => held (S n) r | EClose :: r => held (pred n) r end.
(** The most that are open at once. *)
Fixpoint peak (n : nat) (l : list ev) : nat :=
  match l with [] => n | EOpen :: r => peak (S n) r | EClose :: r => Nat.max n (peak (pred n) r) end.
