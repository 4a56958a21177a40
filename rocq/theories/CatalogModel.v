(** The catalog queries of schema/postgres.go and schema/sqlserver.go as functions of
    a database: the system catalogs and information_schema views a server derives from
    it, and the SELECT statements over them.
    Simplifications: the catalogs are those columns the queries use, as the servers
    document them; object ids are the places of tables and indexes in the database;
    a query is a nested loop over its FROM list with the WHERE conditions moved to the
    first loop that can test them; the order of rows is left open where the catalog is
    asked (pg_answers, ms_answers), so ORDER BY is left out; dropped columns are left
    out, so the ordinal position of a column is its place; SQL compares names byte by
    byte. *)
From Verif Require Import GoBase TypeModel ParamModel SchemaModel SchemaSpec.
From Coq Require Import Permutation.
Open Scope Z_scope.

(** ** A database *)
Inductive tkind := TTable | TPartitioned | TForeign | TView | TMatview.
Record acol := mkAC { a_name : bytes; a_type : bytes; a_udt : bytes; a_null : bool; a_max : option Z }.
(** Key columns in order, None for an expression; included columns *)
Record aindex := mkAI { ai_name : bytes; ai_primary : bool; ai_unique : bool; ai_keys : list (option bytes); ai_incl : list bytes }.
Record afk := mkAF { af_name : bytes; af_cols : list bytes; af_rschema : bytes; af_rtable : bytes; af_rcols : list bytes }.
(** [at_keys] are the PRIMARY KEY and UNIQUE constraints, [at_checks] the CHECK
    constraints with the columns they use; [at_props] (SQL Server) the class and the name of
    the extended properties whose major_id is the table's object_id. *)
Record atable := mkAT { at_schema : bytes; at_name : bytes; at_kind : tkind; at_cols : list acol; at_idx : list aindex; at_fks : list afk;
  at_keys : list (bytes * list bytes); at_checks : list (bytes * list bytes); at_props : list (bytes * bytes); at_shipped : bool }.
Definition database := list atable.

(** ** SQL *)
Definition enum {A} (l : list A) : list (nat * A) := combine (seq 0 (length l)) l.
Definition where_ {A} (c : bool) (l : list A) : list A := if c then l else [].
(** l LEFT JOIN r ON on *)
Definition left_join {A B} (l : list A) (r : list B) (on : A -> B -> bool) : list (A * option B) :=
  flat_map (fun a => match filter (on a) r with [] => [(a, None)] | bs => map (fun b => (a, Some b)) bs end) l.
(** GROUP BY: the groups in the order of their first rows *)
Fixpoint add_group {K V} (eqb : K -> K -> bool) (k : K) (v : V) (g : list (K * list V)) : list (K * list V) :=
  match g with [] => [(k, [v])] | (j, vs) :: r => if eqb j k then (j, vs ++ [v]) :: r else (j, vs) :: add_group eqb k v r end.
Definition group_by {K V} (eqb : K -> K -> bool) (rows : list (K * V)) : list (K * list V) :=
  fold_left (fun g kv => add_group eqb (fst kv) (snd kv) g) rows [].
Definition memb (x : bytes) (l : list bytes) : bool := existsb (beqb x) l.
Definition memn (x : nat) (l : list nat) : bool := existsb (Nat.eqb x) l.

(** ** PostgreSQL catalogs *)
(** information_schema.tables.table_type; materialized views are not in it *)
Definition pg_type (k : tkind) : option bytes :=
  match k with TTable | TPartitioned => Some (B "BASE TABLE") | TForeign => Some (B "FOREIGN") | TView => Some (B "VIEW") | TMatview => None end.
Definition pg_is_tables (db : database) : list (atable * bytes) :=
  flat_map (fun t => match pg_type (at_kind t) with Some ty => [(t, ty)] | None => [] end) db.
Definition yes_no (b : bool) : bytes := if b then B "YES" else B "NO".
(** information_schema.columns: schema, table, and the columns asked for *)
Definition col_rows (udt : acol -> bytes) (t : atable) : list colrow :=
  map (fun '(i, c) => mkCR (a_name c) (a_type c) (udt c) (yes_no (a_null c)) (a_max c) (Z.of_nat (S i))) (enum (at_cols t)).
Definition pg_is_columns (db : database) : list (bytes * bytes * colrow) :=
  flat_map (fun '(t, _) => map (fun r => (at_schema t, at_name t, r)) (col_rows a_udt t)) (pg_is_tables db).
Definition pg_system : list bytes := [B "pg_catalog"; B "information_schema"].
(** postgres.go:15-33 QueryTables *)
Definition pg_q_tables (db : database) : list tabrow :=
  flat_map (fun '(t, ty) => where_ (memb ty [B "BASE TABLE"; B "FOREIGN"] && negb (memb (at_schema t) pg_system)) [mkTR (at_schema t) (at_name t) ty]) (pg_is_tables db).
(** postgres.go:35-44 QueryColumns *)
Definition pg_q_columns (db : database) (s n : bytes) : list colrow :=
  flat_map (fun '(s', n', r) => where_ (beqb s' s && beqb n' n) [r]) (pg_is_columns db).
(** postgres.go:46-66 QueryViews: NULLs where a view has no columns *)
Definition pg_q_views (db : database) : list (bytes * bytes * option colrow) :=
  map (fun '((t, _), r) => (at_schema t, at_name t, match r with Some (_, _, r) => Some r | None => None end))
      (left_join (filter (fun '(t, ty) => beqb ty (B "VIEW") && negb (memb (at_schema t) [B "information_schema"; B "pg_catalog"])) (pg_is_tables db)) (pg_is_columns db)
                 (fun '(t, _) '(s, n, _) => beqb (at_schema t) s && beqb (at_name t) n)).
Definition oid := (nat * option nat)%type.
Definition oid_eqb (a b : oid) : bool :=
  (fst a =? fst b)%nat && match snd a, snd b with None, None => true | Some x, Some y => (x =? y)%nat | _, _ => false end.
Definition relkind (k : tkind) : ascii := ch (match k with TTable => 114 | TPartitioned => 112 | TForeign => 102 | TView => 118 | TMatview => 109 end).
(** pg_class: oid, relname, relkind *)
Definition pg_class (db : database) : list (oid * bytes * ascii) :=
  flat_map (fun '(i, t) => ((i, None), at_name t, relkind (at_kind t)) :: map (fun '(j, x) => ((i, Some j), ai_name x, ch 105)) (enum (at_idx t))) (enum db).
(** attnum of a column, 0 for an expression *)
Fixpoint attnum (l : list acol) (n : bytes) : nat := match l with [] => 0 | c :: r => if beqb (a_name c) n then 1 else match attnum r n with O => 0 | S k => S (S k) end end.
Definition indkey (t : atable) (x : aindex) : list nat :=
  map (fun k => match k with Some n => attnum (at_cols t) n | None => 0%nat end) (ai_keys x) ++ map (attnum (at_cols t)) (ai_incl x).
(** pg_index: indexrelid, indrelid, indisprimary, indisunique, indkey *)
Record pgindex := mkPIx { pgi_rel : oid; pgi_tab : oid; pgi_pri : bool; pgi_uni : bool; pgi_key : list nat }.
Definition pg_index (db : database) : list pgindex :=
  flat_map (fun '(i, t) => map (fun '(j, x) => mkPIx (i, Some j) (i, None) (ai_primary x) (ai_unique x) (indkey t x)) (enum (at_idx t))) (enum db).
(** pg_attribute of the tables: attrelid, attnum, attname *)
Definition pg_attribute (db : database) : list (oid * nat * bytes) :=
  flat_map (fun '(i, t) => map (fun '(k, c) => ((i, None), S k, a_name c)) (enum (at_cols t))) (enum db).
(** pg_indexes: schemaname, tablename, indexname, of tables of kind r, m, p *)
Definition pg_indexes (db : database) : list (bytes * bytes * bytes) :=
  flat_map (fun t => match at_kind t with TTable | TMatview | TPartitioned => map (fun x => (at_schema t, at_name t, ai_name x)) (at_idx t) | _ => [] end) db.
(** postgres.go:68-99 QueryIndexes: the rows before GROUP BY *)
Definition pg_index_rows (db : database) (s n : bytes) : list ((bytes * bool * bool) * bytes) :=
  flat_map (fun ix =>
    flat_map (fun '(t, _, kind) => where_ (oid_eqb t (pgi_tab ix) && Ascii.eqb kind (ch 114))
      (flat_map (fun '(i, relname, _) => where_ (oid_eqb i (pgi_rel ix))
        (flat_map (fun '(attrelid, num, attname) => where_ (oid_eqb attrelid t && memn num (pgi_key ix))
          (flat_map (fun '(schemaname, tablename, indexname) => where_ (beqb indexname relname && beqb schemaname s && beqb tablename n)
             [((relname, pgi_pri ix, pgi_uni ix), attname)]) (pg_indexes db))) (pg_attribute db))) (pg_class db))) (pg_class db)) (pg_index db).
Definition ikey_eqb (a b : bytes * bool * bool) : bool := beqb (fst (fst a)) (fst (fst b)) && Bool.eqb (snd (fst a)) (snd (fst b)) && Bool.eqb (snd a) (snd b).
Definition pg_q_indexes (db : database) (s n : bytes) : list ((bytes * bool * bool) * list bytes) := group_by ikey_eqb (pg_index_rows db s n).
(** information_schema.table_constraints: name, schema, table, is it a foreign key *)
Definition pg_constraints (db : database) : list (bytes * bytes * bytes * bool) :=
  flat_map (fun t => map (fun k => (fst k, at_schema t, at_name t, false)) (at_keys t ++ at_checks t) ++ map (fun f => (af_name f, at_schema t, at_name t, true)) (at_fks t)) db.
(** key_column_usage: name, schema, table, column *)
Definition pg_kcu (db : database) : list (bytes * bytes * bytes * bytes) :=
  flat_map (fun t => flat_map (fun k => map (fun c => (fst k, at_schema t, at_name t, c)) (snd k)) (at_keys t)
                     ++ flat_map (fun f => map (fun c => (af_name f, at_schema t, at_name t, c)) (af_cols f)) (at_fks t)) db.
(** constraint_column_usage: name, and schema, table, column that are used: the
    referenced ones of a foreign key *)
Definition pg_ccu (db : database) : list (bytes * bytes * bytes * bytes) :=
  flat_map (fun t => flat_map (fun k => map (fun c => (fst k, at_schema t, at_name t, c)) (snd k)) (at_keys t ++ at_checks t)
                     ++ flat_map (fun f => map (fun c => (af_name f, af_rschema f, af_rtable f, c)) (af_rcols f)) (at_fks t)) db.
(** postgres.go:101-121 QueryForeignKeys *)
Definition pg_q_fks (db : database) : list fkey :=
  flat_map (fun '(name, s, t, isfk) => where_ isfk
    (flat_map (fun '(kname, ks, _, kcol) => where_ (beqb name kname && beqb s ks)
      (flat_map (fun '(cname, cs, ct, ccol) => where_ (beqb cname name) [mkFK name s t kcol cs ct ccol]) (pg_ccu db))) (pg_kcu db))) (pg_constraints db).

(** ** SQL Server catalogs *)
Definition is_mstable (t : atable) : bool := match at_kind t with TView => false | _ => true end.
(** sqlserver.go:16-41 QueryTables; type_desc of a table; an extended property row is
    joined by its major_id alone *)
Definition ms_q_tables (db : database) : list tabrow :=
  flat_map (fun t =>
    flat_map (fun '(_, ep) =>
      where_ (negb (at_shipped t) && match ep with None => true | Some (cls, name) => negb (beqb cls (B "OBJECT_OR_COLUMN")) && negb (beqb name (B "microsoft_database_tools_support")) end)
             [mkTR (at_schema t) (at_name t) (B "USER_TABLE")]) (left_join [tt] (at_props t) (fun _ _ => true)))
    (filter is_mstable db).
(** INFORMATION_SCHEMA.COLUMNS: tables and views *)
Definition ms_is_columns (db : database) : list (bytes * bytes * colrow) :=
  flat_map (fun t => map (fun r => (at_schema t, at_name t, r)) (col_rows a_type t)) db.
(** sqlserver.go:43-50 QueryColumns: DATA_TYPE twice *)
Definition ms_q_columns (db : database) (s n : bytes) : list colrow :=
  flat_map (fun '(s', n', r) => where_ (beqb s' s && beqb n' n) [r]) (ms_is_columns db).
(** sqlserver.go:51-58 QueryViews: sys.views joined by name alone *)
Definition ms_q_views (db : database) : list viewrow :=
  flat_map (fun '(s, n, r) => flat_map (fun v => where_ (beqb (at_name v) n) [mkVR s n r]) (filter (fun t => negb (is_mstable t)) db)) (ms_is_columns db).
(** for xml path (''): markup in the text is escaped *)
Definition xml_char (c : ascii) : bytes :=
  if ascii_dec c (ch 38) then B "&amp;" else if ascii_dec c (ch 60) then B "&lt;" else if ascii_dec c (ch 62) then B "&gt;" else [c].
Definition xml_text (s : bytes) : bytes := flat_map xml_char s.
(** sys.index_columns: the columns of an index, key or included, in the order of
    column_id (order by col.column_id) *)
Definition ms_index_columns (t : atable) (x : aindex) : list bytes :=
  filter (fun n => memb n (flat_map (fun k => match k with Some n => [n] | None => [] end) (ai_keys x) ++ ai_incl x)) (map a_name (at_cols t)).
(** substring(column_names, 1, len(column_names)-1) *)
Definition drop_last (s : bytes) : bytes := firstn (length s - 1) s.
(** sqlserver.go:60-88 QueryIndexes; sys.objects of type U, joined by schema and name *)
Definition ms_q_indexes (db : database) (s n : bytes) : list idxrow :=
  flat_map (fun t => where_ (is_mstable t && negb (at_shipped t) && beqb (at_schema t) s && beqb (at_name t) n)
    (map (fun x => mkIR (ai_name x) (ai_primary x) (ai_unique x) (drop_last (flat_map (fun c => xml_text (c ++ B ",")) (ms_index_columns t x)))) (at_idx t))) db.
(** Place of a table, of a column: object_id, column_id *)
Fixpoint table_id (db : database) (s n : bytes) : option nat :=
  match db with [] => None | t :: r => if beqb (at_schema t) s && beqb (at_name t) n && is_mstable t then Some 0%nat else option_map S (table_id r s n) end.
(** sys.foreign_key_columns: constraint, parent object and column, referenced object and
    column; one row for each pair of columns *)
Definition ms_fkc (db : database) : list (bytes * nat * nat * option nat * nat) :=
  flat_map (fun '(i, t) => flat_map (fun f => map (fun '(c, rc) => (af_name f, i, attnum (at_cols t) c, table_id db (af_rschema f) (af_rtable f),
      attnum (match table_id db (af_rschema f) (af_rtable f) with Some j => match nth_error db j with Some u => at_cols u | None => [] end | None => [] end) rc))
    (combine (af_cols f) (af_rcols f))) (at_fks t)) (enum db).
(** sqlserver.go:90-117 QueryForeignKeys: every join is on ids *)
Definition ms_q_fks (db : database) : list fkey :=
  flat_map (fun '(name, pid, pcol, rid, rcol) =>
    flat_map (fun '(i1, tab1) => where_ ((i1 =? pid)%nat && is_mstable tab1)
      (flat_map (fun '(k1, col1) => where_ (S k1 =? pcol)%nat
        (flat_map (fun '(i2, tab2) => where_ (match rid with Some r => (i2 =? r)%nat | None => false end && is_mstable tab2)
          (flat_map (fun '(k2, col2) => where_ (S k2 =? rcol)%nat
             [mkFK name (at_schema tab1) (at_name tab1) (a_name col1) (at_schema tab2) (at_name tab2) (a_name col2)]) (enum (at_cols tab2)))) (enum db))) (enum (at_cols tab1)))) (enum db)) (ms_fkc db).

(** ** A server's answers: rows in any order; a name with a quote is not answered for
    (see C103 for the text that is sent) *)
Definition unquoted (s : bytes) : Prop := ~ In (ch 39) s.
Definition some_order {R} (q : rowsrc R + Z) (l : list R) : Prop := exists l', Permutation l l' /\ delivers q l'.
(** array_agg without ORDER BY: the columns in any order *)
Definition agg_row (g : (bytes * bool * bool) * list bytes) (r : idxrow) : Prop :=
  exists cs, Permutation (snd g) cs /\ r = mkIR (fst (fst (fst g))) (snd (fst (fst g))) (snd (fst g)) (join (B ",") cs).
(** NULL cannot be scanned into a string *)
Definition scan_view (e : Z) (r : bytes * bytes * option colrow) : scan viewrow :=
  match r with (s, n, Some c) => SRow (mkVR s n c) | (_, _, None) => SFail e end.
Record pg_answers (db : database) (cat : catalog) : Prop := {
  pa_tables : some_order (cat_tables cat) (pg_q_tables db);
  pa_views : exists e rows, Permutation (pg_q_views db) rows /\ cat_views cat = inl (mkSrc (map (scan_view e) rows) None);
  pa_columns : forall s n, unquoted s -> unquoted n -> some_order (cat_columns cat s n) (pg_q_columns db s n);
  pa_indexes : forall s n, exists rs, Forall2 agg_row (pg_q_indexes db s n) rs /\ some_order (cat_indexes cat s n) rs;
  pa_fks : some_order (cat_fks cat) (pg_q_fks db) }.
Record ms_answers (db : database) (cat : catalog) : Prop := {
  ma_tables : some_order (cat_tables cat) (ms_q_tables db);
  ma_views : some_order (cat_views cat) (ms_q_views db);
  ma_columns : forall s n, unquoted s -> unquoted n -> some_order (cat_columns cat s n) (ms_q_columns db s n);
  ma_indexes : forall s n, some_order (cat_indexes cat s n) (ms_q_indexes db s n);
  ma_fks : some_order (cat_fks cat) (ms_q_fks db) }.
