(** Model of package schema (schema/provider.go, schema/schema.go,
    schema/postgres.go, schema/sqlserver.go).
    Simplifications: the catalog answers each query with a row source of
    ParamModel (rows, scan failures, a final error); *Column pointers are indexes
    into a heap (columns are changed after they were handed out), *Table,
    *Index and *ForeignKey values are never changed after they are stored and
    are plain values; r.indexes and Index.SchemaName are written but never read
    and are left out; sort.Slice is modelled by a stable sort (theorems about
    order assume distinct keys or state sortedness only); EqualFold folds ASCII
    letters. *)
From Verif Require Import GoBase TypeModel ParamModel.
Open Scope Z_scope.

(** ** Data *)
(** schema.go:243-256 ForeignKey (SchemaName derived) *)
Record fkey := mkFK { k_name : bytes; k_schema : bytes; k_table : bytes; k_column : bytes; k_rschema : bytes; k_rtable : bytes; k_rcolumn : bytes }.
(** schema.go:220-228 Index *)
Record index := mkIx { ix_name : bytes; ix_primary : bool; ix_unique : bool; ix_cols : list bytes }.
(** schema.go:136-153 Column *)
Record column := mkCol { c_name : bytes; c_type : bytes; c_udt : bytes; c_null : bool; c_max : Z; c_pos : Z; c_fqn : bytes; c_ref : option fkey; c_idx : list index }.
(** schema.go:107-122 Table *)
Record table := mkTab { t_schema : bytes; t_name : bytes; t_type : bytes; t_view : bool; t_cols : list nat; t_idx : list index; t_pk : option nat; t_fqn : bytes }.

(** What the catalog queries return (postgres.go, sqlserver.go: the selected
    columns, in order). *)
Record tabrow := mkTR { tr_schema : bytes; tr_name : bytes; tr_type : bytes }.
Record colrow := mkCR { cr_name : bytes; cr_type : bytes; cr_udt : bytes; cr_null : bytes; cr_max : option Z; cr_pos : Z }.
Record idxrow := mkIR { ir_name : bytes; ir_primary : bool; ir_unique : bool; ir_cols : bytes }.
Record viewrow := mkVR { vr_schema : bytes; vr_table : bytes; vr_col : colrow }.
Record catalog := mkCat {
  cat_tables : rowsrc tabrow + Z;
  cat_views : rowsrc viewrow + Z;
  cat_columns : bytes -> bytes -> rowsrc colrow + Z;
  cat_indexes : bytes -> bytes -> rowsrc idxrow + Z;
  cat_fks : rowsrc fkey + Z }.

(** ** Go maps with string keys: insertion keeps one entry per key. *)
Fixpoint mget {A} (k : bytes) (m : list (bytes * A)) : option A :=
  match m with [] => None | (j, v) :: r => if beqb j k then Some v else mget k r end.
Fixpoint mput {A} (k : bytes) (v : A) (m : list (bytes * A)) : list (bytes * A) :=
  match m with [] => [(k, v)] | (j, w) :: r => if beqb j k then (k, v) :: r else (j, w) :: mput k v r end.
(** The values met when ranging over a map that is not changed meanwhile, [ord]
    being the order of the keys. *)
Definition mvalues {A} (ord : list bytes) (m : list (bytes * A)) : list A :=
  flat_map (fun k => match mget k m with Some v => [v] | None => [] end) ord.

(** sort.Slice *)
Fixpoint ins_by {A} (lt : A -> A -> bool) (x : A) (l : list A) : list A :=
  match l with [] => [x] | y :: r => if lt y x then y :: ins_by lt x r else x :: l end.
Definition sort_by {A} (lt : A -> A -> bool) (l : list A) : list A := fold_right (ins_by lt) [] l.

(** fmt.Sprintf("%s.%s", ..), fmt.Sprintf("%s.%s.%s", ..) *)
Definition fqn2 (s t : bytes) : bytes := s ++ B "." ++ t.
Definition fqn3 (s t c : bytes) : bytes := s ++ B "." ++ t ++ B "." ++ c.

(** ** provider.go:25-34 the provider's caches *)
Record prov := mkP { p_heap : list column; p_tabs : list (bytes * table); p_cols : list (bytes * nat); p_fks : list (bytes * fkey) }.
(** provider.go:37-57 NewProvider *)
Definition new_prov : prov := mkP [] [] [] [].

(** x/slices.ContainsStringEqualFold *)
Definition contains_fold (l : list bytes) (s : bytes) : bool := existsb (fun x => equal_fold x s) l.
(** The filter of provider.go:80-86, 157-163, 302-307 *)
Definition wanted (schemas tables : list bytes) (s t : bytes) : bool :=
  (is_empty schemas || contains_fold schemas s) && (is_empty tables || contains_fold tables t).
(** provider.go:203 nullableVals *)
Definition nullable_vals : list bytes := [B "YES"; B "TRUE"; B "NULL"].
(** provider.go:400-405 maxLength: int to uint32 *)
Definition max_length (v : option Z) : Z := match v with None => 0 | Some n => u32 n end.
(** provider.go:213-224, 164-168: a catalog row as a Column; columnName
    (provider.go:390-398) is the identity. *)
Definition make_column (s t : bytes) (r : colrow) : column :=
  mkCol (cr_name r) (cr_type r) (cr_udt r) (contains_fold nullable_vals (cr_null r)) (max_length (cr_max r)) (u32 (cr_pos r)) (fqn3 s t (cr_name r)) None [].
(** new(Column), r.columns[SchemaName] = c *)
Definition alloc (st : prov) (c : column) : prov * nat :=
  let id := length (p_heap st) in
  (mkP (p_heap st ++ [c]) (p_tabs st) (mput (c_fqn c) id (p_cols st)) (p_fks st), id).
(** Writes through a *Column. *)
Definition upd_heap (h : list column) (id : nat) (f : column -> column) : list column :=
  match nth_error h id with None => h | Some c => firstn id h ++ f c :: skipn (S id) h end.
Definition set_heap (st : prov) (h : list column) : prov := mkP h (p_tabs st) (p_cols st) (p_fks st).
Definition put_table (st : prov) (t : table) : prov := mkP (p_heap st) (mput (t_fqn t) t (p_tabs st)) (p_cols st) (p_fks st).
Definition set_ref (k : fkey) (c : column) : column := mkCol (c_name c) (c_type c) (c_udt c) (c_null c) (c_max c) (c_pos c) (c_fqn c) (Some k) (c_idx c).
Definition add_idx (i : index) (c : column) : column := mkCol (c_name c) (c_type c) (c_udt c) (c_null c) (c_max c) (c_pos c) (c_fqn c) (c_ref c) (c_idx c ++ [i]).
Definition pos_of (h : list column) (id : nat) : Z := match nth_error h id with Some c => c_pos c | None => 0 end.
Definition by_pos (h : list column) (a b : nat) : bool := pos_of h a <? pos_of h b.
Definition by_name (a b : table) : bool := bltb (t_fqn a) (t_fqn b).

(** for rows.Next() { .. }; if rows.Err() != nil: [f] handles one row. *)
Fixpoint each_row {S R} (f : S -> R -> S * outcome unit) (st : S) (rows : list (scan R)) : S * outcome unit :=
  match rows with
  | [] => (st, ROk tt)
  | SFail e :: _ => (st, RErr e)
  | SPanic :: _ => (st, RPanic)
  | SRow r :: rest => match f st r with (st', ROk _) => each_row f st' rest | x => x end
  end.
Definition run_query {S R} (f : S -> R -> S * outcome unit) (st : S) (q : rowsrc R + Z) : S * outcome unit :=
  match q with
  | inr e => (st, RErr e)
  | inl src => match each_row f st (src_rows src) with
               | (st', ROk _) => (st', match src_err src with Some e => RErr e | None => ROk tt end)
               | x => x
               end
  end.

(** provider.go:205-239 readColumnsSchema *)
Definition column_row (s t : bytes) (x : prov * list nat) (r : colrow) : (prov * list nat) * outcome unit :=
  let '(st, ids) := x in let '(st', id) := alloc st (make_column s t r) in ((st', ids ++ [id]), ROk tt).
Definition read_columns (cat : catalog) (st : prov) (s t : bytes) : prov * outcome (list nat) :=
  match run_query (column_row s t) (st, []) (cat_columns cat s t) with
  | ((st', ids), ROk _) => (st', ROk (sort_by (by_pos (p_heap st')) ids))
  | ((st', _), RErr e) => (st', RErr e)
  | ((st', _), RPanic) => (st', RPanic)
  end.
(** provider.go:241-276 readIndexesSchema *)
Definition make_index (r : idxrow) : index := mkIx (ir_name r) (ir_primary r) (ir_unique r) (split_on (ch 44) (ir_cols r)).
Definition read_indexes (cat : catalog) (s t : bytes) : outcome (list index) :=
  match run_query (fun ii r => (ii ++ [make_index r], ROk tt)) [] (cat_indexes cat s t) with
  | (ii, ROk _) => ROk ii
  | (_, RErr e) => RErr e
  | (_, RPanic) => RPanic
  end.
(** provider.go:104-111: one index; a name without a column is a nil
    dereference. *)
Fixpoint attach_cols (st : prov) (tfqn : bytes) (ix : index) (names : list bytes) (pk : option nat) : prov * outcome (option nat) :=
  match names with
  | [] => (st, ROk pk)
  | cn :: r => match mget (tfqn ++ B "." ++ cn) (p_cols st) with
               | None => (st, RPanic)
               | Some id => attach_cols (set_heap st (upd_heap (p_heap st) id (add_idx ix))) tfqn ix r
                              (if ix_primary ix && (length (ix_cols ix) =? 1)%nat then Some id else pk)
               end
  end.
(** provider.go:103-112 *)
Fixpoint attach (st : prov) (tfqn : bytes) (ii : list index) (pk : option nat) : prov * outcome (option nat) :=
  match ii with
  | [] => (st, ROk pk)
  | ix :: r => match attach_cols st tfqn ix (ix_cols ix) pk with
               | (st', ROk pk') => attach st' tfqn r pk'
               | x => x
               end
  end.
(** provider.go:75-115, the body of the loop of ListTables *)
Definition table_row (cat : catalog) (schemas tables : list bytes) (x : prov * list table) (r : tabrow) : (prov * list table) * outcome unit :=
  let '(st, tt_) := x in
  if negb (wanted schemas tables (tr_schema r) (tr_name r)) then (x, ROk tt)
  else
    let fqn := fqn2 (tr_schema r) (tr_name r) in
    match read_columns cat st (tr_schema r) (tr_name r) with
    | (st1, RErr e) => ((st1, tt_), RErr e)
    | (st1, RPanic) => ((st1, tt_), RPanic)
    | (st1, ROk cc) =>
        match read_indexes cat (tr_schema r) (tr_name r) with
        | RErr e => ((st1, tt_), RErr e)
        | RPanic => ((st1, tt_), RPanic)
        | ROk ii =>
            match attach st1 fqn ii None with
            | (st2, RErr e) => ((st2, tt_), RErr e)
            | (st2, RPanic) => ((st2, tt_), RPanic)
            | (st2, ROk pk) =>
                let t := mkTab (tr_schema r) (tr_name r) (tr_type r) false cc ii pk fqn in
                ((put_table st2 t, tt_ ++ [t]), ROk tt)
            end
        end
    end.

(** provider.go:281-322 ListForeignKeys *)
Definition fk_row (schemas tables : list bytes) (x : prov * list fkey) (k : fkey) : (prov * list fkey) * outcome unit :=
  let '(st, keys) := x in
  if negb (wanted schemas tables (k_schema k) (k_table k)) then (x, ROk tt)
  else ((mkP (p_heap st) (p_tabs st) (p_cols st) (mput (fqn3 (k_schema k) (k_table k) (k_column k)) k (p_fks st)), keys ++ [k]), ROk tt).
Definition list_fks (cat : catalog) (st : prov) (schemas tables : list bytes) : prov * outcome (list fkey) :=
  match run_query (fk_row schemas tables) (st, []) (cat_fks cat) with
  | ((st', keys), ROk _) => (st', ROk keys)
  | ((st', _), RErr e) => (st', RErr e)
  | ((st', _), RPanic) => (st', RPanic)
  end.

(** provider.go:374-385: the columns of a table; [rec] is discoverTable.
    None: out of fuel. *)
Fixpoint each_col (rec : prov -> bytes -> bytes -> option (prov * outcome unit)) (st : prov) (ids : list nat) : option (prov * outcome unit) :=
  match ids with
  | [] => Some (st, ROk tt)
  | id :: r =>
      match nth_error (p_heap st) id with
      | None => Some (st, RPanic)
      | Some c => match mget (c_fqn c) (p_fks st) with
                  | None => each_col rec st r
                  | Some k => match rec (set_heap st (upd_heap (p_heap st) id (set_ref k))) (k_rschema k) (k_rtable k) with
                              | Some (st', ROk _) => each_col rec st' r
                              | x => x
                              end
                  end
      end
  end.
(** provider.go:354-388 discoverTable; the recursion is bounded by [fuel], None:
    the bound was hit. *)
Fixpoint discover_table (fuel : nat) (cat : catalog) (st : prov) (s t : bytes) : option (prov * outcome unit) :=
  match fuel with
  | O => None
  | S f => match mget (fqn2 s t) (p_tabs st) with
           | Some _ => Some (st, ROk tt)
           | None => match read_columns cat st s t with
                     | (st1, RErr e) => Some (st1, RErr e)
                     | (st1, RPanic) => Some (st1, RPanic)
                     | (st1, ROk cc) => each_col (discover_table f cat) (put_table st1 (mkTab s t [] false cc [] None (fqn2 s t))) cc
                     end
           end
  end.
(** provider.go:332-343: ranging over r.columns while discoverTable adds to it:
    [ord] is the sequence of keys visited. *)
Fixpoint each_key (fuel : nat) (cat : catalog) (st : prov) (ord : list bytes) : option (prov * outcome unit) :=
  match ord with
  | [] => Some (st, ROk tt)
  | n :: r =>
      match mget n (p_cols st), mget n (p_fks st) with
      | Some id, Some k => match discover_table fuel cat (set_heap st (upd_heap (p_heap st) id (set_ref k))) (k_rschema k) (k_rtable k) with
                           | Some (st', ROk _) => each_key fuel cat st' r
                           | x => x
                           end
      | _, _ => each_key fuel cat st r
      end
  end.
(** provider.go:325-352 discover; [ord] as above, [tord] the order in which
    r.tables is ranged over. *)
Definition discover (fuel : nat) (cat : catalog) (st : prov) (ord tord : list bytes) : option (prov * outcome (list table)) :=
  match list_fks cat st [] [] with
  | (st1, RErr e) => Some (st1, RErr e)
  | (st1, RPanic) => Some (st1, RPanic)
  | (st1, ROk _) => match each_key fuel cat st1 ord with
                    | None => None
                    | Some (st2, ROk _) => Some (st2, ROk (mvalues tord (p_tabs st2)))
                    | Some (st2, RErr e) => Some (st2, RErr e)
                    | Some (st2, RPanic) => Some (st2, RPanic)
                    end
  end.

(** provider.go:67-134 ListTables *)
Definition list_tables_only (cat : catalog) (st : prov) (schemas tables : list bytes) : prov * outcome (list table) :=
  match run_query (table_row cat schemas tables) (st, []) (cat_tables cat) with
  | ((st', ts), ROk _) => (st', ROk ts)
  | ((st', _), RErr e) => (st', RErr e)
  | ((st', _), RPanic) => (st', RPanic)
  end.
Definition sorted_tables (x : prov * outcome (list table)) : prov * outcome (list table) :=
  match x with (st, ROk ts) => (st, ROk (sort_by by_name ts)) | x => x end.
Definition list_tables (cat : catalog) (st : prov) (schemas tables : list bytes) : prov * outcome (list table) :=
  sorted_tables (list_tables_only cat st schemas tables).
Definition list_tables_deps (fuel : nat) (cat : catalog) (st : prov) (schemas tables : list bytes) (ord tord : list bytes) : option (prov * outcome (list table)) :=
  match list_tables_only cat st schemas tables with
  | (st1, ROk _) => match discover fuel cat st1 ord tord with Some x => Some (sorted_tables x) | None => None end
  | x => Some x
  end.

(** provider.go:139-201 ListViews; [vord] the order in which tablesMap is ranged
    over. *)
Definition view_row (schemas tables : list bytes) (x : prov * list (bytes * table)) (r : viewrow) : (prov * list (bytes * table)) * outcome unit :=
  let '(st, m) := x in
  if negb (wanted schemas tables (vr_schema r) (vr_table r)) then (x, ROk tt)
  else
    let '(st', id) := alloc st (make_column (vr_schema r) (vr_table r) (vr_col r)) in
    let n := fqn2 (vr_schema r) (vr_table r) in
    let t := match mget n m with Some t => t | None => mkTab (vr_schema r) (vr_table r) [] true [] [] None n end in
    ((st', mput n (mkTab (t_schema t) (t_name t) (t_type t) (t_view t) (t_cols t ++ [id]) (t_idx t) (t_pk t) (t_fqn t)) m), ROk tt).
Definition sort_cols (h : list column) (t : table) : table :=
  mkTab (t_schema t) (t_name t) (t_type t) (t_view t) (sort_by (by_pos h) (t_cols t)) (t_idx t) (t_pk t) (t_fqn t).
Definition list_views (cat : catalog) (st : prov) (schemas tables : list bytes) (vord : list bytes) : prov * outcome (list table) :=
  match run_query (view_row schemas tables) (st, []) (cat_views cat) with
  | ((st', m), ROk _) => (st', ROk (sort_by by_name (map (sort_cols (p_heap st')) (mvalues vord m))))
  | ((st', _), RErr e) => (st', RErr e)
  | ((st', _), RPanic) => (st', RPanic)
  end.

(** ** schema.go: names, tags, TableInfo *)
(** schema.go:125-130 PrimaryKeyName *)
Definition pk_name (h : list column) (t : table) : bytes :=
  match t_pk t with Some id => match nth_error h id with Some c => c_name c | None => [] end | None => [] end.
(** schema.go:166-178 IsIndex, IsPrimary *)
Definition is_index (c : column) : bool := (0 <? length (c_idx c))%nat.
Definition is_primary (c : column) : bool := existsb ix_primary (c_idx c).
(** schema.go:267-272 RefColumnSchemaName *)
Definition ref_column (k : fkey) : bytes := fqn3 (k_rschema k) (k_rtable k) (k_rcolumn k).
(** schema.go:180-205 Tag *)
Definition tag (c : column) : bytes :=
  B "db:""" ++ c_name c ++ B "," ++ (if is_empty (c_udt c) then c_type c else c_udt c)
  ++ (if 0 <? c_max c then B ",max:" ++ fmt_uint 10 (c_max c) else [])
  ++ (if c_null c then B ",null" else [])
  ++ (if is_index c then B ",index" ++ (if is_primary c then B ",primary" else []) else [])
  ++ (match c_ref c with Some k => B ",fk:" ++ ref_column k | None => [] end)
  ++ B """ json:"",omitempty""".
(** schema.go:19-32 TableInfo; [ti_all] is the cached list of columns *)
Record tinfo := mkTI { ti_schema : bytes; ti_name : bytes; ti_pk : bytes; ti_columns : list bytes; ti_indexes : list bytes; ti_fqn : bytes; ti_all : bytes }.
(** schema.go:78-83 AllColumns *)
Definition all_columns (t : tinfo) : tinfo * bytes :=
  if is_empty (ti_all t)
  then let s := join (B ", ") (ti_columns t) in (mkTI (ti_schema t) (ti_name t) (ti_pk t) (ti_columns t) (ti_indexes t) (ti_fqn t) s, s)
  else (t, ti_all t).
(** schema.go:90-104 AliasedColumns; nullColumns is given by [nulls] *)
Definition aliased_columns (t : tinfo) (prefix : bytes) (nulls : bytes -> bool) : bytes :=
  join (B ", ") (map (fun c => if nulls c then B "NULL" else if is_empty prefix then c else prefix ++ B "." ++ c) (ti_columns t)).
(** schema.go:58: strings.Join(cols, ",") *)
Definition select_expr (t : tinfo) (cols : list bytes) : tinfo * bytes :=
  match cols with [] => all_columns t | _ => (t, join (B ",") cols) end.
(** schema.go:70-74 *)
Definition aliased_from (t : tinfo) (prefix : bytes) : bytes := if is_empty prefix then ti_fqn t else ti_fqn t ++ B " " ++ prefix.

(** ** Text of the column queries *)
(** postgres.go:36-41 QueryColumns: Sprintf with the names between quotes. *)
Definition pg_columns_query (s t : bytes) : bytes :=
  B "
	SELECT column_name, data_type, udt_name, is_nullable, character_maximum_length, ordinal_position 
  	FROM information_schema.columns
 	WHERE table_schema = '" ++ s ++ B "'
   	AND table_name = '" ++ t ++ B "';
".
(** sqlserver.go:45-47 QueryColumns *)
Definition mssql_columns_query (s t : bytes) : bytes :=
  B "
	SELECT COLUMN_NAME, DATA_TYPE, DATA_TYPE, IS_NULLABLE, CHARACTER_MAXIMUM_LENGTH, ORDINAL_POSITION FROM INFORMATION_SCHEMA.COLUMNS WHERE TABLE_SCHEMA=N'" ++ s ++ B "' AND TABLE_NAME = N'" ++ t ++ B "'".
