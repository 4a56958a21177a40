(** Model of the code generator, package internal/cli/schema (types.go,
    schema.go, template.go).
    Simplifications: the text of a generated file is modelled by what it
    declares (type names, fields with Go type and tag, the destinations of Scan,
    TableInfo literals, column literals), not by its bytes; third-party functions
    are parameters: strcase.ToGoPascal, pluralize.Singular, and whether go/format
    accepts the text; directories can be created and files opened; a file is
    named by directory and base name (filepath.Join without Clean); names are
    valid UTF-8; the list of imports is left out. *)
From Verif Require Import GoBase TypeModel ParamModel SchemaModel.
Open Scope Z_scope.

(** ** types.go *)
(** types.go:16-98 typeByColumnType *)
Definition type_by_column : list (bytes * bytes) := [
  (B "id bigint", B "xdb.ID"); (B "id bigint NULL", B "xdb.ID"); (B "id int8", B "xdb.ID"); (B "id int8 NULL", B "xdb.ID");
  (B "id int", B "xdb.ID32"); (B "id int NULL", B "xdb.ID32"); (B "id int4", B "xdb.ID32"); (B "id int4 NULL", B "xdb.ID32");
  (B "bigint", B "int64"); (B "bigint NULL", B "xdb.Int64");
  (B "int8", B "int64"); (B "int4", B "int32"); (B "int", B "int32"); (B "int2", B "int16"); (B "smallint", B "int16"); (B "tinyint", B "int8");
  (B "decimal", B "float64"); (B "numeric", B "float64"); (B "real", B "float32"); (B "float4", B "float32"); (B "float8", B "float64");
  (B "bool", B "bool"); (B "boolean", B "bool"); (B "bit", B "bool");
  (B "jsonb", B "xdb.NULLString"); (B "bytea", B "[]byte");
  (B "nchar", B "string"); (B "nvarchar", B "string"); (B "char", B "string"); (B "varchar", B "string"); (B "bpchar", B "string");
  (B "text", B "string"); (B "cidr", B "string"); (B "inet", B "string"); (B "ltree", B "string");
  (B "int8 NULL", B "xdb.Int64"); (B "int4 NULL", B "xdb.Int32"); (B "int NULL", B "xdb.Int32"); (B "int2 NULL", B "xdb.Int32");
  (B "smallint NULL", B "xdb.Int32"); (B "tinyint NULL", B "xdb.Int32");
  (B "bool NULL", B "xdb.Bool"); (B "boolean NULL", B "xdb.Bool"); (B "bit NULL", B "xdb.Bool");
  (B "decimal NULL", B "xdb.Float"); (B "numeric NULL", B "xdb.Float"); (B "real NULL", B "xdb.Float"); (B "float4 NULL", B "xdb.Float"); (B "float8 NULL", B "xdb.Float");
  (B "time", B "xdb.Time"); (B "date", B "xdb.Time"); (B "datetime", B "xdb.Time"); (B "datetime2", B "xdb.Time"); (B "timestamp", B "xdb.Time"); (B "timestamptz", B "xdb.Time");
  (B "nchar NULL", B "xdb.NULLString"); (B "nvarchar NULL", B "xdb.NULLString"); (B "char NULL", B "xdb.NULLString"); (B "bpchar NULL", B "xdb.NULLString");
  (B "varchar NULL", B "xdb.NULLString"); (B "text NULL", B "xdb.NULLString"); (B "cidr NULL", B "xdb.NULLString"); (B "inet NULL", B "xdb.NULLString"); (B "ltree NULL", B "xdb.NULLString");
  (B "uniqueidentifier", B "xdb.UUID"); (B "uuid", B "xdb.UUID"); (B "uniqueidentifier NULL", B "xdb.UUID"); (B "uuid NULL", B "xdb.UUID") ].

(** types.go:100-105 isID *)
Definition is_id (c : column) : bool :=
  equal_fold (c_name c) (B "id") || has_suffix (B "_id") (c_name c) || has_suffix (B "Id") (c_name c) || has_suffix (B "ID") (c_name c).

(** types.go:141-150: the loop over the candidate names; a Go map read of a
    missing key is "". *)
Fixpoint first_type (nullable : bool) (typs : list bytes) : option bytes :=
  match typs with
  | [] => None
  | t :: r =>
      match (if nullable then mget (t ++ B " NULL") type_by_column else None) with
      | Some x => Some x
      | None => match mget t type_by_column with Some x => Some x | None => first_type nullable r end
      end
  end.

(** types.go:107-158 toGoType; [types] is the package variable typesMap *)
Definition to_go_type (types : list (bytes * bytes)) (c : column) : outcome bytes :=
  match mget (c_name c) types with
  | Some r => ROk r
  | None =>
  match mget (c_fqn c) types with
  | Some r => ROk r
  | None =>
  match (if beqb (c_udt c) (B "int4") && negb (c_null c) && has_suffix (B "_count") (c_name c) then mget (B "_count") types else None) with
  | Some r => ROk r
  | None =>
    if beqb (c_type c) (B "ARRAY") then
      if beqb (c_udt c) (B "_int8") then ROk (if has_suffix (B "_ids") (c_name c) then B "xdb.IDArray" else B "pq.Int64Array")
      else if beqb (c_udt c) (B "_text") || beqb (c_udt c) (B "_varchar") then ROk (B "pq.StringArray")
      else RPanic
    else
      let typ := strings_coalesce (c_udt c) (c_type c) in
      match first_type (c_null c) (if is_id c then [B "id " ++ typ; typ] else [typ]) with
      | Some r => ROk r
      | None => RPanic
      end
  end end end.

(** ** Names *)
(** Third-party functions: strcase.ToGoPascal, pluralize Client.Singular *)
Record naming := mkNm { nm_pascal : bytes -> bytes; nm_singular : bytes -> bytes }.
(** types.go:11-14 the package variables; schema.go:254-260 override *)
Record gmaps := mkGM { gm_types : list (bytes * bytes); gm_fields : list (bytes * bytes); gm_tables : list (bytes * bytes); gm_cache : list bytes }.
Definition no_maps : gmaps := mkGM [] [] [] [].
Record override := mkOv { ov_types : list (bytes * bytes); ov_fields : list (bytes * bytes); ov_tables : list (bytes * bytes); ov_cache : list bytes; ov_drop : list bytes }.
(** A table as the generator reads it: the columns behind the pointers. *)
Record gtab := mkGT { g_schema : bytes; g_name : bytes; g_fqn : bytes; g_cols : list column; g_idx : list index; g_pk : option column }.
Definition resolve (h : list column) (t : table) : gtab :=
  mkGT (t_schema t) (t_name t) (t_fqn t) (flat_map (fun id => match nth_error h id with Some c => [c] | None => [] end) (t_cols t)) (t_idx t)
    (match t_pk t with Some id => nth_error h id | None => None end).

Definition obind {A C} (x : outcome A) (f : A -> outcome C) : outcome C :=
  match x with ROk a => f a | RErr e => RErr e | RPanic => RPanic end.
Fixpoint omap {A C} (f : A -> outcome C) (l : list A) : outcome (list C) :=
  match l with
  | [] => ROk []
  | a :: r => obind (f a) (fun b => obind (omap f r) (fun bs => ROk (b :: bs)))
  end.

(** schema.go:205-212 goName: s[0] of an empty string panics *)
Definition go_name (nm : naming) (s : bytes) : outcome bytes :=
  match s with
  | [] => RPanic
  | c :: r => ROk (nm_pascal nm (if Ascii.eqb c (ch 95) then ch 88 :: r else s))
  end.
(** schema.go:214-221 tableStructName, 223-230 tableInfoStructName *)
Definition struct_name_of (nm : naming) (tables : list (bytes * bytes)) (suffix name fqn : bytes) : outcome bytes :=
  match mget fqn tables with
  | Some r => ROk (r ++ suffix)
  | None => obind (go_name nm (nm_singular nm name)) (fun s => ROk (s ++ suffix))
  end.
Definition table_struct_name (nm : naming) (m : gmaps) (t : gtab) : outcome bytes := struct_name_of nm (gm_tables m) (B "Table") (g_name t) (g_fqn t).
Definition table_info_struct_name (nm : naming) (m : gmaps) (t : tinfo) : outcome bytes := struct_name_of nm (gm_tables m) (B "TableInfo") (ti_name t) (ti_fqn t).
(** schema.go:232-239 columnStructName *)
Definition column_struct_name (nm : naming) (m : gmaps) (c : column) : outcome bytes :=
  match mget (c_fqn c) (gm_fields m) with Some r => ROk r | None => go_name nm (c_name c) end.

(** schema.go:262-270 filterColumnNames, 272-280 filterColumns *)
Definition dropped (drop : list bytes) (n : bytes) : bool := existsb (fun d => beqb d n) drop.
Definition filter_names (drop : list bytes) (l : list bytes) : list bytes := filter (fun n => negb (dropped drop n)) l.
Definition filter_columns (drop : list bytes) (l : list column) : list column := filter (fun c => negb (dropped drop (c_name c))) l.

(** schema/schema.go:155-164 StructString (package schema) *)
Definition struct_string (c : column) : bytes :=
  B "{ Name: """ ++ c_name c ++ B """, Position: " ++ fmt_uint 10 (c_pos c) ++ B ", Type: """ ++ c_type c ++ B """, UdtType: """ ++ c_udt c
  ++ B """, Nullable: " ++ (if c_null c then B "true" else B "false") ++ B " "
  ++ (if 0 <? c_max c then B ", MaxLength: " ++ fmt_uint 10 (c_max c) ++ B " " else []) ++ B "}".

(** ** What is generated *)
(** template.go:82-158: a struct, its ScanRow, its Result *)
Record gfield := mkGF { gf_name : bytes; gf_type : bytes; gf_tag : bytes; gf_col : column }.
Record gstruct := mkGS { gs_name : bytes; gs_fields : list gfield; gs_scan : list bytes; gs_info : bytes; gs_cache : bool }.
(** template.go:55-80: the variable with the column definitions *)
Record gcols := mkGC { gc_name : bytes; gc_info : bytes; gc_fields : list (bytes * bytes) }.
(** template.go:178-188: a TableInfo variable *)
Record ginfo := mkGI { gi_var : bytes; gi_info : tinfo }.
Inductive gfile :=
| GEmpty
| GModel (pkg : bytes) (dialect : bool) (l : list gstruct)
| GSchema (pkg : bytes) (infos : list ginfo) (mapvar : bytes) (entries : list (bytes * bytes)) (cols : list gcols).
(** The files, by directory and name, and what was written to ctx.Writer(). *)
Record world := mkW { w_fs : list ((bytes * bytes) * gfile); w_out : list gfile }.
Definition same_file (a b : bytes * bytes) : bool := beqb (fst a) (fst b) && beqb (snd a) (snd b).
Fixpoint fget (k : bytes * bytes) (m : list ((bytes * bytes) * gfile)) : option gfile :=
  match m with [] => None | (j, v) :: r => if same_file j k then Some v else fget k r end.
Fixpoint fput (k : bytes * bytes) (v : gfile) (m : list ((bytes * bytes) * gfile)) : list ((bytes * bytes) * gfile) :=
  match m with [] => [(k, v)] | (j, w) :: r => if same_file j k then (k, v) :: r else (j, w) :: fput k v r end.

(** The flags of schema.go:158-172 that matter here; [ga_def] is the loaded
    types definition: none given, a failure, or its contents. *)
Record gargs := mkGA { ga_db : bytes; ga_outm : bytes; ga_outs : bytes; ga_pkgm : bytes; ga_pkgs : bytes; ga_suffix : bytes; ga_useschema : bool; ga_def : option (outcome override) }.

(** path.Base; schema.go:197-203 packageName *)
Definition path_base (s : bytes) : bytes :=
  match s with
  | [] => B "."
  | _ => match last (split_on (ch 47) (trim_right [ch 47] s)) [] with [] => B "/" | b => b end
  end.
Definition package_name (folder : bytes) : bytes :=
  let f := path_base folder in
  if beqb f [] || beqb f (B ".") || beqb f (B "/") then B "model" else f.
Definition model_pkg (a : gargs) : bytes := strings_coalesce (ga_pkgm a) (package_name (ga_outm a)).
Definition schema_pkg (a : gargs) : bytes := strings_coalesce (ga_pkgs a) (package_name (ga_outs a)).

(** template.go:7-22 tableDefinition, the parts the templates read *)
Record tdef := mkTD { td_struct : bytes; td_spkg : bytes; td_tsn : bytes; td_cols : list column; td_cache : bool }.

(** schema.go:302-323: loading the definitions into the package variables *)
Definition merge_map (l m : list (bytes * bytes)) : list (bytes * bytes) := fold_left (fun m kv => mput (fst kv) (snd kv) m) l m.
Definition load (m : gmaps) (o : override) : gmaps :=
  mkGM (merge_map (ov_types o) (gm_types m)) (merge_map (ov_fields o) (gm_fields m)) (merge_map (ov_tables o) (gm_tables m)) (gm_cache m ++ ov_cache o).

(** schema.go:374-381 *)
Definition make_info (drop : list bytes) (t : gtab) : tinfo :=
  mkTI (g_schema t) (g_name t) (match g_pk t with Some c => c_name c | None => [] end) (filter_names drop (map c_name (g_cols t)))
    (map ix_name (g_idx t)) (g_fqn t) [].
(** schema.go:369-372, 382-408 *)
Definition plain_schema (s : bytes) : bool := contains_fold [B "dbo"; B "public"] s.
Definition make_def (nm : naming) (a : gargs) (m : gmaps) (drop : list bytes) (sname : bytes) (t : gtab) : outcome tdef :=
  let prefix := if ga_useschema a && negb (plain_schema sname) then nm_pascal nm sname else [] in
  let struct := nm_pascal nm (nm_singular nm (g_name t)) ++ (if is_empty (ga_suffix a) then [] else nm_pascal nm (ga_suffix a)) in
  obind (table_struct_name nm m t) (fun tsn =>
  ROk (mkTD (match mget (g_fqn t) (gm_tables m) with Some r => r | None => prefix ++ struct end)
         (if beqb (model_pkg a) (schema_pkg a) then [] else schema_pkg a ++ B ".")
         tsn (filter_columns drop (g_cols t)) (existsb (fun x => beqb x (g_fqn t)) (gm_cache m)))).

(** text/template turns a panic of a called function into an error. *)
Definition template_error : Z := 1.
Definition in_template {A} (x : outcome A) : outcome A := match x with RPanic => RErr template_error | _ => x end.
(** template.go:82-158 codeModelTemplateText *)
Definition render_field (nm : naming) (m : gmaps) (c : column) : outcome gfield :=
  obind (column_struct_name nm m c) (fun n => obind (to_go_type (gm_types m) c) (fun ty => ROk (mkGF n ty (tag c) c))).
Definition render_struct (nm : naming) (m : gmaps) (d : tdef) : outcome gstruct :=
  in_template (
  obind (omap (render_field nm m) (td_cols d)) (fun fs =>
  obind (omap (column_struct_name nm m) (td_cols d)) (fun scan =>
  ROk (mkGS (td_struct d) fs scan (td_spkg d ++ td_tsn d ++ B "Info") (td_cache d))))).
(** template.go:160-197 codeSchemaHeaderTemplateText, 55-80
    codeTableSchemaTemplateText *)
Definition render_info (nm : naming) (m : gmaps) (i : tinfo) : outcome ginfo :=
  obind (table_info_struct_name nm m i) (fun v => ROk (mkGI v i)).
Definition render_cols (nm : naming) (m : gmaps) (d : tdef) : outcome gcols :=
  obind (omap (fun c => obind (column_struct_name nm m c) (fun n => ROk (n, struct_string c))) (td_cols d)) (fun fs =>
  ROk (mkGC (td_struct d) (td_tsn d ++ B "Info") fs)).
Definition render_schema (nm : naming) (a : gargs) (m : gmaps) (infos : list tinfo) (defs : list tdef) : outcome gfile :=
  in_template (
  obind (omap (render_info nm m) infos) (fun gi =>
  obind (go_name nm (ga_db a)) (fun db =>
  obind (omap (render_cols nm m) defs) (fun gc =>
  ROk (GSchema (schema_pkg a) gi (db ++ B "Tables") (map (fun g => (ti_name (gi_info g), gi_var g)) gi) gc))))).

(** schema.go:368-415: the tables of one schema *)
Fixpoint each_table (nm : naming) (a : gargs) (m : gmaps) (drop : list bytes) (sname : bytes) (ts : list gtab)
  (infos : list tinfo) (defs : list tdef) : (list tinfo * list tdef) * outcome (list gstruct) :=
  match ts with
  | [] => ((infos, defs), ROk [])
  | t :: r =>
      match make_def nm a m drop sname t with
      | ROk d => match render_struct nm m d with
                 | ROk s => match each_table nm a m drop sname r (infos ++ [make_info drop t]) (defs ++ [d]) with
                            | (x, ROk ss) => (x, ROk (s :: ss))
                            | x => x
                            end
                 | RErr e => ((infos ++ [make_info drop t], defs), RErr e)
                 | RPanic => ((infos ++ [make_info drop t], defs), RPanic)
                 end
      | RErr e => ((infos ++ [make_info drop t], defs), RErr e)
      | RPanic => ((infos ++ [make_info drop t], defs), RPanic)
      end
  end.

(** schema.go:338-353, 428-443: opening truncates; 417-422, 464-469: the code is
    written when go/format accepts it. *)
Definition open_file (dir fn : bytes) (w : world) : world :=
  if is_empty dir then w else mkW (fput (dir, fn) GEmpty (w_fs w)) (w_out w).
Definition write_file (dir fn : bytes) (f : gfile) (w : world) : world :=
  if is_empty dir then mkW (w_fs w) (w_out w ++ [f]) else mkW (fput (dir, fn) f (w_fs w)) (w_out w).
Definition file_name (multi : bool) (sname base : bytes) : bytes := if multi then sname ++ B "_" ++ base else base.
Definition model_base : bytes := B "model.gen.go".
Definition schema_base : bytes := B "schema.gen.go".
Definition format_error : Z := 2.

(** schema.go:334-470: one turn of the loop over the schemas; [fok] tells
    whether go/format accepts the file *)
Definition gen_schema (nm : naming) (fok : gfile -> bool) (a : gargs) (m : gmaps) (drop : list bytes) (multi : bool)
  (sname : bytes) (ts : list gtab) (w : world) (infos : list tinfo) (defs : list tdef)
  : (world * (list tinfo * list tdef)) * outcome unit :=
  let mf := file_name multi sname model_base in
  let w1 := open_file (ga_outm a) mf w in
  match each_table nm a m drop sname ts infos defs with
  | (acc, RErr e) => ((w1, acc), RErr e)
  | (acc, RPanic) => ((w1, acc), RPanic)
  | ((infos', defs'), ROk ss) =>
      let f := GModel (model_pkg a) (negb (beqb (model_pkg a) (schema_pkg a))) ss in
      if negb (fok f) then ((w1, (infos', defs')), RErr format_error) else
      let w2 := write_file (ga_outm a) mf f w1 in
      let sf := file_name multi sname schema_base in
      let w3 := open_file (ga_outs a) sf w2 in
      match render_schema nm a m infos' defs' with
      | RErr e => ((w3, (infos', defs')), RErr e)
      | RPanic => ((w3, (infos', defs')), RPanic)
      | ROk g => if negb (fok g) then ((w3, (infos', defs')), RErr format_error)
                 else ((write_file (ga_outs a) sf g w3, (infos', defs')), ROk tt)
      end
  end.

(** schema.go:325-328 *)
Definition add_table (m : list (bytes * list gtab)) (t : gtab) : list (bytes * list gtab) :=
  mput (g_schema t) (match mget (g_schema t) m with Some l => l | None => [] end ++ [t]) m.
Definition by_schema (ts : list gtab) : list (bytes * list gtab) := fold_left add_table ts [].

(** schema.go:334-470: [ord] is the order in which the map of schemas is ranged
    over *)
Fixpoint each_schema (nm : naming) (fok : gfile -> bool) (a : gargs) (m : gmaps) (drop : list bytes) (multi : bool)
  (groups : list (bytes * list gtab)) (ord : list bytes) (w : world) (infos : list tinfo) (defs : list tdef) : world * outcome unit :=
  match ord with
  | [] => (w, ROk tt)
  | s :: r =>
      match gen_schema nm fok a m drop multi s (match mget s groups with Some l => l | None => [] end) w infos defs with
      | ((w', (infos', defs')), ROk _) => each_schema nm fok a m drop multi groups r w' infos' defs'
      | ((w', _), RErr e) => (w', RErr e)
      | ((w', _), RPanic) => (w', RPanic)
      end
  end.

(** schema.go:282-472 generate: the package variables and the world are the
    state; the dialect is left out. *)
Definition generate (nm : naming) (fok : gfile -> bool) (a : gargs) (ts : list gtab) (ord : list bytes) (m : gmaps) (w : world)
  : (gmaps * world) * outcome unit :=
  match ga_def a with
  | Some (RErr e) => ((m, w), RErr e)
  | Some RPanic => ((m, w), RPanic)
  | Some (ROk o) =>
      let m' := load m o in
      let groups := by_schema ts in
      let '(w', r) := each_schema nm fok a m' (ov_drop o) (1 <? length groups)%nat groups ord w [] [] in ((m', w'), r)
  | None =>
      let groups := by_schema ts in
      let '(w', r) := each_schema nm fok a m [] (1 <? length groups)%nat groups ord w [] [] in ((m, w'), r)
  end.

(** schema.go:175-195 Run: discovery, then generation from the columns as they
    are then.  [deps]: the Dependencies flag, with the map orders of the search. *)
Definition run_generate (nm : naming) (fok : gfile -> bool) (a : gargs) (cat : catalog) (st : prov) (schemas tables views : list bytes)
  (deps : option (nat * list bytes * list bytes)) (vord ord : list bytes) (m : gmaps) (w : world) : option ((prov * (gmaps * world)) * outcome unit) :=
  match (match deps with
         | None => Some (list_tables cat st schemas tables)
         | Some (fuel, o1, o2) => list_tables_deps fuel cat st schemas tables o1 o2
         end) with
  | None => None
  | Some (st1, RErr e) => Some ((st1, (m, w)), RErr e)
  | Some (st1, RPanic) => Some ((st1, (m, w)), RPanic)
  | Some (st1, ROk ts) =>
      match (match views with [] => (st1, ROk []) | _ => list_views cat st1 schemas views vord end) with
      | (st2, RErr e) => Some ((st2, (m, w)), RErr e)
      | (st2, RPanic) => Some ((st2, (m, w)), RPanic)
      | (st2, ROk vs) => let '(x, r) := generate nm fok a (map (resolve (p_heap st2)) (ts ++ vs)) ord m w in Some ((st2, x), r)
      end
  end.

(** template.go:132-152: SetResult, SetResultWithCursor of a generated Result
    over rows of type [R]; the state is (Rows, NextOffset, HasNextPage, Cursor). *)
Record gresult (R : Type) := mkGR { gr_rows : list R; gr_next : Z; gr_has : bool; gr_cursor : bytes }.
Arguments mkGR {R}. Arguments gr_rows {R}. Arguments gr_next {R}. Arguments gr_has {R}. Arguments gr_cursor {R}.
Definition g_set_result {R} (p : gresult R) (rows : list R) (has : bool) (next : Z) : gresult R := mkGR rows next has (gr_cursor p).
Definition g_set_result_cursor {R} (p : gresult R) (rows : list R) (has : bool) (cursor : R -> bytes) : gresult R :=
  match rev rows with
  | last :: _ => if has then mkGR rows (gr_next p) has (cursor last) else mkGR rows (gr_next p) has (gr_cursor p)
  | [] => mkGR rows (gr_next p) has (gr_cursor p)
  end.
