(** The repository's own tests of the schema package, of the generator's types
    and of the printing commands replayed on the model: the expectations below are
    copied from /repo/schema/schema_test.go, internal/cli/schema/template_test.go,
    internal/cli/schema/schema_test.go and pkg/print/print_test.go.  They test the
    model, they are not properties. *)
From Verif Require Import GoBase IdModel TypeModel ParamModel SchemaModel JsonModel GenModel CliModel.
Open Scope Z_scope.

(** ** schema_test.go TestModel *)
Definition fk1 : fkey := mkFK (B "FK_1") (B "dbo") (B "t1") (B "c1") (B "smb") (B "t2") (B "c2").
Definition idx1 : index := mkIx (B "idx") true true [B "id"; B "name"].
Definition col1 : column := mkCol (B "org_id") (B "bigint") (B "int8") true 0 0 [] None [].
Definition col2 : column := mkCol (B "id") (B "bigint") (B "int8") false 32 0 [] (Some fk1) [idx1].
Example TestModel_fk : fqn3 (k_schema fk1) (k_table fk1) (k_column fk1) = B "dbo.t1.c1" /\ ref_column fk1 = B "smb.t2.c2". Proof. vm_compute. split; reflexivity. Qed.
Example TestModel_flags : is_index col1 = false /\ is_primary col1 = false /\ is_index col2 = true /\ is_primary col2 = true. Proof. vm_compute. repeat split. Qed.
Example TestModel_tag : tag col1 = B "db:""org_id,int8,null"" json:"",omitempty""" /\ tag col2 = B "db:""id,int8,max:32,index,primary,fk:smb.t2.c2"" json:"",omitempty""".
Proof. vm_compute. split; reflexivity. Qed.
Example TestModel_struct : struct_string col1 = B "{ Name: ""org_id"", Position: 0, Type: ""bigint"", UdtType: ""int8"", Nullable: true }" /\
  struct_string col2 = B "{ Name: ""id"", Position: 0, Type: ""bigint"", UdtType: ""int8"", Nullable: false , MaxLength: 32 }".
Proof. vm_compute. split; reflexivity. Qed.

(** ** schema_test.go TestTableInfo, the texts that do not go through xsql *)
Definition ti1 : tinfo := mkTI (B "public") (B "org") (B "id") [B "id"; B "meta"; B "name"] [] (B "public.org") [].
Definition only_meta (c : bytes) : bool := beqb c (B "meta").
Example TestTableInfo : snd (all_columns ti1) = B "id, meta, name" /\ aliased_columns ti1 (B "a") only_meta = B "a.id, NULL, a.name" /\ aliased_columns ti1 [] only_meta = B "id, NULL, name" /\
  snd (select_expr ti1 []) = B "id, meta, name" /\ snd (select_expr ti1 [B "id"]) = B "id" /\ aliased_from ti1 (B "o") = B "public.org o".
Proof. vm_compute. repeat split. Qed.

(** ** template_test.go *)
Definition gt (name typ udt : string) (null : bool) (exp : string) : bool :=
  match to_go_type [] (mkCol (B name) (B typ) (B udt) null 0 0 [] None []) with ROk t => beqb t (B exp) | _ => false end.
Example TestSqlToGoType : forallb (fun x => x) [
  gt "" "int" "" false "int32";
  gt "" "int" "" true "xdb.Int32";
  gt "AccountId" "int" "" false "xdb.ID32";
  gt "RefId" "int" "" true "xdb.ID32";
  gt "" "bigint" "" false "int64";
  gt "" "bigint" "" true "xdb.Int64";
  gt "id" "bigint" "" false "xdb.ID";
  gt "id" "bigint" "" true "xdb.ID";
  gt "" "decimal" "" false "float64";
  gt "" "decimal" "" true "xdb.Float";
  gt "" "bit" "" false "bool";
  gt "" "bit" "" true "xdb.Bool";
  gt "" "varchar" "" false "string";
  gt "" "varchar" "" true "xdb.NULLString";
  gt "" "time" "" false "xdb.Time";
  gt "" "time" "" true "xdb.Time";
  gt "" "uniqueidentifier" "" false "xdb.UUID";
  gt "" "uniqueidentifier" "" true "xdb.UUID"] = true.
Proof. vm_compute. reflexivity. Qed.
Example TestPgToGoType : forallb (fun x => x) [
  gt "" "smallint" "int2" false "int16";
  gt "" "smallint" "int2" true "xdb.Int32";
  gt "" "int" "int2" false "int16";
  gt "" "int" "int2" true "xdb.Int32";
  gt "" "int" "int4" false "int32";
  gt "" "int" "int4" true "xdb.Int32";
  gt "AccountId" "int" "int4" false "xdb.ID32";
  gt "refId" "int" "int4" true "xdb.ID32";
  gt "" "int" "int8" false "int64";
  gt "" "int" "int8" true "xdb.Int64";
  gt "test_id" "bigint" "" false "xdb.ID";
  gt "" "bigint" "" false "int64";
  gt "" "bigint" "" true "xdb.Int64";
  gt "" "decimal" "" false "float64";
  gt "" "decimal" "" true "xdb.Float";
  gt "" "real" "" false "float32";
  gt "" "real" "" true "xdb.Float";
  gt "" "boolean" "" false "bool";
  gt "" "boolean" "" true "xdb.Bool";
  gt "" "" "varchar" false "string";
  gt "" "" "varchar" true "xdb.NULLString";
  gt "" "timestamp with time zone" "timestamptz" false "xdb.Time";
  gt "" "timestamp without time zone" "timestamp" true "xdb.Time";
  gt "" "jsonb" "" false "xdb.NULLString";
  gt "" "jsonb" "" true "xdb.NULLString";
  gt "" "bytea" "" true "[]byte";
  gt "" "ARRAY" "_int8" true "pq.Int64Array";
  gt "test_ids" "ARRAY" "_int8" true "xdb.IDArray";
  gt "" "ARRAY" "_varchar" true "pq.StringArray";
  gt "" "uniqueidentifier" "" false "xdb.UUID";
  gt "" "uuid" "uuid" false "xdb.UUID";
  gt "" "uniqueidentifier" "" true "xdb.UUID";
  gt "" "uuid" "uuid" true "xdb.UUID"] = true.
Proof. vm_compute. reflexivity. Qed.
Example TestGoType_panics : to_go_type [] (mkCol [] (B "unknown") [] false 0 0 [] None []) = RPanic. Proof. reflexivity. Qed.

(** ** print_test.go and schema_test.go of the commands *)
(** A layout that keeps the cells apart: one line per row, a bar after each cell. *)
Definition bars (h : list bytes) (rows : list (list bytes)) : bytes := concat (map (fun r => concat (map (fun c => c ++ B "|") r) ++ [ch 10]) (h :: rows)).
Definition lb : libs := mkLibs bars (fun _ => ROk []).
Definition nosink : sink := empty_sink None.
Definition tab0 : ptable := mkPT (B "dbo") (B "test") [] false None None None.
Example TestObject_json : k_out (fst (print_object lb nosink (B "json") (VTable tab0))) = B "{
  ""Schema"": ""dbo"",
  ""Name"": ""test"",
  ""Type"": """",
  ""IsView"": false,
  ""Columns"": null,
  ""Indexes"": null,
  ""PrimaryKey"": null
}
". Proof. vm_compute. reflexivity. Qed.
Example TestObject_text : k_out (fst (print_object lb nosink [] (VTable tab0))) = B "Schema: dbo
Table: test

Ord|Name|Type|UDT|NULL|Max|Index|Ref|

". Proof. vm_compute. reflexivity. Qed.
Definition pcol (n t u : string) (null : bool) (max : Z) : pcolumn := mkPC (B n) (B t) (B u) null max 0 None [].
Definition pix : pindex := mkPI (B "a") true false (Some [B "col1"; B "col2"]).
Definition tab1 (ix : option (list pindex)) : ptable := mkPT (B "dbo") (B "test") [] false (Some [pcol "ID" "uint64" "int8" false 0; pcol "Name" "string" "varchar" true 255]) ix None.
Example TestPrintSchema_table : k_out (print_value lb nosink (VTable (tab1 (Some [pix])))) = B "Schema: dbo
Table: test

Ord|Name|Type|UDT|NULL|Max|Index|Ref|
0|ID|uint64|int8|||||
0|Name|string|varchar|YES|255|||

Indexes:
Name|Primary|Unique|Columns|
a|YES||col1, col2|

" /\ k_out (print_value lb nosink (VTable (tab1 None))) = B "Schema: dbo
Table: test

Ord|Name|Type|UDT|NULL|Max|Index|Ref|
0|ID|uint64|int8|||||
0|Name|string|varchar|YES|255|||

". Proof. vm_compute. split; reflexivity. Qed.
Definition fk0 : fkey := mkFK (B "FK_1") (B "dbo") (B "from") (B "col1") (B "dbo") (B "to") (B "col2").
Example TestPrintSchema_fk : k_out (print_value lb nosink (VFks (Some [fk0]))) = B "Name|Schema|Table|Column|FK Schema|FK Table|FK Column|
FK_1|dbo|from|col1|dbo|to|col2|

". Proof. vm_compute. reflexivity. Qed.
Example TestPrintSchema_indexes : k_out (print_value lb nosink (VIndexes (Some [pix]))) = B "Name|Primary|Unique|Columns|
a|YES||col1, col2|

". Proof. vm_compute. reflexivity. Qed.
(** A mocked provider: the result of each listing *)
Definition mock (ts : outcome (list ptable)) (ks : outcome (list fkey)) : outcome lister := ROk (mkL (fun _ _ _ => ts) (fun _ _ => ts) (fun _ _ => ks)).
Definition failed : outcome (list ptable) := RErr 7.
Definition tab2 : ptable := mkPT (B "dbo") (B "test") (B "BASE TABLE") false (Some [pcol "ID" "uint64" "int8" false 0]) None None.
Definition cols_cmd format p := cmd_columns lb nosink (B format) p [B "dbo"] [B "Transaction"] false false.
Example TestPrintColumnsCmd : (let r := cols_cmd "" (mock (ROk [tab2]) (ROk [])) in k_out (fst r) = B "Schema: dbo
Table: test

Ord|Name|Type|UDT|NULL|Max|Index|Ref|
0|ID|uint64|int8|||||

" /\ snd r = ROk tt) /\ (let r := cols_cmd "json" (mock (ROk [tab2]) (ROk [])) in k_out (fst r) = B "[
  {
    ""Schema"": ""dbo"",
    ""Name"": ""test"",
    ""Type"": ""BASE TABLE"",
    ""IsView"": false,
    ""Columns"": [
      {
        ""Name"": ""ID"",
        ""Type"": ""uint64"",
        ""UdtType"": ""int8"",
        ""Nullable"": false,
        ""MaxLength"": 0,
        ""Position"": 0
      }
    ],
    ""Indexes"": null,
    ""PrimaryKey"": null
  }
]
" /\ snd r = ROk tt) /\ snd (cols_cmd "json" (mock failed (ROk []))) = RErr 7.
Proof. vm_compute. repeat split. Qed.
Example TestPrintTablesCmd : (let r := cmd_tables lb nosink [] (mock (ROk [tab2]) (ROk [])) [B "dbo"] [B "Transaction"] false in k_out (fst r) = B "dbo.test
" /\ snd r = ROk tt) /\ snd (cmd_tables lb nosink [] (mock failed (ROk [])) [B "dbo"] [B "Transaction"] false) = RErr 7.
Proof. vm_compute. repeat split. Qed.
Example TestPrintViewsCmd : (let r := cmd_views lb nosink [] (mock (ROk [tab2]) (ROk [])) [B "dbo"] [B "Transaction"] in k_out (fst r) = B "dbo.test
" /\ snd r = ROk tt) /\ snd (cmd_views lb nosink [] (mock failed (ROk [])) [B "dbo"] [B "Transaction"]) = RErr 7.
Proof. vm_compute. repeat split. Qed.
Example TestPrintFKCmd : (let r := cmd_fks lb nosink (B "json") (mock (ROk []) (ROk [fk0])) [B "dbo"] [B "Transaction"] in k_out (fst r) = B "[
  {
    ""Name"": ""FK_1"",
    ""Schema"": ""dbo"",
    ""Table"": ""from"",
    ""Column"": ""col1"",
    ""RefSchema"": ""dbo"",
    ""RefTable"": ""to"",
    ""RefColumn"": ""col2""
  }
]
" /\ snd r = ROk tt) /\ snd (cmd_fks lb nosink [] (mock (ROk []) (RErr 7)) [B "dbo"] [B "Transaction"]) = RErr 7.
Proof. vm_compute. repeat split. Qed.
