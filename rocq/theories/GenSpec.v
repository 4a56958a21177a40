(** Vocabulary of the theorems on the code generator. *)
From Verif Require Import GoBase IdModel TypeModel TimeModel ParamModel SchemaModel GenModel.
Open Scope Z_scope.

(** ** Types *)
(** The column types the generator knows, by what they hold. *)
Inductive family := FInt64 | FInt32 | FInt16 | FTiny | FFloat64 | FFloat32 | FBool | FJson | FBytes | FText | FTime | FUuid.
Definition families : list (family * list bytes) := [
  (FInt64, [B "bigint"; B "int8"]); (FInt32, [B "int"; B "int4"]); (FInt16, [B "smallint"; B "int2"]); (FTiny, [B "tinyint"]);
  (FFloat64, [B "decimal"; B "numeric"; B "float8"]); (FFloat32, [B "real"; B "float4"]); (FBool, [B "bool"; B "boolean"; B "bit"]);
  (FJson, [B "jsonb"]); (FBytes, [B "bytea"]);
  (FText, [B "nchar"; B "nvarchar"; B "char"; B "varchar"; B "bpchar"; B "text"; B "cidr"; B "inet"; B "ltree"]);
  (FTime, [B "time"; B "date"; B "datetime"; B "datetime2"; B "timestamp"; B "timestamptz"]);
  (FUuid, [B "uniqueidentifier"; B "uuid"]) ].
Definition has_family (typ : bytes) (f : family) : Prop := exists l, In (f, l) families /\ In typ l.
(** The Go type for a column of a family: [id] for identifier columns, [null]
    for nullable ones. *)
Definition go_type (id null : bool) (f : family) : bytes :=
  match f, id, null with
  | FInt64, true, _ => B "xdb.ID"
  | FInt32, true, _ => B "xdb.ID32"
  | FInt64, false, true => B "xdb.Int64"
  | FInt64, false, false => B "int64"
  | FInt32, false, false => B "int32"
  | FInt16, _, false => B "int16"
  | FTiny, _, false => B "int8"
  | FInt32, false, true | FInt16, _, true | FTiny, _, true => B "xdb.Int32"
  | FFloat64, _, false => B "float64"
  | FFloat32, _, false => B "float32"
  | FFloat64, _, true | FFloat32, _, true => B "xdb.Float"
  | FBool, _, false => B "bool"
  | FBool, _, true => B "xdb.Bool"
  | FText, _, false => B "string"
  | FText, _, true | FJson, _, _ => B "xdb.NULLString"
  | FBytes, _, _ => B "[]byte"
  | FTime, _, _ => B "xdb.Time"
  | FUuid, _, _ => B "xdb.UUID"
  end.
(** Identifier columns: called id in any case, or ending in _id, Id or ID. *)
Definition id_column (n : bytes) : Prop :=
  (exists a b, n = [a; b] /\ (a = ch 105 \/ a = ch 73) /\ (b = ch 100 \/ b = ch 68)) \/
  (exists p, n = p ++ B "_id") \/ (exists p, n = p ++ B "Id") \/ (exists p, n = p ++ B "ID").
(** No definition file says otherwise. *)
Definition no_override (types : list (bytes * bytes)) (c : column) : Prop :=
  mget (c_name c) types = None /\ mget (c_fqn c) types = None /\ mget (B "_count") types = None.
(** The type name that counts: the UDT name where there is one. *)
Definition type_of (c : column) : bytes := match c_udt c with [] => c_type c | u => u end.

(** Types whose Scan accepts NULL: those of package xdb by their own Scan,
    and, by the rules of database/sql and lib/pq, byte slices and arrays. *)
Inductive null_ok : bytes -> Prop :=
| ok_id : (forall v, snd (id_scan v ANil) = true) -> null_ok (B "xdb.ID")
| ok_id32 : (forall v, snd (id32_scan v ANil) = true) -> null_ok (B "xdb.ID32")
| ok_int64 : (forall v, snd (int64_scan v ANil) = true) -> null_ok (B "xdb.Int64")
| ok_int32 : (forall v, snd (int32_scan v ANil) = true) -> null_ok (B "xdb.Int32")
| ok_float : (forall v, snd (float_scan v ANil) = true) -> null_ok (B "xdb.Float")
| ok_bool : (forall v, snd (bool_scan v ANil) = true) -> null_ok (B "xdb.Bool")
| ok_string : (forall sh v, snd (nullstring_scan sh v ANil) = true) -> null_ok (B "xdb.NULLString")
| ok_uuid : (forall v, snd (uuid_scan v ANil) = true) -> null_ok (B "xdb.UUID")
| ok_time : (forall v, snd (time_scan v TNil) = true) -> null_ok (B "xdb.Time")
| ok_ids : (forall v, snd (ida_scan v ANil) = true) -> null_ok (B "xdb.IDArray")
| ok_bytes : null_ok (B "[]byte")
| ok_pqint : null_ok (B "pq.Int64Array")
| ok_pqstr : null_ok (B "pq.StringArray").

(** Integer columns: the values they hold (tinyint is 0..255 in SQL Server),
    and those a Go type holds. *)
Definition sql_holds (f : family) (z : Z) : Prop :=
  match f with
  | FInt64 => - 2 ^ 63 <= z < 2 ^ 63
  | FInt32 => - 2 ^ 31 <= z < 2 ^ 31
  | FInt16 => - 2 ^ 15 <= z < 2 ^ 15
  | FTiny => 0 <= z < 2 ^ 8
  | _ => False
  end.
Definition go_holds (ty : bytes) (z : Z) : Prop :=
  ((ty = B "int64" \/ ty = B "xdb.Int64") /\ - 2 ^ 63 <= z < 2 ^ 63) \/
  ((ty = B "int32" \/ ty = B "xdb.Int32") /\ - 2 ^ 31 <= z < 2 ^ 31) \/
  (ty = B "int16" /\ - 2 ^ 15 <= z < 2 ^ 15) \/ (ty = B "int8" /\ - 2 ^ 7 <= z < 2 ^ 7) \/
  (ty = B "xdb.ID" /\ 0 <= z < 2 ^ 64) \/ (ty = B "xdb.ID32" /\ 0 <= z < 2 ^ 32).

(** ** Generated files *)
(** The columns of a table that are not to be dropped. *)
Inductive keeps (drop : list bytes) : list column -> list column -> Prop :=
| kp_nil : keeps drop [] []
| kp_drop c l r : In (c_name c) drop -> keeps drop l r -> keeps drop (c :: l) r
| kp_keep c l r : ~ In (c_name c) drop -> keeps drop l r -> keeps drop (c :: l) (c :: r).

(** [s] is the struct, [i] the TableInfo and [g] the column definitions of table
    [t]: the same columns in the same order in the fields, in the destinations
    of Scan, in TableInfo.Columns and in the definitions; GetTableInfo and the
    definitions refer to [i]. *)
Record of_table (types : list (bytes * bytes)) (drop : list bytes) (spkg : bytes) (t : gtab) (s : gstruct) (i : ginfo) (g : gcols) : Prop := {
  o_cols : keeps drop (g_cols t) (map gf_col (gs_fields s));
  o_types : Forall (fun f => to_go_type types (gf_col f) = ROk (gf_type f)) (gs_fields s);
  o_tags : Forall (fun f => gf_tag f = tag (gf_col f)) (gs_fields s);
  o_scan : gs_scan s = map gf_name (gs_fields s);
  o_names : ti_columns (gi_info i) = map (fun f => c_name (gf_col f)) (gs_fields s);
  o_info : gs_info s = spkg ++ gi_var i;
  o_table : ti_schema (gi_info i) = g_schema t /\ ti_name (gi_info i) = g_name t /\ ti_fqn (gi_info i) = g_fqn t;
  o_pk : ti_pk (gi_info i) = match g_pk t with Some c => c_name c | None => [] end;
  o_idx : ti_indexes (gi_info i) = map ix_name (g_idx t);
  o_def : gc_name g = gs_name s /\ gc_info g = gi_var i /\ gc_fields g = map (fun f => (gf_name f, struct_string (gf_col f))) (gs_fields s) }.
(** One of each for every table, in order. *)
Inductive for_tables (P : gtab -> gstruct -> ginfo -> gcols -> Prop) : list gtab -> list gstruct -> list ginfo -> list gcols -> Prop :=
| ft_nil : for_tables P [] [] [] []
| ft_cons t ts s ss i ii g gg : P t s i g -> for_tables P ts ss ii gg -> for_tables P (t :: ts) (s :: ss) (i :: ii) (g :: gg).

(** The tables of a schema, in order; the order in which the schemas are met. *)
Definition tables_of (s : bytes) (ts : list gtab) : list gtab := filter (fun t => beqb (g_schema t) s) ts.
Definition schema_order (ord : list bytes) (ts : list gtab) : Prop := NoDup ord /\ forall s, In s ord <-> In s (map g_schema ts).
Definition several (ts : list gtab) : Prop := exists a b, In a ts /\ In b ts /\ g_schema a <> g_schema b.

(** The file was written under that name, or to the standard output. *)
Definition emitted (dir fn : bytes) (w w' : world) (f : gfile) : Prop :=
  (dir = [] /\ exists pre post, w_out w' = w_out w ++ pre ++ f :: post) \/ (dir <> [] /\ fget (dir, fn) (w_fs w') = Some f).
(** File names: model.gen.go, schema.gen.go, preceded by the schema's name when
    there are several. *)
Definition named (ts : list gtab) (s base fn : bytes) : Prop := (several ts /\ fn = s ++ B "_" ++ base) \/ (~ several ts /\ fn = base).

(** The names a generated file declares at package level. *)
Definition declares (f : gfile) : list bytes :=
  match f with
  | GEmpty => []
  | GModel _ d l => (if d then [B "Dialect"] else []) ++ flat_map (fun s => [gs_name s; gs_name s ++ B "Slice"; gs_name s ++ B "Result"]) l
  | GSchema _ infos mv _ cols => B "Dialect" :: map gi_var infos ++ mv :: map gc_name cols
  end.
