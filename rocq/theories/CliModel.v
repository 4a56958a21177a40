(** Model of the printing commands of the command line tool
    (internal/cli/schema/schema.go:34-160, internal/cli/cli.go:98-149) and of
    pkg/print: what `schema columns|tables|views|foreign-keys` write, for every
    output format, listing and writer.

    Simplifications: the layout of a text table (tablewriter) and the YAML
    encoder are functions given as arguments; a writer is what was accepted so
    far and the number of bytes it will still accept (None: all of them); nil
    pointers inside a slice are left out. *)
From Verif Require Import GoBase GoBaseFacts IdModel TypeModel ParamModel SchemaModel JsonModel.
Open Scope Z_scope.

(** ** Values that are printed (schema/schema.go:112-260), slices may be nil *)
Record pindex := mkPI { pi_name : bytes; pi_primary : bool; pi_unique : bool; pi_cols : option (list bytes) }.
Record pcolumn := mkPC { pc_name : bytes; pc_type : bytes; pc_udt : bytes; pc_null : bool; pc_max : Z; pc_pos : Z; pc_ref : option fkey; pc_idx : list pindex }.
Record ptable := mkPT { pt_schema : bytes; pt_name : bytes; pt_type : bytes; pt_view : bool; pt_cols : option (list pcolumn); pt_idx : option (list pindex); pt_pk : option pcolumn }.
Inductive pval := VTable (t : ptable) | VTables (l : option (list ptable)) | VFks (l : option (list fkey)) | VIndexes (l : option (list pindex)) | VOther (v : json).
(** The elements of a slice, nil or not. *)
Definition elems {A} (l : option (list A)) : list A := match l with Some l => l | None => [] end.

(** ** json.MarshalIndent(v, "", "  ") *)
(** encoding/json: a nil slice is null, fields tagged `json:"-"` are left out
    (schema.go:31-35, 121-125, 150-156, 218, 247) *)
Definition slice_doc {A} (f : A -> json) (l : option (list A)) : json := match l with None => JNull | Some l => JArr (map f l) end.
Definition num (n : Z) : json := JNum (fmt_int 10 n).
Definition index_doc (i : pindex) : json :=
  JObj [(B "Name", JStr (pi_name i)); (B "IsPrimary", JBool (pi_primary i)); (B "IsUnique", JBool (pi_unique i)); (B "ColumnNames", slice_doc JStr (pi_cols i))].
Definition column_doc (c : pcolumn) : json :=
  JObj [(B "Name", JStr (pc_name c)); (B "Type", JStr (pc_type c)); (B "UdtType", JStr (pc_udt c)); (B "Nullable", JBool (pc_null c)); (B "MaxLength", num (pc_max c)); (B "Position", num (pc_pos c))].
Definition table_doc (t : ptable) : json :=
  JObj [(B "Schema", JStr (pt_schema t)); (B "Name", JStr (pt_name t)); (B "Type", JStr (pt_type t)); (B "IsView", JBool (pt_view t));
        (B "Columns", slice_doc column_doc (pt_cols t)); (B "Indexes", slice_doc index_doc (pt_idx t));
        (B "PrimaryKey", match pt_pk t with Some c => column_doc c | None => JNull end)].
Definition fk_doc (k : fkey) : json :=
  JObj [(B "Name", JStr (k_name k)); (B "Schema", JStr (k_schema k)); (B "Table", JStr (k_table k)); (B "Column", JStr (k_column k));
        (B "RefSchema", JStr (k_rschema k)); (B "RefTable", JStr (k_rtable k)); (B "RefColumn", JStr (k_rcolumn k))].
Definition doc (v : pval) : json :=
  match v with VTable t => table_doc t | VTables l => slice_doc table_doc l | VFks l => slice_doc fk_doc l | VIndexes l => slice_doc index_doc l | VOther j => j end.
(** json.appendIndent with prefix "" and indent "  ": a new line and two spaces
    per level before every element; empty arrays and objects stay "[]", "{}" *)
Definition nl (depth : nat) : bytes := ch 10 :: concat (repeat (B "  ") depth).
Fixpoint indent (depth : nat) (v : json) : bytes :=
  match v with
  | JArr [] => B "[]"
  | JArr l => B "[" ++ nl (S depth) ++ join (B "," ++ nl (S depth)) (map (indent (S depth)) l) ++ nl depth ++ B "]"
  | JObj [] => B "{}"
  | JObj l => B "{" ++ nl (S depth) ++ join (B "," ++ nl (S depth)) (map (fun kv => enc_string (fst kv) ++ B ": " ++ indent (S depth) (snd kv)) l) ++ nl depth ++ B "}"
  | _ => json_text v
  end.

(** ** Writers: io.Writer, errors are ignored by all the code here *)
Record sink := mkSink { k_out : bytes; k_room : option nat }.
Definition write (s : sink) (b : bytes) : sink :=
  match k_room s with
  | None => mkSink (k_out s ++ b) None
  | Some n => mkSink (k_out s ++ firstn n b) (Some (n - length b))%nat
  end.
Definition empty_sink (room : option nat) : sink := mkSink [] room.

(** ** pkg/print *)
(** What the libraries do: the layout of a text table with a header, yaml.Marshal *)
Record libs := mkLibs { lb_table : list bytes -> list (list bytes) -> bytes; lb_yaml : pval -> outcome bytes }.
(** values.Select(c, "YES", "") *)
Definition yes (b : bool) : bytes := if b then B "YES" else [].
(** print/schema.go:26-49, a row of the column table; IsIndex (schema.go:166-169),
    RefColumnSchemaName (schema.go:262-267) *)
Definition column_cells (c : pcolumn) : list bytes :=
  [fmt_int 10 (pc_pos c); pc_name c; pc_type c; pc_udt c; yes (pc_null c); (if 0 <? pc_max c then fmt_int 10 (pc_max c) else []);
   yes (0 <? length (pc_idx c))%nat; match pc_ref c with Some k => ref_column k | None => [] end].
Definition column_header : list bytes := map B ["Ord"; "Name"; "Type"; "UDT"; "NULL"; "Max"; "Index"; "Ref"]%string.
(** print/schema.go:60-76 SchemaIndexes *)
Definition index_cells (i : pindex) : list bytes := [pi_name i; yes (pi_primary i); yes (pi_unique i); join (B ", ") (elems (pi_cols i))].
Definition index_header : list bytes := map B ["Name"; "Primary"; "Unique"; "Columns"]%string.
Definition print_indexes (lb : libs) (s : sink) (l : list pindex) : sink :=
  write (write s (lb_table lb index_header (map index_cells l))) [ch 10].
(** print/schema.go:79-96 SchemaForeingKeys *)
Definition fk_cells (k : fkey) : list bytes := [k_name k; k_schema k; k_table k; k_column k; k_rschema k; k_rtable k; k_rcolumn k].
Definition fk_header : list bytes := map B ["Name"; "Schema"; "Table"; "Column"; "FK Schema"; "FK Table"; "FK Column"]%string.
Definition print_fks (lb : libs) (s : sink) (l : list fkey) : sink :=
  write (write s (lb_table lb fk_header (map fk_cells l))) [ch 10].
(** print/schema.go:19-57 SchemaTable *)
Definition print_table (lb : libs) (s : sink) (t : ptable) : sink :=
  let s := write s (B "Schema: " ++ pt_schema t ++ [ch 10] ++ B "Table: " ++ pt_name t ++ [ch 10; ch 10]) in
  let s := write s (lb_table lb column_header (map column_cells (elems (pt_cols t)))) in
  if (0 <? length (elems (pt_idx t)))%nat then print_indexes lb (write s (ch 10 :: B "Indexes:" ++ [ch 10])) (elems (pt_idx t))
  else write s [ch 10].
(** print/schema.go:12-16 SchemaTables *)
Definition print_tables (lb : libs) (s : sink) (l : list ptable) : sink := fold_left (print_table lb) l s.
(** print/print.go:13-22 JSON: the encoder cannot fail on these values *)
Definition print_json (s : sink) (v : pval) : sink := write (write s (indent 0 (doc v))) [ch 10].
(** print/print.go:25-32 Yaml *)
Definition print_yaml (lb : libs) (s : sink) (v : pval) : sink * outcome unit :=
  match lb_yaml lb v with
  | ROk y => (write s y, ROk tt)
  | RErr e => (s, RErr e)
  | RPanic => (s, RPanic)
  end.
(** print/print.go:47-60 Print *)
Definition print_value (lb : libs) (s : sink) (v : pval) : sink :=
  match v with
  | VTable t => print_table lb s t
  | VTables l => print_tables lb s (elems l)
  | VFks l => print_fks lb s (elems l)
  | VIndexes l => print_indexes lb s (elems l)
  | VOther _ => print_json s v
  end.
(** print/print.go:35-44 Object; cli.go:147-149 Print *)
Definition print_object (lb : libs) (s : sink) (format : bytes) (v : pval) : sink * outcome unit :=
  if beqb format (B "yaml") then print_yaml lb s v
  else if beqb format (B "json") then (print_json s v, ROk tt)
  else (print_value lb s v, ROk tt).

(** ** Commands *)
(** schema.Provider: what a listing returns for the filters it is given.  A slice
    it returns without an error is not nil (provider.go:73, 172, 308, 374). *)
Record lister := mkL {
  l_tables : list bytes -> list bytes -> bool -> outcome (list ptable);
  l_views : list bytes -> list bytes -> outcome (list ptable);
  l_fks : list bytes -> list bytes -> outcome (list fkey) }.
Definition lift {A C} (s : sink) (x : outcome A) (f : A -> sink * outcome C) : sink * outcome C :=
  match x with ROk a => f a | RErr e => (s, RErr e) | RPanic => (s, RPanic) end.
(** cli.go:123-138 SchemaProvider: [p] is the provider or the error of connecting *)
Definition with_provider (s : sink) (p : outcome lister) (f : lister -> sink * outcome unit) : sink * outcome unit := lift s p f.
(** schema.go:34-66 PrintColumnsCmd; the error of the first and the second Print
    is dropped *)
Definition cmd_columns (lb : libs) (s : sink) (format : bytes) (p : outcome lister) (schemas tables : list bytes) (deps views : bool) : sink * outcome unit :=
  with_provider s p (fun r =>
    lift s (l_tables r schemas tables deps) (fun res =>
      let s := fst (print_object lb s format (VTables (Some res))) in
      if views then
        lift s (l_views r schemas tables) (fun vres =>
          if (0 <? length vres)%nat then (fst (print_object lb s format (VTables (Some vres))), ROk tt) else (s, ROk tt))
      else (s, ROk tt))).
(** schema.go:97-102, 125-130: fmt.Fprintf(w, "%s.%s\n", t.Schema, t.Name) for each *)
Definition print_names (s : sink) (l : list ptable) : sink :=
  fold_left (fun s t => write s (pt_schema t ++ B "." ++ pt_name t ++ [ch 10])) l s.
Definition structured (format : bytes) : bool := beqb format (B "json") || beqb format (B "yaml").
(** schema.go:69-105 PrintTablesCmd *)
Definition cmd_tables (lb : libs) (s : sink) (format : bytes) (p : outcome lister) (schemas tables : list bytes) (views : bool) : sink * outcome unit :=
  with_provider s p (fun r =>
    lift s (l_tables r schemas tables true) (fun res =>
      let finish all := if structured format then print_object lb s format (VTables (Some all)) else (print_names s all, ROk tt) in
      if views then lift s (l_views r schemas tables) (fun vres => finish (res ++ vres)) else finish res)).
(** schema.go:108-133 PrintViewsCmd *)
Definition cmd_views (lb : libs) (s : sink) (format : bytes) (p : outcome lister) (schemas views : list bytes) : sink * outcome unit :=
  with_provider s p (fun r =>
    lift s (l_views r schemas views) (fun res =>
      if structured format then print_object lb s format (VTables (Some res)) else (print_names s res, ROk tt))).
(** schema.go:136-153 PrintFKCmd *)
Definition cmd_fks (lb : libs) (s : sink) (format : bytes) (p : outcome lister) (schemas tables : list bytes) : sink * outcome unit :=
  with_provider s p (fun r => lift s (l_fks r schemas tables) (fun res => print_object lb s format (VFks (Some res)))).

(** cli.go:97-112 AfterApply: --sql-source or the environment; None is the error *)
Definition after_apply (flag env : bytes) : option bytes :=
  let src := strings_coalesce flag env in if is_empty src then None else Some src.

(** ** A provider behind the commands: the listings of the schema package *)
(** What a listed table (a reference into the provider's columns) looks like when
    it is printed; [nilx] tells whether its index slice is nil (it is for views and
    for discovered tables, provider.go:151-156, 385-389) *)
Definition shown_index (i : index) : pindex := mkPI (ix_name i) (ix_primary i) (ix_unique i) (Some (ix_cols i)).
Definition shown_column (c : column) : pcolumn := mkPC (c_name c) (c_type c) (c_udt c) (c_null c) (c_max c) (c_pos c) (c_ref c) (map shown_index (c_idx c)).
Definition shown (nilx : table -> bool) (h : list column) (t : table) : ptable :=
  mkPT (t_schema t) (t_name t) (t_type t) (t_view t)
       (Some (flat_map (fun i => match nth_error h i with Some c => [shown_column c] | None => [] end) (t_cols t)))
       (if nilx t then None else Some (map shown_index (t_idx t)))
       (match t_pk t with Some i => option_map shown_column (nth_error h i) | None => None end).
(** The lister of a new provider on a catalog; [ord], [tord], [vord] are the orders
    in which Go ranges over its maps, [fuel] bounds the discovery (C65: it always
    ends, so a large enough one exists). *)
Definition new_lister (nilx : table -> bool) (cat : catalog) (fuel : nat) (ord tord vord : list bytes) : lister :=
  let show (x : prov * outcome (list table)) := match snd x with ROk ts => ROk (map (shown nilx (p_heap (fst x))) ts) | RErr e => RErr e | RPanic => RPanic end in
  mkL (fun a b d => if d then match list_tables_deps fuel cat new_prov a b ord tord with Some x => show x | None => RPanic end else show (list_tables cat new_prov a b))
      (fun a b => show (list_views cat new_prov a b vord))
      (fun a b => snd (list_fks cat new_prov a b)).
