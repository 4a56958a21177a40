(** Vocabulary of the theorems on the printing commands. *)
From Verif Require Import GoBase GoBaseFacts ParamModel SchemaModel JsonModel JsonSpec CliModel.
Open Scope Z_scope.

(** ** What a reader of the JSON output gets: fields are looked up by name. *)
Fixpoint field (k : bytes) (l : list (bytes * json)) : option json :=
  match l with [] => None | (k', v) :: r => if beqb k k' then Some v else field k r end.
Definition fields (v : json) (k : string) : option json := match v with JObj l => field (B k) l | _ => None end.
Definition rd_str (o : option json) : option bytes := match o with Some (JStr s) => Some s | _ => None end.
Definition rd_bool (o : option json) : option bool := match o with Some (JBool b) => Some b | _ => None end.
Definition rd_num (o : option json) : option Z := match o with Some (JNum t) => int_literal t | _ => None end.
Fixpoint all {A} (l : list (option A)) : option (list A) :=
  match l with
  | [] => Some []
  | Some x :: r => match all r with Some xs => Some (x :: xs) | None => None end
  | None :: _ => None
  end.
Definition rd_list {A} (rd : json -> option A) (o : option json) : option (option (list A)) :=
  match o with
  | Some JNull => Some None
  | Some (JArr l) => match all (map rd l) with Some xs => Some (Some xs) | None => None end
  | _ => None
  end.
Notation "'let?' x ':=' e 'in' k" := (match e with Some x => k | None => None end) (at level 200, x name, right associativity, only parsing).
Definition rd_index (v : json) : option pindex :=
  let? n := rd_str (fields v "Name") in let? p := rd_bool (fields v "IsPrimary") in let? u := rd_bool (fields v "IsUnique") in
  let? c := rd_list (fun j => rd_str (Some j)) (fields v "ColumnNames") in Some (mkPI n p u c).
Definition rd_column (v : json) : option pcolumn :=
  let? n := rd_str (fields v "Name") in let? t := rd_str (fields v "Type") in let? u := rd_str (fields v "UdtType") in
  let? nu := rd_bool (fields v "Nullable") in let? m := rd_num (fields v "MaxLength") in let? p := rd_num (fields v "Position") in
  Some (mkPC n t u nu m p None []).
Definition rd_table (v : json) : option ptable :=
  let? s := rd_str (fields v "Schema") in let? n := rd_str (fields v "Name") in let? t := rd_str (fields v "Type") in let? w := rd_bool (fields v "IsView") in
  let? c := rd_list rd_column (fields v "Columns") in let? i := rd_list rd_index (fields v "Indexes") in
  match fields v "PrimaryKey" with
  | Some JNull => Some (mkPT s n t w c i None)
  | Some p => let? k := rd_column p in Some (mkPT s n t w c i (Some k))
  | None => None
  end.
Definition rd_fk (v : json) : option fkey :=
  let? n := rd_str (fields v "Name") in let? s := rd_str (fields v "Schema") in let? t := rd_str (fields v "Table") in let? c := rd_str (fields v "Column") in
  let? rs := rd_str (fields v "RefSchema") in let? rt := rd_str (fields v "RefTable") in let? rc := rd_str (fields v "RefColumn") in Some (mkFK n s t c rs rt rc).
(** The output as one JSON document that is an array. *)
Definition read_doc {A} (rd : json -> option A) (out : bytes) : option (option (list A)) := rd_list rd (parse_json out).

(** What JSON keeps of a table: all but the foreign key and the indexes of its
    columns (they are tagged "-"). *)
Definition plain_column (c : pcolumn) : pcolumn := mkPC (pc_name c) (pc_type c) (pc_udt c) (pc_null c) (pc_max c) (pc_pos c) None [].
Definition plain_table (t : ptable) : ptable :=
  mkPT (pt_schema t) (pt_name t) (pt_type t) (pt_view t) (option_map (map plain_column) (pt_cols t)) (pt_idx t) (option_map plain_column (pt_pk t)).

(** All the names are UTF-8. *)
Definition index_utf8 (i : pindex) : Prop := utf8_text (pi_name i) /\ Forall utf8_text (elems (pi_cols i)).
Definition column_utf8 (c : pcolumn) : Prop := utf8_text (pc_name c) /\ utf8_text (pc_type c) /\ utf8_text (pc_udt c).
Definition table_utf8 (t : ptable) : Prop :=
  utf8_text (pt_schema t) /\ utf8_text (pt_name t) /\ utf8_text (pt_type t) /\ Forall column_utf8 (elems (pt_cols t)) /\ Forall index_utf8 (elems (pt_idx t)) /\
  match pt_pk t with Some c => column_utf8 c | None => True end.
Definition fk_utf8 (k : fkey) : Prop := Forall utf8_text [k_name k; k_schema k; k_table k; k_column k; k_rschema k; k_rtable k; k_rcolumn k].

(** ** Names printed one per line *)
Definition name_line (t : ptable) : bytes := pt_schema t ++ B "." ++ pt_name t ++ [ch 10].
(** A reader of the lines: split at the line ends, then at the dot. *)
Definition read_lines (out : bytes) : list (list bytes) := map (split_on (ch 46)) (removelast (split_on (ch 10) out)).
Definition plain_name (s : bytes) : Prop := ~ In (ch 46) s /\ ~ In (ch 10) s.

(** ** A row of the column table: Ord, Name, Type, UDT, NULL, Max, Index, Ref *)
Definition column_row_says (c : pcolumn) (cells : list bytes) : Prop :=
  exists ord null max idx ref, cells = [ord; pc_name c; pc_type c; pc_udt c; null; max; idx; ref] /\
    int_literal ord = Some (pc_pos c) /\
    (null = B "YES" /\ pc_null c = true \/ null = [] /\ pc_null c = false) /\
    (int_literal max = Some (pc_max c) /\ 0 < pc_max c \/ max = [] /\ pc_max c <= 0) /\
    (idx = B "YES" /\ pc_idx c <> [] \/ idx = [] /\ pc_idx c = []) /\
    match pc_ref c with Some k => ref = k_rschema k ++ B "." ++ k_rtable k ++ B "." ++ k_rcolumn k | None => ref = [] end.
Definition index_row_says (i : pindex) (cells : list bytes) : Prop :=
  exists pr un cols, cells = [pi_name i; pr; un; cols] /\
    (pr = B "YES" /\ pi_primary i = true \/ pr = [] /\ pi_primary i = false) /\
    (un = B "YES" /\ pi_unique i = true \/ un = [] /\ pi_unique i = false) /\
    cols = join (B ", ") (elems (pi_cols i)).
(** The text a table is printed as, given how rows are laid out. *)
Inductive table_text (layout : list bytes -> list (list bytes) -> bytes) (t : ptable) : bytes -> Prop :=
| tt_indexes rows irows :
    Forall2 column_row_says (elems (pt_cols t)) rows -> Forall2 index_row_says (elems (pt_idx t)) irows -> elems (pt_idx t) <> [] ->
    table_text layout t (B "Schema: " ++ pt_schema t ++ ch 10 :: B "Table: " ++ pt_name t ++ [ch 10; ch 10]
      ++ layout (map B ["Ord"; "Name"; "Type"; "UDT"; "NULL"; "Max"; "Index"; "Ref"]%string) rows
      ++ ch 10 :: B "Indexes:" ++ ch 10 :: layout (map B ["Name"; "Primary"; "Unique"; "Columns"]%string) irows ++ [ch 10])
| tt_plain rows :
    Forall2 column_row_says (elems (pt_cols t)) rows -> elems (pt_idx t) = [] ->
    table_text layout t (B "Schema: " ++ pt_schema t ++ ch 10 :: B "Table: " ++ pt_name t ++ [ch 10; ch 10]
      ++ layout (map B ["Ord"; "Name"; "Type"; "UDT"; "NULL"; "Max"; "Index"; "Ref"]%string) rows ++ [ch 10]).

(** ** Commands as programs of a writer: [room] bytes are accepted. *)
Inductive command := KColumns (schemas tables : list bytes) (deps views : bool) | KTables (schemas tables : list bytes) (views : bool) | KViews (schemas views : list bytes) | KFks (schemas tables : list bytes).
Definition run (lb : libs) (format : bytes) (p : outcome lister) (c : command) (s : sink) : sink * outcome unit :=
  match c with
  | KColumns a b d v => cmd_columns lb s format p a b d v
  | KTables a b v => cmd_tables lb s format p a b v
  | KViews a b => cmd_views lb s format p a b
  | KFks a b => cmd_fks lb s format p a b
  end.
Definition output (lb : libs) (format : bytes) (p : outcome lister) (c : command) (room : option nat) : bytes * outcome unit :=
  let '(s, r) := run lb format p c (empty_sink room) in (k_out s, r).
(** The error of the first listing of the command that fails. *)
Definition first_failure {A} (x : outcome A) : option Z := match x with RErr e => Some e | _ => None end.
Definition command_error (p : outcome lister) (c : command) : option Z :=
  match p with
  | RErr e => Some e
  | RPanic => None
  | ROk r =>
      let t a b d := first_failure (l_tables r a b d) in let v a b := first_failure (l_views r a b) in
      match c with
      | KColumns a b d w => match t a b d with Some e => Some e | None => if w then v a b else None end
      | KTables a b w => match t a b true with Some e => Some e | None => if w then v a b else None end
      | KViews a b => v a b
      | KFks a b => first_failure (l_fks r a b)
      end
  end.
(** Listings do not panic (see C100). *)
Definition no_panic {A} (x : outcome A) : Prop := x <> RPanic.
Definition steady (r : lister) : Prop := (forall a b d, no_panic (l_tables r a b d)) /\ (forall a b, no_panic (l_views r a b)) /\ (forall a b, no_panic (l_fks r a b)).
