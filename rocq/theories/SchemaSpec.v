(** Vocabulary of the theorems on schema discovery. *)
From Verif Require Import GoBase TypeModel ParamModel SchemaModel.
From Coq Require Import Relations Permutation Sorted.
Open Scope Z_scope.

(** A query that delivers these rows without any failure. *)
Definition delivers {R} (q : rowsrc R + Z) (l : list R) : Prop := q = inl (mkSrc (map SRow l) None).
Definition no_dot (s : bytes) : Prop := ~ In (ch 46) s.

(** A catalog described by its rows: tables [tabs], columns [cols s t] and
    indexes [idxs s t] of a table, foreign keys [fks].  All queries succeed, no
    table or column is listed twice, indexes and foreign keys are over listed
    columns, schema and table names have no dots. *)
Record described (cat : catalog) (tabs : list tabrow) (cols : bytes -> bytes -> list colrow) (idxs : bytes -> bytes -> list idxrow) (fks : list fkey) : Prop := {
  d_tabs : delivers (cat_tables cat) tabs;
  d_cols : forall s t, delivers (cat_columns cat s t) (cols s t);
  d_idxs : forall s t, delivers (cat_indexes cat s t) (idxs s t);
  d_fks : delivers (cat_fks cat) fks;
  d_tabs_once : NoDup (map (fun r => (tr_schema r, tr_name r)) tabs);
  d_cols_once : forall s t, NoDup (map cr_name (cols s t));
  d_idx_cols : forall s t i n, In i (idxs s t) -> In n (split_on (ch 44) (ir_cols i)) -> In n (map cr_name (cols s t));
  d_fk_cols : forall k, In k fks -> In (k_column k) (map cr_name (cols (k_schema k) (k_table k)));
  d_tab_names : forall r, In r tabs -> no_dot (tr_schema r) /\ no_dot (tr_name r);
  d_fk_names : forall k, In k fks -> no_dot (k_schema k) /\ no_dot (k_table k) /\ no_dot (k_rschema k) /\ no_dot (k_rtable k) }.
Definition one_fk_per_column (fks : list fkey) : Prop := NoDup (map (fun k => (k_schema k, k_table k, k_column k)) fks).

(** Tables are related by foreign keys; reachable: in any number of steps. *)
Definition refers (fks : list fkey) (a b : bytes * bytes) : Prop :=
  exists k, In k fks /\ a = (k_schema k, k_table k) /\ b = (k_rschema k, k_rtable k).
Definition reachable (fks : list fkey) : bytes * bytes -> bytes * bytes -> Prop := clos_refl_trans_1n _ (refers fks).

(** The columns of a table as a caller sees them after following the pointers. *)
Definition seen_columns (st : prov) (t : table) : list (option column) := map (nth_error (p_heap st)) (t_cols t).
Record seen := mkSeen { v_schema : bytes; v_name : bytes; v_type : bytes; v_view : bool; v_fqn : bytes; v_columns : list (option column); v_indexes : list index; v_pk : option (option column) }.
Definition see (st : prov) (t : table) : seen :=
  mkSeen (t_schema t) (t_name t) (t_type t) (t_view t) (t_fqn t) (seen_columns st t) (t_idx t)
         (match t_pk t with None => None | Some id => Some (nth_error (p_heap st) id) end).

(** What a table should look like: columns in ordinal order, each with the
    indexes it is part of; the primary key is the column of the (last)
    single-column primary index. *)
Definition column_of (s t : bytes) (ii : list index) (r : colrow) : column :=
  let c := make_column s t r in
  mkCol (c_name c) (c_type c) (c_udt c) (c_null c) (c_max c) (c_pos c) (c_fqn c) None
        (flat_map (fun ix => map (fun _ => ix) (filter (beqb (cr_name r)) (ix_cols ix))) ii).
Definition pk_of (ii : list index) : option bytes :=
  fold_left (fun pk ix => match ix_cols ix with [n] => if ix_primary ix then Some n else pk | _ => pk end) ii None.
Definition col_by_pos (a b : column) : bool := c_pos a <? c_pos b.
Definition expected (cols : bytes -> bytes -> list colrow) (idxs : bytes -> bytes -> list idxrow) (r : tabrow) : seen :=
  let s := tr_schema r in let t := tr_name r in
  let ii := map make_index (idxs s t) in
  let cs := sort_by col_by_pos (map (column_of s t ii) (cols s t)) in
  mkSeen s t (tr_type r) false (fqn2 s t) (map Some cs) ii
         (match pk_of ii with None => None | Some n => Some (find (fun c => beqb (c_name c) n) cs) end).
Definition seen_by_name (a b : seen) : bool := bltb (v_fqn a) (v_fqn b).

(** A table that was not asked for but is referred to: no type, no indexes. *)
Definition dependency (cols : bytes -> bytes -> list colrow) (a : bytes * bytes) : seen :=
  let '(s, t) := a in mkSeen s t [] false (fqn2 s t) (map Some (sort_by col_by_pos (map (column_of s t []) (cols s t)))) [] None.
(** Columns point to their foreign key. *)
Definition fk_of (fks : list fkey) (c : column) : option fkey :=
  find (fun k => beqb (fqn3 (k_schema k) (k_table k) (k_column k)) (c_fqn c)) fks.
Definition referring (fks : list fkey) (c : column) : column :=
  mkCol (c_name c) (c_type c) (c_udt c) (c_null c) (c_max c) (c_pos c) (c_fqn c) (fk_of fks c) (c_idx c).
Definition with_refs (fks : list fkey) (v : seen) : seen :=
  mkSeen (v_schema v) (v_name v) (v_type v) (v_view v) (v_fqn v) (map (option_map (referring fks)) (v_columns v)) (v_indexes v) (option_map (option_map (referring fks)) (v_pk v)).

(** A view: its columns are the catalog rows of that view. *)
Definition is_view_row (a : bytes * bytes) (r : viewrow) : bool := beqb (vr_schema r) (fst a) && beqb (vr_table r) (snd a).
Definition view_of (rows : list viewrow) (a : bytes * bytes) : seen :=
  mkSeen (fst a) (snd a) [] true (fqn2 (fst a) (snd a))
    (map Some (sort_by col_by_pos (map (fun r => make_column (fst a) (snd a) (vr_col r)) (filter (is_view_row a) rows)))) [] None.

(** The items of a comma-separated list: one space after a comma is dropped. *)
Definition items (s : bytes) : list bytes :=
  match split_on (ch 44) s with
  | [] => []
  | x :: r => x :: map (fun y => match y with c :: z => if ascii_dec c (ch 32) then z else y | [] => [] end) r
  end.
(** A quoted SQL string starting at [s] (after the opening quote): its value
    and what follows; two quotes stand for one. *)
Fixpoint sql_string (s : bytes) : option (bytes * bytes) :=
  match s with
  | [] => None
  | c :: r => if ascii_dec c (ch 39)
              then match r with
                   | d :: r' => if ascii_dec d (ch 39) then match sql_string r' with Some (v, z) => Some (ch 39 :: v, z) | None => None end else Some ([], r)
                   | [] => Some ([], [])
                   end
              else match sql_string r with Some (v, z) => Some (c :: v, z) | None => None end
  end.

(** What a row of the catalog says of a column and of an index, field by field. *)
Definition says_nullable (s : bytes) : Prop := In (map lower_ascii s) [B "yes"; B "true"; B "null"].
Definition col_says (q : colrow) (c : column) : Prop :=
  c_name c = cr_name q /\ c_type c = cr_type q /\ c_udt c = cr_udt q /\ (c_null c = true <-> says_nullable (cr_null q)) /\
  (0 <= cr_pos q < 2 ^ 32 -> c_pos c = cr_pos q) /\ (cr_max q = None -> c_max c = 0) /\ (forall n, cr_max q = Some n -> 0 <= n < 2 ^ 32 -> c_max c = n).
Definition idx_says (q : idxrow) (ix : index) : Prop :=
  ix_name ix = ir_name q /\ ix_primary ix = ir_primary q /\ ix_unique ix = ir_unique q /\ join (B ",") (ix_cols ix) = ir_cols q /\ Forall (fun n => ~ In (ch 44) n) (ix_cols ix).

(** A struct tag: the value under the key db, and its items. *)
Definition db_value (t v : bytes) : Prop := exists rest, t = B "db:""" ++ v ++ ch 34 :: rest /\ ~ In (ch 34) v /\ ~ In (ch 92) v.
(** A name that can stand in a tag *)
Definition taggable (s : bytes) : Prop := forall c, In c s -> ~ In c [ch 34; ch 92; ch 44].
