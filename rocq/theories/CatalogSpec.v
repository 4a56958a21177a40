(** Vocabulary of the theorems on catalog queries: what a database says. *)
From Verif Require Import GoBase TypeModel ParamModel SchemaModel SchemaSpec CatalogModel.
From Coq Require Import Permutation.
Open Scope Z_scope.

Definition table_key (t : atable) : bytes * bytes := (at_schema t, at_name t).
Definition col_names (t : atable) : list bytes := map a_name (at_cols t).
Definition used_columns (x : aindex) : list bytes := flat_map (fun k => match k with Some n => [n] | None => [] end) (ai_keys x) ++ ai_incl x.
(** A database the servers would accept. *)
Record db_ok (db : database) : Prop := {
  ok_tables : NoDup (map table_key db);
  ok_cols : forall t, In t db -> NoDup (col_names t);
  ok_width : forall t, In t db -> Z.of_nat (length (at_cols t)) < 2 ^ 32;
  ok_idx_names : forall t, In t db -> NoDup (map ai_name (at_idx t));
  ok_idx : forall t x n, In t db -> In x (at_idx t) -> In n (used_columns x) -> In n (col_names t);
  ok_pk : forall t x y, In t db -> In x (at_idx t) -> In y (at_idx t) -> ai_primary x = true -> ai_primary y = true -> x = y;
  ok_fk : forall t f, In t db -> In f (at_fks t) -> length (af_cols f) = length (af_rcols f) /\ af_cols f <> [] /\ NoDup (af_cols f) /\ NoDup (af_rcols f) /\
            (forall c, In c (af_cols f) -> In c (col_names t)) /\
            exists u, In u db /\ table_key u = (af_rschema f, af_rtable f) /\ forall c, In c (af_rcols f) -> In c (col_names u) }.
(** Names the Go code can tell apart: no dots (they join qualified names), quotes (they
    end a literal) or commas (they join columns). *)
Record plain_names (db : database) : Prop := {
  pn_tables : forall t, In t db -> no_dot (at_schema t) /\ no_dot (at_name t) /\ unquoted (at_schema t) /\ unquoted (at_name t);
  pn_cols : forall t n, In t db -> In n (col_names t) -> ~ In (ch 44) n }.
(** No two indexes (constraints) of the database have the same name. *)
Definition index_names_once (db : database) : Prop := NoDup (flat_map (fun t => map ai_name (at_idx t)) db).
Definition constraint_names_once (db : database) : Prop := NoDup (flat_map (fun t => map fst (at_keys t) ++ map fst (at_checks t) ++ map af_name (at_fks t)) db).

(** The tables a user made. *)
Definition is_user (t : atable) : Prop := at_schema t <> B "pg_catalog" /\ at_schema t <> B "information_schema".
Definition pg_table_type (t : atable) : option bytes :=
  match at_kind t with TTable | TPartitioned => Some (B "BASE TABLE") | TForeign => Some (B "FOREIGN") | _ => None end.
(** An index by its columns, in the order of the table. *)
Definition index_columns (t : atable) (x : aindex) : list bytes := filter (fun n => memb n (used_columns x)) (col_names t).
(** The pairs of columns of the foreign keys. *)
Definition fk_pairs (db : database) : list fkey :=
  flat_map (fun t => flat_map (fun f => map (fun '(c, rc) => mkFK (af_name f) (at_schema t) (at_name t) c (af_rschema f) (af_rtable f) rc) (combine (af_cols f) (af_rcols f))) (at_fks t)) db.
(** A listed table [x] shows the table [t]: its names, the columns in order, the indexes
    [idx], a primary key of one column. *)
Record shows (ty : bytes) (udt : acol -> bytes) (idx : list aindex) (st : prov) (t : atable) (x : table) : Prop := {
  sh_names : t_schema x = at_schema t /\ t_name x = at_name t /\ t_type x = ty /\ t_view x = false /\ t_fqn x = fqn2 (at_schema t) (at_name t);
  sh_cols : Forall2 (fun e oc => exists k, oc = Some k /\ c_name k = a_name (snd e) /\ c_type k = a_type (snd e) /\ c_udt k = udt (snd e) /\ c_null k = a_null (snd e) /\
              c_max k = match a_max (snd e) with None => 0 | Some n => n mod 2 ^ 32 end /\ c_pos k = Z.of_nat (S (fst e))) (enum (at_cols t)) (seen_columns st x);
  sh_idx : exists l, Permutation l idx /\ Forall2 (fun a i => ix_name i = ai_name a /\ ix_primary i = ai_primary a /\ ix_unique i = ai_unique a /\ Permutation (ix_cols i) (index_columns t a)) l (t_idx x);
  sh_pk : match t_pk x with
          | Some id => exists k a, nth_error (p_heap st) id = Some k /\ In (Some k) (seen_columns st x) /\ In a idx /\ ai_primary a = true /\ index_columns t a = [c_name k]
          | None => forall a, In a idx -> ai_primary a = true -> length (index_columns t a) <> 1%nat
          end }.
(** The indexes the Postgres query can see: those of ordinary tables with at least one
    column that is not an expression. *)
Definition pg_shown (t : atable) : list aindex :=
  match at_kind t with TTable => filter (fun x => match index_columns t x with [] => false | _ => true end) (at_idx t) | _ => [] end.
(** SQL Server: indexes have columns; foreign keys are between tables; views have no shipped ones *)
Record ms_ok (db : database) : Prop := {
  mo_db : db_ok db;
  mo_idx : forall t x, In t db -> In x (at_idx t) -> index_columns t x <> [];
  mo_fk : forall t f u, In t db -> In f (at_fks t) -> In u db -> table_key u = (af_rschema f, af_rtable f) -> at_kind t <> TView /\ at_kind u <> TView }.
(** Text that XML leaves alone *)
Definition no_markup (s : bytes) : Prop := ~ In (ch 38) s /\ ~ In (ch 60) s /\ ~ In (ch 62) s.
(** A listed view [x] shows the view [t]. *)
Record shows_view (udt : acol -> bytes) (st : prov) (t : atable) (x : table) : Prop := {
  sv_names : t_schema x = at_schema t /\ t_name x = at_name t /\ t_view x = true /\ t_type x = [] /\ t_idx x = [] /\ t_pk x = None /\ t_fqn x = fqn2 (at_schema t) (at_name t);
  sv_cols : Forall2 (fun e oc => exists k, oc = Some k /\ c_name k = a_name (snd e) /\ c_type k = a_type (snd e) /\ c_udt k = udt (snd e) /\ c_null k = a_null (snd e) /\
              c_max k = match a_max (snd e) with None => 0 | Some n => n mod 2 ^ 32 end /\ c_pos k = Z.of_nat (S (fst e))) (enum (at_cols t)) (seen_columns st x) }.
