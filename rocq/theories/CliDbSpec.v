(** Vocabulary of the theorems on what the command line tool prints of a database. *)
From Verif Require Import GoBase TypeModel ParamModel SchemaModel SchemaSpec CatalogModel CatalogSpec JsonModel JsonSpec CliModel CliSpec.
From Coq Require Import Permutation.
Open Scope Z_scope.

(** A printed column says what column number [fst e] of a table is. *)
Definition prints_column (udt : acol -> bytes) (e : nat * acol) (k : pcolumn) : Prop :=
  pc_name k = a_name (snd e) /\ pc_type k = a_type (snd e) /\ pc_udt k = udt (snd e) /\ pc_null k = a_null (snd e) /\
  pc_max k = match a_max (snd e) with None => 0 | Some n => n mod 2 ^ 32 end /\ pc_pos k = Z.of_nat (S (fst e)).
Definition prints_index (t : atable) (a : aindex) (i : pindex) : Prop :=
  pi_name i = ai_name a /\ pi_primary i = ai_primary a /\ pi_unique i = ai_unique a /\ Permutation (elems (pi_cols i)) (index_columns t a).
(** A printed table says what the table [t] of the database is: its names, its
    columns in order, the indexes [idx], a primary key of one column. *)
Record prints (ty : bytes) (udt : acol -> bytes) (idx : list aindex) (t : atable) (p : ptable) : Prop := {
  pr_names : pt_schema p = at_schema t /\ pt_name p = at_name t /\ pt_type p = ty /\ pt_view p = false;
  pr_cols : Forall2 (prints_column udt) (enum (at_cols t)) (elems (pt_cols p));
  pr_idx : exists l, Permutation l idx /\ Forall2 (prints_index t) l (elems (pt_idx p));
  pr_pk : match pt_pk p with
          | Some k => In k (elems (pt_cols p)) /\ exists a, In a idx /\ ai_primary a = true /\ index_columns t a = [pc_name k]
          | None => forall a, In a idx -> ai_primary a = true -> length (index_columns t a) <> 1%nat
          end }.
(** A printed view. *)
Record prints_view (udt : acol -> bytes) (t : atable) (p : ptable) : Prop := {
  pv_names : pt_schema p = at_schema t /\ pt_name p = at_name t /\ pt_view p = true;
  pv_cols : Forall2 (prints_column udt) (enum (at_cols t)) (elems (pt_cols p)) }.

(** All names of the database are UTF-8. *)
Definition db_utf8 (db : database) : Prop :=
  forall t, In t db -> utf8_text (at_schema t) /\ utf8_text (at_name t) /\
    Forall (fun c => utf8_text (a_name c) /\ utf8_text (a_type c) /\ utf8_text (a_udt c)) (at_cols t) /\
    Forall (fun a => utf8_text (ai_name a)) (at_idx t).

(** A printed column, index and table are those of the listing, field by field;
    the foreign key and the indexes of a column included. *)
Definition index_as (i : index) (p : pindex) : Prop := pi_name p = ix_name i /\ pi_primary p = ix_primary i /\ pi_unique p = ix_unique i /\ elems (pi_cols p) = ix_cols i.
Definition column_as (c : column) (p : pcolumn) : Prop :=
  pc_name p = c_name c /\ pc_type p = c_type c /\ pc_udt p = c_udt c /\ pc_null p = c_null c /\ pc_max p = c_max c /\ pc_pos p = c_pos c /\ pc_ref p = c_ref c /\
  Forall2 index_as (c_idx c) (pc_idx p).
Record printed_as (v : seen) (p : ptable) : Prop := {
  pa_names : pt_schema p = v_schema v /\ pt_name p = v_name v /\ pt_type p = v_type v /\ pt_view p = v_view v;
  pa_cols : Forall2 (fun oc k => exists c, oc = Some c /\ column_as c k) (v_columns v) (elems (pt_cols p));
  pa_idx : Forall2 index_as (v_indexes v) (elems (pt_idx p));
  pa_pk : match v_pk v, pt_pk p with Some (Some c), Some k => column_as c k | None, None => True | _, _ => False end }.
