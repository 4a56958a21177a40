(** The repository's own database tests replayed on the model: the databases of
    /repo/testdata/sql/{postgres,sqlserver}/migrations/1_tables.up.sql written as
    database values, the catalog queries evaluated on them and the listings of
    /repo/schema/schema_test.go (TestListPostgres, TestListSQLServer) compared with
    the expectations there.  They test the model, they are not properties. *)
From Verif Require Import GoBase TypeModel ParamModel SchemaModel SchemaSpec CatalogModel CatalogSpec CatalogProps.
Open Scope Z_scope.

Definition c (n t u : string) (null : bool) (max : option Z) : acol := mkAC (B n) (B t) (B u) null max.
Definition ix (n : string) (p u : bool) (cols : list string) : aindex := mkAI (B n) p u (map (fun x => Some (B x)) cols) [].
Definition fk (s n col rt : string) : afk := mkAF (B n) [B col] (B s) (B rt) [B "id"].
(** created by the migrations of testdata/sql/postgres *)
Definition vc (n : string) (w : Z) := c n "character varying" "varchar" false (Some w).
Definition pg_view : atable := mkAT (B "public") (B "vwmembership") TView
  [c "org_id" "bigint" "int8" true None; c "org_name" "character varying" "varchar" true (Some 64); c "role" "character varying" "varchar" true (Some 64);
   c "user_email" "character varying" "varchar" true (Some 160); c "user_name" "character varying" "varchar" true (Some 64); c "user_id" "bigint" "int8" true None] [] [] [] [] [] false.
Definition pg_migrations : atable := mkAT (B "public") (B "schema_migrations") TTable [c "version" "bigint" "int8" false None; c "dirty" "boolean" "bool" false None]
  [ix "schema_migrations_pkey" true true ["version"%string]] [] [(B "schema_migrations_pkey", [B "version"])] [] [] false.
Definition pg_db : database := [
  mkAT (B "public") (B "user") TTable
    [c "id" "bigint" "int8" false None; vc "email" 160; c "email_verified" "boolean" "bool" false None; vc "name" 64; c "uuid" "uuid" "uuid" true None]
    [ix "users_pkey" true true ["id"%string]; ix "unique_users_email" false true ["email"%string]] []
    [(B "users_pkey", [B "id"]); (B "unique_users_email", [B "email"])] [] [] false;
  mkAT (B "public") (B "org") TTable
    [c "id" "bigint" "int8" false None; vc "name" 64; vc "email" 160; vc "billing_email" 160; vc "company" 64; vc "street_address" 256; vc "city" 32; vc "postal_code" 16; vc "region" 16; vc "country" 16; vc "phone" 32;
     c "created_at" "timestamp with time zone" "timestamptz" true None; c "updated_at" "timestamp with time zone" "timestamptz" true None; c "quota" "jsonb" "jsonb" true None; c "settings" "jsonb" "jsonb" true None]
    [ix "orgs_pkey" true true ["id"%string]; ix "unique_orgs_name" false true ["name"%string]; ix "idx_org_email" false false ["email"%string]; ix "idx_org_phone" false false ["phone"%string]; ix "idx_org_updated_at" false false ["updated_at"%string]] []
    [(B "orgs_pkey", [B "id"]); (B "unique_orgs_name", [B "name"])] [] [] false;
  mkAT (B "public") (B "orgmember") TTable
    [c "id" "bigint" "int8" false None; c "org_id" "bigint" "int8" false None; c "user_id" "bigint" "int8" false None; vc "role" 64]
    [ix "orgmember_pkey" true true ["id"%string]; ix "membership" false true ["org_id"%string; "user_id"%string]; ix "idx_orgmember_org_id" false false ["org_id"%string]; ix "idx_orgmember_user_id" false false ["user_id"%string]]
    [fk "public" "orgmember_org_id_fkey" "org_id" "org"; fk "public" "orgmember_user_id_fkey" "user_id" "user"]
    [(B "orgmember_pkey", [B "id"]); (B "membership", [B "org_id"; B "user_id"])] [] [] false;
  pg_view; pg_migrations].
(** created by the migrations of testdata/sql/sqlserver *)
Definition nv (n : string) (w : Z) := c n "nvarchar" "nvarchar" false (Some w).
Definition ms_view : atable := mkAT (B "dbo") (B "vwMembership") TView
  [c "org_id" "bigint" "bigint" false None; nv "org_name" 64; nv "role" 64; nv "user_email" 160; nv "user_name" 64; c "user_id" "bigint" "bigint" false None] [] [] [] [] [] false.
Definition ms_db : database := [
  mkAT (B "dbo") (B "user") TTable
    [c "id" "bigint" "bigint" false None; nv "email" 160; c "email_verified" "bit" "bit" false None; nv "name" 64; c "uuid" "uniqueidentifier" "uniqueidentifier" true None]
    [ix "PK_users" true true ["id"%string]; ix "idx_users_email" false true ["email"%string]] [] [(B "PK_users", [B "id"])] [] [] false;
  mkAT (B "dbo") (B "org") TTable
    [c "id" "bigint" "bigint" false None; nv "name" 64; nv "email" 160; nv "billing_email" 160; nv "company" 64; nv "street_address" 256; nv "city" 32; nv "postal_code" 16; nv "region" 16; nv "country" 16; nv "phone" 32;
     c "created_at" "datetime2" "datetime2" true None; c "updated_at" "datetime2" "datetime2" true None; c "quota" "nvarchar" "nvarchar" true (Some (-1)); c "settings" "nvarchar" "nvarchar" true (Some (-1))]
    [ix "PK_orgs" true true ["id"%string]; ix "idx_org_name" false true ["name"%string]; ix "idx_org_email" false false ["email"%string]; ix "idx_org_phone" false false ["phone"%string]; ix "idx_org_updated_at" false false ["updated_at"%string]] []
    [(B "PK_orgs", [B "id"])] [] [] false;
  mkAT (B "dbo") (B "orgmember") TTable
    [c "id" "bigint" "bigint" false None; c "org_id" "bigint" "bigint" false None; c "user_id" "bigint" "bigint" false None; nv "role" 64]
    [ix "PK_orgmember" true true ["id"%string]; ix "UQ_orgmember_org_user" false true ["org_id"%string; "user_id"%string]; ix "idx_orgmember_org_id" false false ["org_id"%string]; ix "idx_orgmember_user_id" false false ["user_id"%string]]
    [fk "dbo" "FK__orgmember__org_i__1" "org_id" "org"; fk "dbo" "FK__orgmember__user___2" "user_id" "user"; fk "dbo" "FK_orgmember_org_id" "org_id" "org"; fk "dbo" "FK_orgmember_user_id" "user_id" "user"]
    [(B "PK_orgmember", [B "id"]); (B "UQ_orgmember_org_user", [B "org_id"; B "user_id"])] [] [] false;
  ms_view].

(** ** The tests *)
Definition fq (s : string) (l : list string) : list bytes := map (fun t => B s ++ B "." ++ B t) l.
(** The test calls one provider: its state goes from call to call.  ListTables with
    dependencies; the maps are ranged over in the order given. *)
Definition all_cols (db : database) : list bytes := flat_map (fun t => map (fun x => fqn3 (at_schema t) (at_name t) (a_name x)) (at_cols t)) db.
Definition all_tabs (db : database) : list bytes := map (fun t => fqn2 (at_schema t) (at_name t)) db.
Definition tables_call (cat : catalog) (db : database) (s t : string) (st : prov) : prov * outcome (list table) :=
  match list_tables_deps 100 cat st [B s] [B t] (all_cols db) (all_tabs db) with Some x => x | None => (st, RPanic) end.
Definition names (x : prov * outcome (list table)) : list bytes := match snd x with ROk l => map t_fqn l | _ => [B "failed"] end.
Definition the_org (x : prov * outcome (list table)) : option (nat * nat * bytes) :=
  match x with
  | (st, ROk l) => option_map (fun t => (length (t_cols t), length (t_idx t), pk_name (p_heap st) t)) (find (fun t => beqb (t_name t) (B "org")) l)
  | _ => None end.
Definition fk_count (x : prov * outcome (list fkey)) : nat := match snd x with ROk l => length l | _ => 0%nat end.
(** The calls of the tests: what they look at *)
Definition test_list (cat : catalog) (db : database) (s : string) : list bytes * nat * list bytes * list bytes * option (nat * nat * bytes) * list bytes :=
  let r1 := tables_call cat db s "Fake" new_prov in
  let r2 := list_fks cat (fst r1) [B s] [B "orgmember"] in
  let r3 := tables_call cat db s "org" (fst r2) in
  let r4 := tables_call cat db s "orgmember" (fst r3) in
  let r5 := list_views cat (fst r4) [B s] [] (all_tabs db) in
  (names r1, fk_count r2, names r3, names r4, the_org r4, names r5).

Example pg_db_ok : check_db pg_db = true. Proof. vm_compute. reflexivity. Qed.
Example ms_db_ok : check_db ms_db = true. Proof. vm_compute. reflexivity. Qed.
Example TestListPostgres : test_list (pg_server pg_db) pg_db "public" =
  ([], 2%nat, [B "public.org"], fq "public" ["org"; "orgmember"; "user"]%string, Some (15%nat, 5%nat, B "id"), [B "public.vwmembership"]).
Proof. vm_compute. reflexivity. Qed.
Example TestListSQLServer : test_list (ms_server ms_db) ms_db "dbo" =
  ([], 4%nat, [B "dbo.org"], fq "dbo" ["org"; "orgmember"; "user"]%string, Some (15%nat, 5%nat, B "id"), [B "dbo.vwMembership"]).
Proof. vm_compute. reflexivity. Qed.
(** A new provider asked for orgmember alone shows org without indexes and without a
    primary key (C101): the test passes because org was listed before. *)
Example TestListPostgres_fresh : the_org (tables_call (pg_server pg_db) pg_db "public" "orgmember" new_prov) = Some (15%nat, 0%nat, []).
Proof. vm_compute. reflexivity. Qed.
