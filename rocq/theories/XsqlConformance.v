(** The repository's own tests of package xsql replayed on the model: the
    expectations below are copied from /repo/xsql/*_test.go.  They test the
    model, they are not properties. *)
From Verif Require Import GoBase XsqlModel.
Open Scope Z_scope.
(** dialect.go:91-97 *)
Definition NoDialect : dialect := mkDialect (B "default") [] true.
Definition Postgres : dialect := mkDialect (B "postgres") [] true.
Definition Plain : dialect := mkDialect (B "default") [] false.
Definition PlainPg : dialect := mkDialect (B "postgres") [] false.
(** stmt.go:842-846: a sub query is rendered in NoDialect. *)
Definition sub (d : dialect) (k : ctor) (cs : list bcall) : bytes * list goany :=
  match (do q <- build new_stmt 2 d k cs; shown NoDialect q) with Some (t, a, _) => (t, a) | None => ([], []) end.

(** xsql/stmt_test.go *)
Example TestNewBuilder : observe new_stmt 1 NoDialect (KNew (B "SELECT *") []) [CFrom (B "table") []] =
  Some (B "SELECT * 
FROM table", [], []).
Proof. vm_compute. reflexivity. Qed.
Example TestBasicSelect : observe new_stmt 1 NoDialect (KFrom (B "table") []) [CSelect (B "id") []; CWhere (B "id > ?") [AInt (42)]; CWhere (B "id < ?") [AInt (1000)]] =
  Some (B "SELECT id 
FROM table 
WHERE id > ? AND id < ?", [AInt (42); AInt (1000)], []).
Proof. vm_compute. reflexivity. Qed.
Example TestSelectWith : observe new_stmt 1 Postgres (KFrom (B "table") []) [CSelect (B "id, ?") [AStr (B "NULL")]; CWhere (B "id > ?") [AInt (42)]; CWhere (B "id < ?") [AInt (1000)]] =
  Some (B "SELECT id, $1 
FROM table 
WHERE id > $2 AND id < $3", [AStr (B "NULL"); AInt (42); AInt (1000)], []).
Proof. vm_compute. reflexivity. Qed.
Example TestMixedOrder : observe new_stmt 1 NoDialect (KSelect (B "id") []) [CWhere (B "id > ?") [AInt (42)]; CFrom (B "table") []; CWhere (B "id < ?") [AInt (1000)]] =
  Some (B "SELECT id 
FROM table 
WHERE id > ? AND id < ?", [AInt (42); AInt (1000)], []).
Proof. vm_compute. reflexivity. Qed.
Example TestClause : observe new_stmt 1 NoDialect (KSelect (B "id") []) [CFrom (B "table") []; CWhere (B "id > ?") [AInt (42)]; CClause (B "FETCH NEXT") []; CClause (B "FOR UPDATE") []] =
  Some (B "SELECT id 
FROM table 
WHERE id > ? 
FETCH NEXT 
FOR UPDATE", [AInt (42)], []).
Proof. vm_compute. reflexivity. Qed.
Example TestExpr : observe new_stmt 1 NoDialect (KFrom (B "table") []) [CSelect (B "id") []; CExpr (B "(select 1 from related where table_id = table.id limit 1) AS has_related") []; CWhere (B "id > ?") [AInt (42)]] =
  Some (B "SELECT id, (select 1 from related where table_id = table.id limit 1) AS has_related 
FROM table 
WHERE id > ?", [AInt (42)], []).
Proof. vm_compute. reflexivity. Qed.
Example TestExprPg : observe new_stmt 1 Postgres (KFrom (B "table") []) [CSelect (B "id") []; CExpr (B "(select 1 from related where table_id = table.id limit 1) AS has_related") []; CWhere (B "id > ?") [AInt (42)]] =
  Some (B "SELECT id, (select 1 from related where table_id = table.id limit 1) AS has_related 
FROM table 
WHERE id > $1", [AInt (42)], []).
Proof. vm_compute. reflexivity. Qed.
Example TestManyFields : observe new_stmt 1 NoDialect (KSelect (B "id") []) [CFrom (B "table") []; CWhere (B "id = ?") [AInt (42)]; CSelect (B "(id + ?) as id_1") [AInt (10)]; CSelect (B "(id + ?) as id_2") [AInt (20)]; CSelect (B "(id + ?) as id_3") [AInt (30)]; CSelect (B "uno") []; CSelect (B "dos") []; CSelect (B "tres") []] =
  Some (B "SELECT id, (id + ?) as id_1, (id + ?) as id_2, (id + ?) as id_3, uno, dos, tres 
FROM table 
WHERE id = ?", [AInt (10); AInt (20); AInt (30); AInt (42)], []).
Proof. vm_compute. reflexivity. Qed.
Example TestEvenMoreFields : observe new_stmt 1 NoDialect (KSelect (B "id") []) [CFrom (B "table") []; CSelect (B "field_1") []; CSelect (B "field_2") []; CSelect (B "field_3") []; CSelect (B "field_4") []; CSelect (B "field_5") []; CSelect (B "field_6") []; CSelect (B "field_7") []; CSelect (B "field_8") []; CSelect (B "field_9") []; CSelect (B "field_10") []; CSelect (B "field_11") []; CSelect (B "field_12") []; CSelect (B "field_13") []; CSelect (B "field_14") []; CSelect (B "field_15") []; CSelect (B "field_16") []; CSelect (B "field_17") []; CSelect (B "field_18") []; CSelect (B "field_19") []; CSelect (B "field_20") []; CSelect (B "field_21") []; CSelect (B "field_22") []; CSelect (B "field_23") []; CSelect (B "field_24") []; CSelect (B "field_25") []; CSelect (B "field_26") []; CSelect (B "field_27") []; CSelect (B "field_28") []; CSelect (B "field_29") []; CSelect (B "field_30") []; CSelect (B "field_31") []; CSelect (B "field_32") []; CSelect (B "field_33") []; CSelect (B "field_34") []; CSelect (B "field_35") []; CSelect (B "field_36") []; CSelect (B "field_37") []; CSelect (B "field_38") []; CSelect (B "field_39") []; CSelect (B "field_40") []; CSelect (B "field_41") []; CSelect (B "field_42") []; CSelect (B "field_43") []; CSelect (B "field_44") []; CSelect (B "field_45") []; CSelect (B "field_46") []; CSelect (B "field_47") []; CSelect (B "field_48") []; CSelect (B "field_49") []; CSelect (B "field_50") []] =
  Some (B "SELECT id, field_1, field_2, field_3, field_4, field_5, field_6, field_7, field_8, field_9, field_10, field_11, field_12, field_13, field_14, field_15, field_16, field_17, field_18, field_19, field_20, field_21, field_22, field_23, field_24, field_25, field_26, field_27, field_28, field_29, field_30, field_31, field_32, field_33, field_34, field_35, field_36, field_37, field_38, field_39, field_40, field_41, field_42, field_43, field_44, field_45, field_46, field_47, field_48, field_49, field_50 
FROM table", [], []).
Proof. vm_compute. reflexivity. Qed.
Example TestPgPlaceholders : observe new_stmt 1 Postgres (KFrom (B "series") []) [CSelect (B "id") []; CWhere (B "time > ?") [AOpaque 1]; CWhere (B "(time < ?)") [AOpaque 2]] =
  Some (B "SELECT id 
FROM series 
WHERE time > $1 AND (time < $2)", [AOpaque 1; AOpaque 2], []).
Proof. vm_compute. reflexivity. Qed.
Example TestPgPlaceholderEscape : observe new_stmt 1 Postgres (KFrom (B "series") []) [CSelect (B "id") []; CWhere (B "time \?> ? + 1") [AOpaque 1]; CWhere (B "time < ?") [AOpaque 2]] =
  Some (B "SELECT id 
FROM series 
WHERE time ?> $1 + 1 AND time < $2", [AOpaque 1; AOpaque 2], []).
Proof. vm_compute. reflexivity. Qed.
Example TestTo : observe new_stmt 1 NoDialect (KFrom (B "table") []) [CSelect (B "field1") []; CTo [1]; CSelect (B "field2") []; CTo [2]] =
  Some (B "SELECT field1, field2 
FROM table", [], [1; 2]).
Proof. vm_compute. reflexivity. Qed.
Example TestManyClauses : observe new_stmt 1 NoDialect (KFrom (B "table") []) [CSelect (B "field") []; CWhere (B "id > ?") [AInt (2)]; CClause (B "UNO") []; CClause (B "DOS") []; CClause (B "TRES") []; CClause (B "QUATRO") []; COffset (AInt (10)); CLimit (AInt (5)); CClause (B "NO LOCK") []] =
  Some (B "SELECT field 
FROM table 
WHERE id > ? 
UNO 
DOS 
TRES 
QUATRO 
LIMIT ? 
OFFSET ? 
NO LOCK", [AInt (2); AInt (5); AInt (10)], []).
Proof. vm_compute. reflexivity. Qed.
Example TestWith : observe new_stmt 1 NoDialect (KWith (B "t") (fst (sub NoDialect (KFrom (B "orders") []) [CSelect (B "id, quantity") []; CWhere (B "ts < ?") [AOpaque 1]])) (snd (sub NoDialect (KFrom (B "orders") []) [CSelect (B "id, quantity") []; CWhere (B "ts < ?") [AOpaque 1]]))) [CFrom (B "t") []; CBind [BLeaf (B "id") 1; BLeaf (B "quantity") 2]] =
  Some (B "WITH t AS (SELECT id, quantity 
FROM orders 
WHERE ts < ?) 
SELECT id, quantity 
FROM t", [AOpaque 1], [1; 2]).
Proof. vm_compute. reflexivity. Qed.
Example TestWithRecursive : observe new_stmt 1 NoDialect (KFrom (B "orders") []) [CWith (B "RECURSIVE regional_sales") (fst (sub NoDialect (KFrom (B "orders") []) [CSelect (B "region, SUM(amount) AS total_sales") []; CGroupBy (B "region")])) (snd (sub NoDialect (KFrom (B "orders") []) [CSelect (B "region, SUM(amount) AS total_sales") []; CGroupBy (B "region")])); CWith (B "top_regions") (fst (sub NoDialect (KFrom (B "regional_sales") []) [CSelect (B "region") []; COrderBy [(B "total_sales DESC")]; CLimit (AInt (5))])) (snd (sub NoDialect (KFrom (B "regional_sales") []) [CSelect (B "region") []; COrderBy [(B "total_sales DESC")]; CLimit (AInt (5))])); CSelect (B "region") []; CSelect (B "product") []; CSelect (B "SUM(quantity) AS product_units") []; CSelect (B "SUM(amount) AS product_sales") []; CWhere (B "region IN (SELECT region FROM top_regions)") []; CGroupBy (B "region, product")] =
  Some (B "WITH RECURSIVE regional_sales AS (SELECT region, SUM(amount) AS total_sales 
FROM orders 
GROUP BY region), top_regions AS (SELECT region 
FROM regional_sales 
ORDER BY total_sales DESC 
LIMIT ?) 
SELECT region, product, SUM(quantity) AS product_units, SUM(amount) AS product_sales 
FROM orders 
WHERE region IN (SELECT region FROM top_regions) 
GROUP BY region, product", [AInt (5)], []).
Proof. vm_compute. reflexivity. Qed.
Example TestSubQueryDialect : observe new_stmt 1 Postgres (KFrom (B "users u") []) [CSelect (B "email") []; CWhere (B "registered > ?") [AStr (B "2019-01-01")]; CSubQuery (B "EXISTS (") (B ")") (fst (sub Postgres (KFrom (B "orders") []) [CSelect (B "id") []; CWhere (B "user_id = u.id") []; CWhere (B "amount > ?") [AInt (100)]])) (snd (sub Postgres (KFrom (B "orders") []) [CSelect (B "id") []; CWhere (B "user_id = u.id") []; CWhere (B "amount > ?") [AInt (100)]]))] =
  Some (B "SELECT email 
FROM users u 
WHERE registered > $1 AND EXISTS (SELECT id 
FROM orders 
WHERE user_id = u.id AND amount > $2)", [AStr (B "2019-01-01"); AInt (100)], []).
Proof. vm_compute. reflexivity. Qed.
Example TestJoin : observe new_stmt 1 NoDialect (KFrom (B "orders o") []) [CSelect (B "id") []; CJoin (B "users u") (B "u.id = o.user_id")] =
  Some (B "SELECT id 
FROM orders o JOIN users u ON (u.id = o.user_id)", [], []).
Proof. vm_compute. reflexivity. Qed.
Example TestLeftJoin : observe new_stmt 1 NoDialect (KFrom (B "orders o") []) [CSelect (B "id") []; CLeftJoin (B "users u") (B "u.id = o.user_id")] =
  Some (B "SELECT id 
FROM orders o LEFT JOIN users u ON (u.id = o.user_id)", [], []).
Proof. vm_compute. reflexivity. Qed.
Example TestRightJoin : observe new_stmt 1 NoDialect (KFrom (B "orders o") []) [CSelect (B "id") []; CRightJoin (B "users u") (B "u.id = o.user_id")] =
  Some (B "SELECT id 
FROM orders o RIGHT JOIN users u ON (u.id = o.user_id)", [], []).
Proof. vm_compute. reflexivity. Qed.
Example TestFullJoin : observe new_stmt 1 NoDialect (KFrom (B "orders o") []) [CSelect (B "id") []; CFullJoin (B "users u") (B "u.id = o.user_id")] =
  Some (B "SELECT id 
FROM orders o FULL JOIN users u ON (u.id = o.user_id)", [], []).
Proof. vm_compute. reflexivity. Qed.
Example TestUnion : observe new_stmt 1 NoDialect (KFrom (B "tasks") []) [CSelect (B "id, status") []; CWhere (B "status = ?") [AStr (B "new")]; CUnion false (fst (sub Postgres (KFrom (B "tasks") []) [CSelect (B "id, status") []; CWhere (B "status = ?") [AStr (B "wip")]])) (snd (sub Postgres (KFrom (B "tasks") []) [CSelect (B "id, status") []; CWhere (B "status = ?") [AStr (B "wip")]]))] =
  Some (B "SELECT id, status 
FROM tasks 
WHERE status = ? 
UNION SELECT id, status 
FROM tasks 
WHERE status = ?", [AStr (B "new"); AStr (B "wip")], []).
Proof. vm_compute. reflexivity. Qed.
Example TestLimit : observe new_stmt 1 NoDialect (KFrom (B "items") []) [CSelect (B "id") []; CWhere (B "id > ?") [AInt (42)]; CLimit (AInt (10)); CLimit (AInt (11)); CLimit (AInt (20))] =
  Some (B "SELECT id 
FROM items 
WHERE id > ? 
LIMIT ?", [AInt (42); AInt (20)], []).
Proof. vm_compute. reflexivity. Qed.
Example TestBindStruct : observe new_stmt 1 NoDialect (KFrom (B "users") []) [CBind [BEmbedded [BLeaf (B "id") 1; BLeaf (B "date") 2; BLeaf [] 3]; BLeaf (B "child_time") 4; BLeaf (B "name") 5; BLeaf [] 6]; CWhere (B "id = ?") [AInt (2)]] =
  Some (B "SELECT id, date, child_time, name 
FROM users 
WHERE id = ?", [AInt (2)], [1; 2; 4; 5]).
Proof. vm_compute. reflexivity. Qed.
Example TestInsert : observe new_stmt 1 Postgres (KInsertInto (B "vars")) [CReturning (B "id, name, age, count, updated_at"); CSetName (B "q1"); CNewRow [((B "id"), (B "?"), [AInt (1)]); ((B "name"), (B "?"), [AStr (B "John")]); ((B "age"), (B "?"), [AInt (30)]); ((B "count"), (B "1"), []); ((B "updated_at"), (B "Now()"), [])]; CReturning (B "id, name, age, count, updated_at")] =
  Some (B "INSERT INTO vars 
( id, name, age, count, updated_at 
) VALUES ( $1, $2, $3, 1, Now() 
) 
RETURNING id, name, age, count, updated_at, id, name, age, count, updated_at", [AInt (1); AStr (B "John"); AInt (30)], []).
Proof. vm_compute. reflexivity. Qed.
Example TestBulkInsert : observe new_stmt 1 NoDialect (KInsertInto (B "vars")) [CNewRow [((B "no"), (B "?"), [AInt (1)]); ((B "val"), (B "?"), [AInt (1)])]; CNewRow [((B "no"), (B "?"), [AInt (2)]); ((B "val"), (B "?"), [AInt (2)])]; CNewRow [((B "no"), (B "?"), [AInt (3)]); ((B "val"), (B "?"), [AInt (3)])]; CNewRow [((B "no"), (B "?"), [AInt (4)]); ((B "val"), (B "?"), [AInt (4)])]; CNewRow [((B "no"), (B "?"), [AInt (5)]); ((B "val"), (B "?"), [AInt (5)])]] =
  Some (B "INSERT INTO vars 
( no, val 
) VALUES ( ?, ? ), ( ?, ? ), ( ?, ? ), ( ?, ? ), ( ?, ? 
)", [AInt (1); AInt (1); AInt (2); AInt (2); AInt (3); AInt (3); AInt (4); AInt (4); AInt (5); AInt (5)], []).
Proof. vm_compute. reflexivity. Qed.
(** xsql/executor_test.go:325-364 *)
Example TestUpsert : observe new_stmt 1 NoDialect (KInsertInto (B "logins")) [CClause (B "ON CONFLICT (email) DO UPDATE SET 
			email_verified=EXCLUDED.email_verified,
			login_count = logins.login_count + 1,
			last_login_at=CURRENT_TIMESTAMP") []; CReturning (B "id, email"); CNewRow [((B "id"), (B "?"), [ANil]); ((B "extern_id"), (B "?"), [ANil]); ((B "provider"), (B "?"), [ANil]); ((B "email"), (B "?"), [ANil]); ((B "email_verified"), (B "?"), [ANil]); ((B "name"), (B "?"), [ANil]); ((B "access_token"), (B "?"), [ANil]); ((B "refresh_token"), (B "?"), [ANil]); ((B "token_expires_at"), (B "?"), [ANil]); ((B "login_count"), (B "1"), []); ((B "last_login_at"), (B "CURRENT_TIMESTAMP"), [])]] =
  Some (B "INSERT INTO logins 
( id, extern_id, provider, email, email_verified, name, access_token, refresh_token, token_expires_at, login_count, last_login_at 
) VALUES ( ?, ?, ?, ?, ?, ?, ?, ?, ?, 1, CURRENT_TIMESTAMP 
) 
ON CONFLICT (email) DO UPDATE SET 
			email_verified=EXCLUDED.email_verified,
			login_count = logins.login_count + 1,
			last_login_at=CURRENT_TIMESTAMP 
RETURNING id, email", [ANil; ANil; ANil; ANil; ANil; ANil; ANil; ANil; ANil], []).
Proof. vm_compute. reflexivity. Qed.
(** xsql/example_test.go (new lines off) *)
Example Ex_OrderBy : observe new_stmt 1 Plain (KSelect (B "id") []) [CFrom (B "table") []; COrderBy [(B "id"); (B "name DESC")]] =
  Some (B "SELECT id FROM table ORDER BY id, name DESC", [], []).
Proof. vm_compute. reflexivity. Qed.
Example Ex_Limit : observe new_stmt 1 Plain (KSelect (B "id") []) [CFrom (B "table") []; CLimit (AInt (10))] =
  Some (B "SELECT id FROM table LIMIT ?", [AInt (10)], []).
Proof. vm_compute. reflexivity. Qed.
Example Ex_Offset : observe new_stmt 1 Plain (KSelect (B "id") []) [CFrom (B "table") []; CLimit (AInt (10)); COffset (AInt (10))] =
  Some (B "SELECT id FROM table LIMIT ? OFFSET ?", [AInt (10); AInt (10)], []).
Proof. vm_compute. reflexivity. Qed.
Example Ex_Paginate1 : observe new_stmt 1 Plain (KSelect (B "id") []) [CFrom (B "table") []; CPaginate (5) (10)] =
  Some (B "SELECT id FROM table LIMIT ? OFFSET ?", [AInt (10); AInt (40)], []).
Proof. vm_compute. reflexivity. Qed.
Example Ex_Paginate2 : observe new_stmt 1 Plain (KSelect (B "id") []) [CFrom (B "table") []; CPaginate (1) (10)] =
  Some (B "SELECT id FROM table LIMIT ?", [AInt (10)], []).
Proof. vm_compute. reflexivity. Qed.
Example Ex_Paginate3 : observe new_stmt 1 Plain (KSelect (B "id") []) [CFrom (B "table") []; CPaginate (-1) (-1)] =
  Some (B "SELECT id FROM table LIMIT ?", [AInt (1)], []).
Proof. vm_compute. reflexivity. Qed.
Example Ex_Update : observe new_stmt 1 Plain (KUpdate (B "table")) [CSet (B "field1") (AStr (B "newvalue")); CWhere (B "id = ?") [AInt (42)]] =
  Some (B "UPDATE table SET field1=? WHERE id = ?", [AStr (B "newvalue"); AInt (42)], []).
Proof. vm_compute. reflexivity. Qed.
Example Ex_SetExpr : observe new_stmt 1 Plain (KUpdate (B "table")) [CSetExpr (B "field1") (B "field2 + 1") []; CWhere (B "id = ?") [AInt (42)]] =
  Some (B "UPDATE table SET field1=field2 + 1 WHERE id = ?", [AInt (42)], []).
Proof. vm_compute. reflexivity. Qed.
Example Ex_InsertInto : observe new_stmt 1 Plain (KInsertInto (B "table")) [CSet (B "field1") (AStr (B "newvalue")); CSetExpr (B "field2") (B "field2 + 1") []] =
  Some (B "INSERT INTO table ( field1, field2 ) VALUES ( ?, field2 + 1 )", [AStr (B "newvalue")], []).
Proof. vm_compute. reflexivity. Qed.
Example Ex_DeleteFrom : observe new_stmt 1 Plain (KDeleteFrom (B "table")) [CWhere (B "id = ?") [AInt (42)]] =
  Some (B "DELETE FROM table WHERE id = ?", [AInt (42)], []).
Proof. vm_compute. reflexivity. Qed.
Example Ex_GroupBy : observe new_stmt 1 Plain (KFrom (B "incomes") []) [CSelect (B "source, sum(amount) as s") []; CWhere (B "amount > ?") [AInt (42)]; CGroupBy (B "source")] =
  Some (B "SELECT source, sum(amount) as s FROM incomes WHERE amount > ? GROUP BY source", [AInt (42)], []).
Proof. vm_compute. reflexivity. Qed.
Example Ex_Having : observe new_stmt 1 Plain (KFrom (B "incomes") []) [CSelect (B "source, sum(amount) as s") []; CWhere (B "amount > ?") [AInt (42)]; CGroupBy (B "source"); CHaving (B "s > ?") [AInt (100)]] =
  Some (B "SELECT source, sum(amount) as s FROM incomes WHERE amount > ? GROUP BY source HAVING s > ?", [AInt (42); AInt (100)], []).
Proof. vm_compute. reflexivity. Qed.
Example Ex_Returning : observe new_stmt 1 Plain (KInsertInto (B "table")) [CSet (B "field1") (AStr (B "newvalue")); CReturning (B "id"); CTo [1]] =
  Some (B "INSERT INTO table ( field1 ) VALUES ( ? ) RETURNING id", [AStr (B "newvalue")], [1]).
Proof. vm_compute. reflexivity. Qed.
Example Ex_Postgres : observe new_stmt 1 PlainPg (KFrom (B "table") []) [CSelect (B "field") []; CWhere (B "id = ?") [AInt (42)]] =
  Some (B "SELECT field FROM table WHERE id = $1", [AInt (42)], []).
Proof. vm_compute. reflexivity. Qed.
Example Ex_With : observe new_stmt 1 Plain (KFrom (B "orders") []) [CWith (B "regional_sales") (fst (sub Plain (KFrom (B "orders") []) [CSelect (B "region, SUM(amount) AS total_sales") []; CGroupBy (B "region")])) (snd (sub Plain (KFrom (B "orders") []) [CSelect (B "region, SUM(amount) AS total_sales") []; CGroupBy (B "region")])); CWith (B "top_regions") (fst (sub Plain (KFrom (B "regional_sales") []) [CSelect (B "region") []; CWhere (B "total_sales > (SELECT SUM(total_sales)/10 FROM regional_sales)") []])) (snd (sub Plain (KFrom (B "regional_sales") []) [CSelect (B "region") []; CWhere (B "total_sales > (SELECT SUM(total_sales)/10 FROM regional_sales)") []])); CSelect (B "region") []; CSelect (B "product") []; CSelect (B "SUM(quantity) AS product_units") []; CSelect (B "SUM(amount) AS product_sales") []; CWhere (B "region IN (SELECT region FROM top_regions)") []; CGroupBy (B "region, product")] =
  Some (B "WITH regional_sales AS (SELECT region, SUM(amount) AS total_sales FROM orders GROUP BY region), top_regions AS (SELECT region FROM regional_sales WHERE total_sales > (SELECT SUM(total_sales)/10 FROM regional_sales)) SELECT region, product, SUM(quantity) AS product_units, SUM(amount) AS product_sales FROM orders WHERE region IN (SELECT region FROM top_regions) GROUP BY region, product", [], []).
Proof. vm_compute. reflexivity. Qed.
Example Ex_From : observe new_stmt 1 Plain (KSelect (B "*") []) [CFrom (B "") []; CSubQuery (B "(") (B ") counted_news") (fst (sub Plain (KFrom (B "news") []) [CSelect (B "id, section, header, score") []; CSelect (B "row_number() OVER (PARTITION BY section ORDER BY score DESC) AS rating_in_section") []; COrderBy [(B "section, rating_in_section")]])) (snd (sub Plain (KFrom (B "news") []) [CSelect (B "id, section, header, score") []; CSelect (B "row_number() OVER (PARTITION BY section ORDER BY score DESC) AS rating_in_section") []; COrderBy [(B "section, rating_in_section")]])); CWhere (B "rating_in_section <= 5") []] =
  Some (B "SELECT * FROM (SELECT id, section, header, score, row_number() OVER (PARTITION BY section ORDER BY score DESC) AS rating_in_section FROM news ORDER BY section, rating_in_section) counted_news WHERE rating_in_section <= 5", [], []).
Proof. vm_compute. reflexivity. Qed.
Example Ex_SubQuery : observe new_stmt 1 Plain (KFrom (B "orders o") []) [CSelect (B "date, region") []; CSubQuery (B "(") (B ") AS prev_order_date") (fst (sub Plain (KFrom (B "orders po") []) [CSelect (B "date") []; CWhere (B "region = o.region") []; CWhere (B "id < o.id") []; COrderBy [(B "id DESC")]; CClause (B "LIMIT 1") []])) (snd (sub Plain (KFrom (B "orders po") []) [CSelect (B "date") []; CWhere (B "region = o.region") []; CWhere (B "id < o.id") []; COrderBy [(B "id DESC")]; CClause (B "LIMIT 1") []])); CWhere (B "date > CURRENT_DATE - interval '1 day'") []; COrderBy [(B "id DESC")]] =
  Some (B "SELECT date, region, (SELECT date FROM orders po WHERE region = o.region AND id < o.id ORDER BY id DESC LIMIT 1) AS prev_order_date FROM orders o WHERE date > CURRENT_DATE - interval '1 day' ORDER BY id DESC", [], []).
Proof. vm_compute. reflexivity. Qed.
Example Ex_Clause : observe new_stmt 1 Plain (KFrom (B "empsalary") []) [CSelect (B "sum(salary) OVER w") []; CClause (B "WINDOW w AS (PARTITION BY depname ORDER BY salary DESC)") []] =
  Some (B "SELECT sum(salary) OVER w FROM empsalary WINDOW w AS (PARTITION BY depname ORDER BY salary DESC)", [], []).
Proof. vm_compute. reflexivity. Qed.
Example Ex_In : observe new_stmt 1 Plain (KFrom (B "tasks") []) [CSelect (B "id, status") []; CWhere (B "status") []; CIn [AStr (B "new"); AStr (B "pending"); AStr (B "wip")]] =
  Some (B "SELECT id, status FROM tasks WHERE status IN (?,?,?)", [AStr (B "new"); AStr (B "pending"); AStr (B "wip")], []).
Proof. vm_compute. reflexivity. Qed.
Example Ex_Union : observe new_stmt 1 Plain (KFrom (B "tasks") []) [CSelect (B "id, status") []; CWhere (B "status = ?") [AStr (B "new")]; CUnion true (fst (sub Plain (KFrom (B "tasks") []) [CSelect (B "id, status") []; CWhere (B "status = ?") [AStr (B "pending")]])) (snd (sub Plain (KFrom (B "tasks") []) [CSelect (B "id, status") []; CWhere (B "status = ?") [AStr (B "pending")]])); CUnion true (fst (sub Plain (KFrom (B "tasks") []) [CSelect (B "id, status") []; CWhere (B "status = ?") [AStr (B "wip")]])) (snd (sub Plain (KFrom (B "tasks") []) [CSelect (B "id, status") []; CWhere (B "status = ?") [AStr (B "wip")]])); COrderBy [(B "id")]] =
  Some (B "SELECT id, status FROM tasks WHERE status = ? UNION ALL SELECT id, status FROM tasks WHERE status = ? UNION ALL SELECT id, status FROM tasks WHERE status = ? ORDER BY id", [AStr (B "new"); AStr (B "pending"); AStr (B "wip")], []).
Proof. vm_compute. reflexivity. Qed.

(** xsql/stmt_test.go:202-245 TestClone, the first comparisons *)
Definition clone_of : option (dialect * stmt) :=
  match build new_stmt 1 NoDialect (KFrom (B "table") []) [CSelect (B "field") []; CTo [1]; CWhere (B "id = ?") [AInt 42]] with
  | Some q => match stmt_string NoDialect q with
              | Some (d1, q1, _) => match clone new_stmt d1 q1 with Some q2 => Some (d1, q2) | None => None end
              | None => None
              end
  | None => None
  end.
Example TestClone : match clone_of with Some (d1, q2) => shown d1 q2 | None => None end = Some (B "SELECT field 
FROM table 
WHERE id = ?", [AInt 42], [1]).
Proof. vm_compute. reflexivity. Qed.
Example TestClone2 : match clone_of with Some (d1, q2) => match call q2 (CWhere (B "time < ?") [AOpaque 1]) with Some q3 => shown d1 q3 | None => None end | None => None end = Some (B "SELECT field 
FROM table 
WHERE id = ? AND time < ?", [AInt 42; AOpaque 1], [1]).
Proof. vm_compute. reflexivity. Qed.
(** xsql/cache_test.go:12-55 TestSQLCache *)
Definition two_cached : dialect := put_cached (put_cached NoDialect (B "test") (B "test SQL")) (B "test2") (B "test SQL2").
Example TestSQLCache : get_cached NoDialect (B "test") = None /\ get_cached two_cached (B "test") = Some (B "test SQL") /\
  match build new_stmt 1 two_cached (KFrom (B "table") []) [CSelect (B "*") []] with
  | Some q => match get_or_create two_cached (B "test3") q with Some (d', s, made) => Some (s, made, length (d_cache d')) | None => None end
  | None => None
  end = Some (B "SELECT * 
FROM table", true, 3%nat).
Proof. repeat split; vm_compute; reflexivity. Qed.
(** xsql/util_test.go *)
Example TestInsertAt : insert_at [1; 2; 3; 4] [5; 6] 4 = Some [1; 2; 3; 4; 5; 6] /\ insert_at [] [3; 2] 0 = Some [3; 2] /\ @insert_at Z [] [] 5 = Some [] /\ insert_at [1; 2] [3] 1 = Some [1; 3; 2].
Proof. repeat split; reflexivity. Qed.
