(** Property theorems C01-C22 about the SQL builder.  Statements use the model
    (XsqlModel, XsqlExec) and the specifications (XsqlSpec, XsqlUserSpec);
    proofs are in the other Xsql files.

    [observe r did d k cs]: the statement d.k(...).c1(...).c2(...)..., built on
    the pool object [r], followed by String(), Args(), Dest(); None = panic.
    [clean r]: the object comes from the pool's New or from Close (both proved
    clean below). *)
From Verif Require Import GoBase GoBaseFacts XsqlModel XsqlSpec XsqlRunSpec XsqlUserSpec XsqlProofs XsqlPg XsqlSim XsqlRender XsqlClauseSpec XsqlClause
  XsqlUser XsqlValues XsqlStatic XsqlOrder XsqlInsert XsqlMore XsqlCache XsqlExec XsqlSub XsqlWorld XsqlFullSpec XsqlFull XsqlExtra XsqlExact.
From Coq Require Import Sorted.
Open Scope Z_scope.

(** Dialects used in the examples. *)
Definition ex_plain : dialect := mkDialect (B "") [] false.
Definition ex_pg : dialect := mkDialect (B "postgres") [] false.
Definition ex_calls : list bcall :=
  [CLimit (AInt 5); CWhere (B "a = ?") [AInt 1]; CFrom (B "t") []; COrderBy [B "a"; B "b"]; CWhere (B "b > ?") [AInt 2]; CSelect (B "c") []].

(** ** C01 *)
Theorem C01_canonical_text : forall r did d k cs, clean r -> d_cache d = [] ->
  ok_build (d_nl d) k cs = true -> renderable d k cs = true ->
  let h := s_hist (spec_build (d_nl d) k cs) in
  observe r did d k cs =
    Some (numbered d (spec_sql h), spec_args h, s_dest (spec_build (d_nl d) k cs)).
Proof. exact observe_hist. Qed.

(** The README view for SELECT/UPDATE/DELETE: clauses in SQL order, expressions
    in call order. *)
Theorem C01_user_statement : forall r did d k c0 cs, clean r -> d_cache d = [] ->
  start_call k = Some c0 -> forallb (dml_call (is_update k)) (c0 :: cs) = true -> renderable d k cs = true ->
  observe r did d k cs =
    Some (numbered d (user_sql (d_nl d) (c0 :: cs)), user_args (c0 :: cs), []).
Proof. exact user_observe. Qed.

(** The same with WITH, joins, In, Paginate, Bind and To (XsqlFullSpec). *)
Theorem C01_full_statement : forall r did d k c0 cs, clean r -> d_cache d = [] -> full_start k = Some c0 ->
  forallb (full_call (updates k)) (c0 :: cs) = true -> opened_first false false (c0 :: cs) = true -> renderable d k cs = true ->
  observe r did d k cs = Some (numbered d (full_sql (d_nl d) (c0 :: cs)), full_args (c0 :: cs), full_dest (c0 :: cs)).
Proof. exact full_observe. Qed.
Definition ex_full : list bcall :=
  [CWith (B "v") (B "SELECT z FROM y WHERE k = ?") [AInt 8]; CPaginate 3 20; CWhere (B "a = ?") [AInt 1]; CFrom (B "t") []; CTo [11]; CLeftJoin (B "u") (B "u.id = t.id");
   CWhere (B "b") []; CIn [AInt 2; AInt 3]; CBind [BLeaf (B "c,x") 12; BEmbedded [BLeaf (B "d") 13]]; CWith (B "w") (B "SELECT 1") []].
Example C01_full_statement_ex : full_start (KSelect (B "x") []) = Some (CSelect (B "x") []) /\
  forallb (full_call false) (CSelect (B "x") [] :: ex_full) = true /\ opened_first false false (CSelect (B "x") [] :: ex_full) = true /\
  renderable ex_pg (KSelect (B "x") []) ex_full = true /\
  observe new_stmt 1 ex_pg (KSelect (B "x") []) ex_full =
  Some (B "WITH v AS (SELECT z FROM y WHERE k = $1), w AS (SELECT 1) SELECT x, c, d FROM t LEFT JOIN u ON (u.id = t.id) WHERE a = $2 AND b IN ($3,$4) LIMIT $5 OFFSET $6",
        [AInt 8; AInt 1; AInt 2; AInt 3; AInt 20; AInt 40], [11; 12; 13]).
Proof. vm_compute. repeat split; reflexivity. Qed.

(** Only the order of calls to the same clause matters. *)
Theorem C01_interleaving : forall r did d k cs0 cs cs', clean r -> d_cache d = [] ->
  ok_build (d_nl d) k (cs0 ++ cs) = true -> renderable d k (cs0 ++ cs) = true ->
  ok_build (d_nl d) k (cs0 ++ cs') = true -> renderable d k (cs0 ++ cs') = true ->
  forallb has_clause cs = true -> forallb has_clause cs' = true ->
  (forall cl, filter (is_clause cl) cs = filter (is_clause cl) cs') ->
  observe r did d k (cs0 ++ cs) = observe r did d k (cs0 ++ cs').
Proof. exact interleave. Qed.

Example C01_canonical_text_ex : clean new_stmt /\ ok_build false (KSelect (B "x") []) ex_calls = true /\
  renderable ex_pg (KSelect (B "x") []) ex_calls = true /\
  observe new_stmt 1 ex_pg (KSelect (B "x") []) ex_calls =
  Some (B "SELECT x, c FROM t WHERE a = $1 AND b > $2 ORDER BY a, b LIMIT $3", [AInt 1; AInt 2; AInt 5], []).
Proof. vm_compute. repeat split; reflexivity. Qed.
Example C01_user_statement_ex : start_call (KSelect (B "x") []) = Some (CSelect (B "x") []) /\
  forallb (dml_call false) (CSelect (B "x") [] :: ex_calls) = true /\
  user_sql false (CSelect (B "x") [] :: ex_calls) = B "SELECT x, c FROM t WHERE a = ? AND b > ? ORDER BY a, b LIMIT ?".
Proof. vm_compute. repeat split; reflexivity. Qed.
Example C01_interleaving_ex : exists cs', cs' <> ex_calls /\ forallb has_clause ex_calls = true /\ forallb has_clause cs' = true /\
  ok_build false (KSelect (B "x") []) cs' = true /\
  (forall cl, filter (is_clause cl) ex_calls = filter (is_clause cl) cs').
Proof.
  exists [CWhere (B "a = ?") [AInt 1]; CWhere (B "b > ?") [AInt 2]; CLimit (AInt 5); COrderBy [B "a"; B "b"]; CSelect (B "c") []; CFrom (B "t") []].
  split; [discriminate|]. split; [reflexivity|]. split; [reflexivity|]. split; [vm_compute; reflexivity|].
  intros cl. cbn [filter ex_calls]. unfold is_clause; cbn [clause_of].
  destruct (beqb (B "LIMIT") cl) eqn:E1; [apply beqb_eq' in E1; subst; reflexivity|].
  destruct (beqb (B "WHERE") cl) eqn:E2; [apply beqb_eq' in E2; subst; reflexivity|].
  destruct (beqb (B "FROM") cl) eqn:E3; [apply beqb_eq' in E3; subst; reflexivity|].
  destruct (beqb (B "ORDER BY") cl); reflexivity.
Qed.

(** ** C02 *)
(** Args() for every statement whose argument-carrying calls have non-empty
    expressions, whatever the dialect; no call panics. *)
Theorem C02_args_in_order : forall r did d k cs, clean r -> d_cache d = [] -> ok_ctor k = true -> forallb standard cs = true ->
  exists s, observe r did d k cs = Some (s, spec_args (s_hist (spec_build (d_nl d) k cs)), s_dest (spec_build (d_nl d) k cs)).
Proof.
  intros r did d k cs Hr Hd Hk Hc. pose proof (standard_ok (d_nl d) k cs Hk Hc) as Ho.
  destruct (is_pg d) eqn:Ep.
  - destruct (observe_pg_verbatim r did d k cs Hr Hd Ep Ho) as (f & _ & ->). eexists; reflexivity.
  - rewrite (observe_plain r did d k cs Hr Hd Ep Ho). eexists; reflexivity.
Qed.
(** ... also with Clause, Expr, Union and SubQuery, as long as those carry
    their arguments with a non-empty expression. *)
Theorem C02_args_all_calls : forall r did d k cs, clean r -> d_cache d = [] -> ok_build (d_nl d) k cs = true ->
  exists s, observe r did d k cs = Some (s, spec_args (s_hist (spec_build (d_nl d) k cs)), s_dest (spec_build (d_nl d) k cs)).
Proof.
  intros r did d k cs Hr Hd Ho. destruct (is_pg d) eqn:Ep.
  - destruct (observe_pg_verbatim r did d k cs Hr Hd Ep Ho) as (f & _ & ->). eexists; reflexivity.
  - rewrite (observe_plain r did d k cs Hr Hd Ep Ho). eexists; reflexivity.
Qed.
Example C02_args_in_order_ex : forallb standard ex_calls = true /\
  spec_args (s_hist (spec_build false (KSelect (B "x") []) ex_calls)) = [AInt 1; AInt 2; AInt 5].
Proof. vm_compute. repeat split; reflexivity. Qed.

(** ** C03 *)
(** Replacing every bound value by nil never changes the text: hence two call
    sequences equal up to values have the same text.  No hypothesis. *)
Theorem C03_values_do_not_matter : forall r did d k cs k' cs',
  hide_ctor k = hide_ctor k' -> map hide_call cs = map hide_call cs' ->
  text_of r did d k cs = text_of r did d k' cs'.
Proof. intros r did d k cs k' cs' H1 H2. rewrite (text_alike r did d k cs), (text_alike r did d k' cs'), H1, H2. reflexivity. Qed.
Example C03_values_do_not_matter_ex : exists cs', cs' <> ex_calls /\ map hide_call cs' = map hide_call ex_calls.
Proof. exists [CLimit (AInt 7); CWhere (B "a = ?") [AStr (B "' OR 1=1")]; CFrom (B "t") []; COrderBy [B "a"; B "b"]; CWhere (B "b > ?") [ANil]; CSelect (B "c") []].
  split; [discriminate|reflexivity]. Qed.

(** ** C04 *)
(** Text: the dialect-neutral text with its placeholders numbered from 1 left
    to right; as many placeholders as arguments. *)
Theorem C04_pg_numbering : forall r did d k cs, clean r -> d_cache d = [] -> is_pg d = true ->
  ok_build (d_nl d) k cs = true -> pg_ready_ctor k = true -> forallb pg_ready cs = true ->
  let h := s_hist (spec_build (d_nl d) k cs) in
  observe r did d k cs = Some (snd (pg_number 1 (spec_sql h)), spec_args h, s_dest (spec_build (d_nl d) k cs)) /\
  placeholders (spec_sql h) = length (spec_args h).
Proof.
  intros r did d k cs Hr Hd Hp Ho Hk Hc. apply observe_pg; try assumption. apply pg_ready_hist; assumption.
Qed.
(** Alignment: the text and the argument list split into the same sequence of
    pieces, each with as many placeholders as arguments, and every piece with
    arguments is one of the expressions written, with its own arguments. *)
Theorem C04_alignment : forall nl k cs, ok_build nl k cs = true -> pg_ready_ctor k = true -> forallb pg_ready cs = true ->
  let h := s_hist (spec_build nl k cs) in
  concat (map fst (pieces h)) = spec_text h /\ concat (map snd (pieces h)) = spec_args h /\
  (forall x, In x (pieces h) -> placeholders (fst x) = length (snd x)) /\
  (forall x, In x (pieces h) -> snd x = [] \/ exists w, In w h /\ (x = (w_expr w, w_args w) \/ fst x = first_text w)).
Proof.
  intros nl k cs Ho Hk Hc h. subst h. split; [apply pieces_text|]. split; [apply pieces_args, ok_build_writes; exact Ho|].
  split; [|apply pieces_from]. intros x Hx. eapply pieces_count; [|apply ok_build_writes; exact Ho|exact Hx].
  apply pg_ready_build; assumption.
Qed.
Example C04_pg_numbering_ex : is_pg ex_pg = true /\ ok_build false (KSelect (B "x") []) ex_calls = true /\
  pg_ready_ctor (KSelect (B "x") []) = true /\ forallb pg_ready ex_calls = true.
Proof. vm_compute. repeat split; reflexivity. Qed.
Example C04_escaped_ex : observe new_stmt 1 ex_pg (KSelect (B "a \? b, ?") [AInt 1]) [CWhere (B "c = ?") [AInt 2]] =
  Some (B "SELECT a ? b, $1 WHERE c = $2", [AInt 1; AInt 2], []).
Proof. vm_compute. reflexivity. Qed.

(** ** C05: false of the code.  An argument-less condition with a literal '?'
    loses it when it shares its chunk with a condition that has arguments. *)
Theorem C05_literal_qmark_refuted :
  observe new_stmt 1 ex_pg (KSelect (B "x") []) [CWhere (B "a = ?") [AInt 1]; CWhere (B "j ? 'k'") []] =
  Some (B "SELECT x WHERE a = $1 AND j $2 'k'", [AInt 1], []).
Proof. vm_compute. reflexivity. Qed.

(** The exact text, for every statement: a run that carries an argument is
    numbered, every other run is copied. *)
Theorem C05_exact : forall r did d k cs, clean r -> d_cache d = [] -> is_pg d = true -> ok_build (d_nl d) k cs = true ->
  let s := spec_build (d_nl d) k cs in
  observe r did d k cs = Some (trim sql_ws (pg_text (s_hist s)), spec_args (s_hist s), s_dest s).
Proof. exact observe_pg_exact. Qed.

(** The runs of a clause make up its text and its arguments. *)
Theorem C05_runs : forall nl k cs, ok_build nl k cs = true ->
  let h := s_hist (spec_build nl k cs) in
  forall p, In p (positions h) ->
    concat (map r_text (runs_at p h)) = clause_text (at_pos p h) /\
    list_sum (map r_args (runs_at p h)) = length (clause_args (at_pos p h)).
Proof. exact runs_text. Qed.

(** When no two consecutive calls add text to the same clause, each expression
    is a run of its own: one without arguments is copied verbatim, one with
    arguments is numbered. *)
Theorem C05_apart : forall h, apart None [] h = true ->
  forall w, In w h -> exists pre, In (mkRun (w_pos w) (pre ++ w_expr w) (length (w_args w))) (runs h).
Proof. intros h HA w Hw. apply (proj2 (runs_apart h None [] [] HA eq_refl) w Hw). Qed.

Example C05_exact_ex :
  observe new_stmt 1 ex_pg (KSelect (B "x") []) [CWhere (B "a = ?") [AInt 1]; CFrom (B "t") []; CWhere (B "j ? 'k'") []; CHaving (B "n > ?") [AInt 2]] =
    Some (B "SELECT x FROM t WHERE a = $1 AND j ? 'k' HAVING n > $2", [AInt 1; AInt 2], []) /\
  apart None [] (s_hist (spec_build false (KSelect (B "x") []) [CWhere (B "a = ?") [AInt 1]; CFrom (B "t") []; CWhere (B "j ? 'k'") []])) = true /\
  map (fun r => (r_text r, r_args r)) (runs_at 1200 (s_hist (spec_build false (KSelect (B "x") []) [CWhere (B "a = ?") [AInt 1]; CFrom (B "t") []; CWhere (B "j ? 'k'") []])))
    = [(B "WHERE a = ?", 1%nat); (B " AND j ? 'k'", 0%nat)] /\
  map (fun r => (r_text r, r_args r)) (runs_at 1200 (s_hist (spec_build false (KSelect (B "x") []) [CWhere (B "a = ?") [AInt 1]; CWhere (B "j ? 'k'") []])))
    = [(B "WHERE a = ? AND j ? 'k'", 1%nat)].
Proof. repeat split; vm_compute; reflexivity. Qed.

(** True for whole clauses: a clause none of whose expressions has arguments is
    copied verbatim. *)
Theorem C05_literal_qmark_partial : forall r did d k cs, clean r -> d_cache d = [] -> is_pg d = true -> ok_build (d_nl d) k cs = true ->
  let h := s_hist (spec_build (d_nl d) k cs) in
  exists f, (forall p, In p (positions h) -> clause_args (at_pos p h) = [] -> f p = clause_text (at_pos p h)) /\
    observe r did d k cs = Some (trim sql_ws (join (B " ") (map f (positions h))), spec_args h, s_dest (spec_build (d_nl d) k cs)).
Proof. exact observe_pg_verbatim. Qed.
Example C05_literal_qmark_partial_ex :
  observe new_stmt 1 ex_pg (KSelect (B "x") []) [CFrom (B "t ? u") []; CWhere (B "a = ?") [AInt 1]] =
  Some (B "SELECT x FROM t ? u WHERE a = $1", [AInt 1], []).
Proof. vm_compute. reflexivity. Qed.

(** ** C06 *)
(** [page_call false v] is Limit(v), [page_call true v] is Offset(v): a call
    followed by another one of its kind might as well not have been made. *)
Theorem C06_last_limit_wins : forall r did d k cs0 o v cs, clean r -> d_cache d = [] -> ok_ctor k = true ->
  forallb standard (cs0 ++ page_call o v :: cs) = true -> renderable d k (cs0 ++ page_call o v :: cs) = true ->
  forallb has_clause cs = true -> (exists v', In (page_call o v') cs) ->
  observe r did d k (cs0 ++ page_call o v :: cs) = observe r did d k (cs0 ++ cs).
Proof. exact last_wins. Qed.
Example C06_last_limit_wins_ex :
  observe new_stmt 1 ex_pg (KSelect (B "x") []) [CLimit (AInt 1); CFrom (B "t") []; CLimit (AInt 2); COffset (AInt 7); CLimit (AInt 3)] =
  Some (B "SELECT x FROM t LIMIT $1 OFFSET $2", [AInt 3; AInt 7], []).
Proof. vm_compute. reflexivity. Qed.

(** ** C07 *)
Theorem C07_paginate : forall r did d k cs1 p n cs2,
  observe r did d k (cs1 ++ CPaginate p n :: cs2) =
  observe r did d k (cs1 ++ (if 1 <? p then [COffset (AInt (i64 ((p - 1) * Z.max 1 n)))] else []) ++ [CLimit (AInt (Z.max 1 n))] ++ cs2).
Proof. intros. rewrite paginate_observe. unfold paginate_calls. rewrite <- app_assoc. reflexivity. Qed.
Theorem C07_offset_exact : forall p n, 1 < p -> (p - 1) * Z.max 1 n < 2 ^ 63 -> i64 ((p - 1) * Z.max 1 n) = (p - 1) * Z.max 1 n.
Proof. exact paginate_exact. Qed.
Example C07_paginate_ex : observe new_stmt 1 ex_pg (KSelect (B "x") []) [CPaginate 3 10] = Some (B "SELECT x LIMIT $1 OFFSET $2", [AInt 10; AInt 20], []).
Proof. vm_compute. reflexivity. Qed.

(** ** C08: false of the code.  Returning to page 1 keeps the old OFFSET. *)
Theorem C08_paginate_again_refuted :
  observe new_stmt 1 ex_pg (KSelect (B "x") []) [CPaginate 3 10; CPaginate 1 10] = Some (B "SELECT x LIMIT $1 OFFSET $2", [AInt 10; AInt 20], []) /\
  observe new_stmt 1 ex_pg (KSelect (B "x") []) [CPaginate 1 10] = Some (B "SELECT x LIMIT $1", [AInt 10], []).
Proof. vm_compute. split; reflexivity. Qed.
(** True unless an earlier call selected a page above 1 and the later one page 1. *)
Theorem C08_paginate_again_partial : forall r did d k cs0 p1 n1 cs p2 n2, clean r -> d_cache d = [] -> ok_ctor k = true ->
  forallb standard (cs0 ++ cs) = true -> renderable d k (cs0 ++ cs) = true -> forallb has_clause cs = true ->
  1 < p2 \/ p1 <= 1 ->
  observe r did d k (cs0 ++ CPaginate p1 n1 :: cs ++ [CPaginate p2 n2]) = observe r did d k (cs0 ++ cs ++ [CPaginate p2 n2]).
Proof. exact paginate_replaces. Qed.
Example C08_paginate_again_partial_ex : observe new_stmt 1 ex_pg (KSelect (B "x") []) [CPaginate 3 10; CWhere (B "a") []; CPaginate 2 7] =
  Some (B "SELECT x WHERE a LIMIT $1 OFFSET $2", [AInt 7; AInt 7], []).
Proof. vm_compute. reflexivity. Qed.

(** What happens in the remaining case: the page is reset, its size is that of
    the last call, but the first row is still that of the earlier page. *)
Theorem C08_exact_partial : forall r did d k cs0 p1 n1 cs p2 n2, clean r -> d_cache d = [] -> ok_ctor k = true ->
  forallb standard (cs0 ++ cs) = true -> renderable d k (cs0 ++ cs) = true -> forallb has_clause cs = true ->
  observe r did d k (cs0 ++ CPaginate p1 n1 :: cs ++ [CPaginate p2 n2]) =
  observe r did d k (cs0 ++ (if (1 <? p1) && (p2 <=? 1) then [COffset (AInt (i64 ((p1 - 1) * Z.max 1 n1)))] else []) ++ cs ++
    (if 1 <? p2 then [COffset (AInt (i64 ((p2 - 1) * Z.max 1 n2)))] else []) ++ [CLimit (AInt (Z.max 1 n2))]).
Proof.
  intros r did d k cs0 p1 n1 cs p2 n2 HC Hd Hk Hs Hr Hcl.
  destruct ((1 <? p1) && (p2 <=? 1)) eqn:E.
  2: { rewrite paginate_replaces; try assumption; [|lia]. cbn [app]. rewrite !app_assoc.
       rewrite <- (app_assoc (cs0 ++ cs)). rewrite (paginate_observe r did d k (cs0 ++ cs) p2 n2 []). rewrite app_nil_r. reflexivity. }
  replace (1 <? p2) with false by lia. rewrite paginate_observe.
  replace (cs0 ++ paginate_calls p1 n1 ++ cs ++ [CPaginate p2 n2]) with ((cs0 ++ paginate_calls p1 n1 ++ cs) ++ [CPaginate p2 n2]) by (rewrite <- !app_assoc; reflexivity).
  rewrite paginate_observe. rewrite app_nil_r, <- !app_assoc. unfold paginate_calls.
  replace (1 <? p1) with true by lia. replace (1 <? p2) with false by lia. cbn [app].
  set (o := COffset _). set (l2 := CLimit (AInt (Z.max 1 n2))).
  change (cs0 ++ o :: CLimit (AInt (Z.max 1 n1)) :: cs ++ [l2]) with (cs0 ++ [o] ++ page_call false (AInt (Z.max 1 n1)) :: cs ++ [l2]).
  change (cs0 ++ o :: cs ++ [l2]) with (cs0 ++ [o] ++ cs ++ [l2]). rewrite !(app_assoc cs0 [o]).
  apply last_wins; try assumption.
  - cbn. rewrite !forallb_app in *. cbn. rewrite forallb_app. cbn. rewrite !andb_true_iff in *. tauto.
  - unfold renderable in *. destruct (is_pg d); [|reflexivity]. cbn [negb orb] in *. rewrite !forallb_app in *. cbn [forallb]. rewrite forallb_app.
    cbn [forallb]. change (pg_ready o) with true. change (pg_ready (page_call false (AInt (Z.max 1 n1)))) with true. change (pg_ready l2) with true. rewrite !andb_true_iff in *. tauto.
  - rewrite forallb_app, Hcl. reflexivity.
  - exists (AInt (Z.max 1 n2)). apply in_or_app. right; left; reflexivity.
Qed.
Example C08_exact_partial_ex : observe new_stmt 1 ex_pg (KSelect (B "x") []) [CPaginate 3 10; CWhere (B "a") []; CPaginate 1 7] =
  Some (B "SELECT x WHERE a LIMIT $1 OFFSET $2", [AInt 7; AInt 20], []).
Proof. vm_compute. reflexivity. Qed.

(** ** C09 *)
Theorem C09_bulk_insert : forall r did d t row rows, clean r -> d_cache d = [] ->
  renderable d (KInsertInto t) (map CNewRow (row :: rows)) = true -> t <> [] ->
  Forall (fun f => f <> []) (row_cols row) ->
  Forall (fun sets => Forall (fun x : bytes * bytes * list goany => snd (fst x) <> []) sets /\ sets <> []) (row :: rows) ->
  observe r did d (KInsertInto t) (map CNewRow (row :: rows)) =
    Some (numbered d (insert_text (d_nl d) t (row_cols row) (rows_text (row :: rows))), rows_args (row :: rows), []).
Proof. exact bulk_observe. Qed.
(** n rows of m values: n groups of m placeholders, values in row-major order. *)
Theorem C09_rectangular : forall r did d t cols vals vss, clean r -> d_cache d = [] ->
  (is_pg d = true -> pg_fragment t [] = true /\ forallb (fun c => pg_fragment c []) cols = true) -> t <> [] ->
  cols <> [] -> Forall (fun f => f <> []) cols -> Forall (fun v => length v = length cols) (vals :: vss) ->
  observe r did d (KInsertInto t) (map (row_call cols) (vals :: vss)) =
    Some (numbered d (insert_sql (d_nl d) t cols (S (length vss))), concat (vals :: vss), []).
Proof. exact rect_observe. Qed.
Example C09_rectangular_ex : observe new_stmt 0 ex_plain (KInsertInto (B "t")) (map (row_call [B "a"; B "b"]) [[AInt 1; AInt 2]; [AInt 3; AInt 4]]) =
  Some (B "INSERT INTO t ( a, b ) VALUES ( ?, ? ), ( ?, ? )", [AInt 1; AInt 2; AInt 3; AInt 4], []).
Proof. vm_compute. reflexivity. Qed.

(** ** C10 *)
Theorem C10_string_stable : forall d q d1 q1 s, stmt_string d q = Some (d1, q1, s) -> stmt_string d1 q1 = Some (d1, q1, s).
Proof. exact string_stable. Qed.
(** Any number of statements rendered in any order: each shows its cold text,
    provided statements with the same cache key have the same text. *)
Theorem C10_cache_transparent : forall d qs,
  (forall q, In q qs -> st_sql q = [] /\ render (is_pg d) q <> None) ->
  (forall q q', In q qs -> In q' qs -> cache_key q = cache_key q' -> render (is_pg d) q = render (is_pg d) q') ->
  (forall q s, In q qs -> get_cached d (cache_key q) = Some s -> render (is_pg d) q = Some s) ->
  exists d2 l, strings d qs = Some (d2, l) /\ map Some l = map (render (is_pg d)) qs.
Proof. intros. apply strings_cold; assumption. Qed.

(** The statements of the examples. *)
Definition ex_stmt (d : dialect) k cs : stmt := match build new_stmt 1 d k cs with Some q => q | None => new_stmt end.
Definition ex_q1 := ex_stmt ex_plain (KSelect (B "a") []) [CFrom (B "b") []].
Definition ex_q2 := ex_stmt ex_plain (KSelect (B "aFROM b") []) [].
Example C10_cache_transparent_ex : exists d2, strings ex_plain [ex_q1; ex_q1; ex_stmt ex_plain (KSelect (B "c") []) []] =
  Some (d2, [B "SELECT a FROM b"; B "SELECT a FROM b"; B "SELECT c"]).
Proof. eexists. vm_compute. reflexivity. Qed.

(** ** C11: false of the code.  Two unnamed statements with different clause
    boundaries but the same buffer share a cache entry. *)
Theorem C11_cache_collision_refuted : exists d1 d2,
  strings ex_plain [ex_q1; ex_q2] = Some (d1, [B "SELECT a FROM b"; B "SELECT a FROM b"]) /\
  strings ex_plain [ex_q2] = Some (d2, [B "SELECT aFROM b"]).
Proof. eexists _, _. vm_compute. split; reflexivity. Qed.
(** On postgres: a statement with a literal '?' and one with a bound '?'. *)
Theorem C11_cache_collision_pg_refuted : exists d1 d2,
  let qa := ex_stmt ex_pg (KSelect (B "j ? k") []) [] in
  let qb := ex_stmt ex_pg (KSelect (B "j ? k") [AInt 1]) [] in
  strings ex_pg [qa; qb] = Some (d1, [B "SELECT j ? k"; B "SELECT j ? k"]) /\ strings ex_pg [qb] = Some (d2, [B "SELECT j $1 k"]).
Proof. eexists _, _. vm_compute. split; reflexivity. Qed.

(** What does hold: a statement shows its own text unless one rendered before
    it has the same cache key: its name or, without one, everything written to
    it, in call order. *)
Theorem C11_other_keys_partial : forall d qs q d1 l d2 q2 s, strings d qs = Some (d1, l) -> (forall q', In q' qs -> cache_key q' <> cache_key q) ->
  get_cached d (cache_key q) = None -> st_sql q = [] -> stmt_string d1 q = Some (d2, q2, s) -> render (is_pg d) q = Some s.
Proof. exact string_after. Qed.
Example C11_other_keys_partial_ex : exists d1 d2 q2, strings ex_plain [ex_q1; ex_stmt ex_plain (KSelect (B "a") []) [CFrom (B "bb") []]] = Some (d1, [B "SELECT a FROM b"; B "SELECT a FROM bb"]) /\
  stmt_string d1 (ex_stmt ex_plain (KSelect (B "c") []) []) = Some (d2, q2, B "SELECT c").
Proof. eexists _, _, _. vm_compute. split; reflexivity. Qed.

(** ** C12: false of the code for named statements: the extension is not
    rendered although its argument is in Args(). *)
Theorem C12_extend_named_refuted : exists d1 q1 q2 d2 q3,
  stmt_string ex_pg (ex_stmt ex_pg (KSelect (B "x") []) [CSetName (B "n")]) = Some (d1, q1, B "SELECT x") /\
  calls q1 [CWhere (B "a = ?") [AInt 1]] = Some q2 /\
  stmt_string d1 q2 = Some (d2, q3, B "SELECT x") /\ st_args q3 = [AInt 1].
Proof. eexists _, _, _, _, _. vm_compute. repeat split; reflexivity. Qed.
Theorem C12_extend_unnamed_partial : forall d q d1 q1 s cs q2, d_cache d = [] -> st_name q = [] -> st_sql q = [] ->
  stmt_string d q = Some (d1, q1, s) -> forallb plain_clause cs = true -> calls q1 cs = Some q2 -> stmt_string d1 q2 <> None ->
  exists d2 q3 s2, stmt_string d1 q2 = Some (d2, q3, s2) /\ render (is_pg d) q2 = Some s2.
Proof. exact extend_fresh. Qed.
Example C12_extend_unnamed_partial_ex : exists d1 q1 q2 d2 q3,
  stmt_string ex_pg (ex_stmt ex_pg (KSelect (B "x") []) []) = Some (d1, q1, B "SELECT x") /\
  calls q1 [CWhere (B "a = ?") [AInt 1]] = Some q2 /\ stmt_string d1 q2 = Some (d2, q3, B "SELECT x WHERE a = $1").
Proof. eexists _, _, _, _, _. vm_compute. repeat split; reflexivity. Qed.

(** What happens instead: from the first String() on, a named statement shows
    that text whatever is added to it (until it is given another name). *)
Theorem C12_named_exact_partial : forall d q d1 q1 s cs q2, st_name q <> [] -> st_sql q = [] -> stmt_string d q = Some (d1, q1, s) ->
  (forall n, ~ In (CSetName n) cs) -> calls q1 cs = Some q2 -> exists q3, stmt_string d1 q2 = Some (d1, q3, s).
Proof. exact named_frozen. Qed.
Example C12_named_exact_partial_ex : exists d1 q1 q2 q3,
  stmt_string ex_pg (ex_stmt ex_pg (KSelect (B "x") []) [CSetName (B "n")]) = Some (d1, q1, B "SELECT x") /\
  calls q1 [CFrom (B "t") []; CInvalidate; CPaginate 2 3; CUnion true (B "z") []] = Some q2 /\ stmt_string d1 q2 = Some (d1, q3, B "SELECT x").
Proof. eexists _, _, _, _. vm_compute. repeat split; reflexivity. Qed.

(** ** C13 *)
Theorem C13_cached_name_no_create : forall d n c s, get_cached d n = Some s -> get_or_create d n c = Some (d, s, false).
Proof. intros d n c s H. unfold get_or_create. rewrite H. reflexivity. Qed.
Theorem C13_memoised : forall d n c d1 s called os d2 c2, n <> [] -> st_sql c = [] -> get_or_create d n c = Some (d1, s, called) ->
  (forall x, ~ In (OPut n x) os) -> cache_run d1 os = Some d2 -> get_or_create d2 n c2 = Some (d2, s, false).
Proof. exact goc_memo. Qed.
Example C13_memoised_ex : exists d1 d2, get_or_create ex_pg (B "n") ex_q1 = Some (d1, B "SELECT a FROM b", true) /\
  cache_run d1 [OPut (B "m") (B "z"); OString ex_q2; OGet (B "n") ex_q2; OGet (B "o") ex_q1] = Some d2 /\
  get_or_create d2 (B "n") ex_q2 = Some (d2, B "SELECT a FROM b", false).
Proof. eexists _, _. vm_compute. repeat split; reflexivity. Qed.

(** ** C14 *)
(** Clone() and the original show the same and answer every later sequence of
    explicit-clause calls alike. *)
Theorem C14_clone_alike : forall r d q cs, clean r -> st_nl q = d_nl d -> forallb names_clause cs = true ->
  d_cache d = [] \/ st_name q = [] ->
  (do q' <- clone r d q; do q2 <- calls q' cs; shown d q2) = (do q2 <- calls q cs; shown d q2).
Proof. intros r d q cs Hr Hn Hc [Hd|Hd]; [apply clone_alike|apply clone_alike_unnamed]; assumption. Qed.
Example C14_clone_alike_ex : (do q' <- clone new_stmt ex_plain ex_q1; do q2 <- calls q' [CWhere (B "x = ?") [AInt 1]]; shown ex_plain q2) =
  Some (B "SELECT a FROM b WHERE x = ?", [AInt 1], []).
Proof. vm_compute. reflexivity. Qed.

(** ** C15: false of the code. *)
(** Expr on the clone goes to another clause ... *)
Theorem C15_clone_position_refuted :
  (do q2 <- calls ex_q1 [CExpr (B "c") []]; shown ex_plain q2) = Some (B "SELECT a FROM b, c", [], []) /\
  (do q' <- clone new_stmt ex_plain ex_q1; do q2 <- calls q' [CExpr (B "c") []]; shown ex_plain q2) = Some (B "c SELECT a FROM b", [], []).
Proof. vm_compute. split; reflexivity. Qed.
(** ... and the new-line setting is lost. *)
Theorem C15_clone_newlines_refuted :
  let q := ex_stmt ex_plain (KSelect (B "a") []) [CUseNewLines true] in
  (do q2 <- calls q [CFrom (B "b") []]; shown ex_plain q2) = Some (B "SELECT a 
FROM b", [], []) /\
  (do q' <- clone new_stmt ex_plain q; do q2 <- calls q' [CFrom (B "b") []]; shown ex_plain q2) = Some (B "SELECT a FROM b", [], []).
Proof. vm_compute. split; reflexivity. Qed.

(** What does hold: a clone of an unnamed statement with the dialect's new-line
    setting becomes the original with the first call that names a clause; from
    then on every call, Expr and SubQuery included, does the same to both. *)
Theorem C15_positioned_partial : forall r d q c cs, clean r -> st_nl q = d_nl d -> st_name q = [] -> has_clause c = true ->
  (do q' <- clone r d q; calls q' (c :: cs)) = calls q (c :: cs).
Proof. exact clone_positioned. Qed.
Example C15_positioned_partial_ex : (do q' <- clone (reuse_stmt ex_q1) ex_plain ex_q1; do q2 <- calls q' [CWhere (B "x IN (") []; CExpr (B "y)") []]; shown ex_plain q2) =
  Some (B "SELECT a FROM b WHERE x IN (, y)", [], []).
Proof. vm_compute. reflexivity. Qed.

(** ** C16 *)
(** Objects coming from the pool are clean, and a statement built on a clean
    object is the one built on a new object (whatever position or name the
    object had); see also the world model. *)
Theorem C16_pool_clean : clean new_stmt /\ forall q, clean (reuse_stmt q).
Proof. split; [repeat split|exact reuse_clean]. Qed.
Theorem C16_pool_object_irrelevant : forall r did d k cs, clean r -> observe r did d k cs = observe new_stmt did d k cs.
Proof. intros r did d k cs H. unfold observe. rewrite (build_clean r did d k cs H). reflexivity. Qed.
Example C16_pool_object_irrelevant_ex : clean (reuse_stmt ex_q1) /\ reuse_stmt ex_q1 <> new_stmt.
Proof. split; [apply reuse_clean|]. vm_compute. discriminate. Qed.

(** Any program over any number of statements and dialects, in any order of
    steps: [arun] gives every variable a private statement value and has no
    pool; it is defined for programs that never use a closed statement and that
    name a clause before Expr/SubQuery on a clone.  The real machine [wrun]
    (heap objects, pool, the pooled object chosen by the oracle [picks]) then
    yields exactly the same texts, arguments and destinations. *)
Theorem C16_pool_invisible : forall d ops picks a ob, length picks = length ops -> arun (aworld0 d) ops = Some (a, ob) ->
  exists w, wrun (world0 d) (combine ops picks) = Some (w, ob).
Proof. exact pool_invisible. Qed.
Definition ex_dials (did : nat) : dialect := match did with 1%nat => ex_pg | _ => ex_plain end.
Definition ex_ops : list wop :=
  [WNew 1 1 (KSelect (B "a") []); WCall 1 (CFrom (B "t") []); WString 1; WClose 1;
   WNew 2 1 (KSelect (B "id") []); WCall 2 (CFrom (B "u") []); WCall 2 (CWhere (B "k = ?") [AInt 3]);
   WNew 3 1 (KSelect (B "b") []); WCall 3 (CLimit (AInt 9)); WCall 3 (CWhere (B "x = ?") [AInt 1]); WSub 3 (B "y IN (") (B ")") 2;
   WClone 3 4; WCall 4 (CWhere (B "z = ?") [AInt 7]); WString 3; WArgs 3; WString 4; WArgs 4].
Example C16_pool_invisible_ex : exists a w,
  arun (aworld0 ex_dials) ex_ops = Some (a,
    [OStr (B "SELECT a FROM t");
     OStr (B "SELECT b WHERE x = $1 AND y IN (SELECT id FROM u WHERE k = $2) LIMIT $3"); OArgs [AInt 1; AInt 3; AInt 9];
     OStr (B "SELECT b WHERE x = $1 AND y IN (SELECT id FROM u WHERE k = $2) AND z = $3 LIMIT $4"); OArgs [AInt 1; AInt 3; AInt 7; AInt 9]]) /\
  wrun (world0 ex_dials) (combine ex_ops (repeat (Some 0%nat) (length ex_ops))) = Some (w,
    [OStr (B "SELECT a FROM t");
     OStr (B "SELECT b WHERE x = $1 AND y IN (SELECT id FROM u WHERE k = $2) LIMIT $3"); OArgs [AInt 1; AInt 3; AInt 9];
     OStr (B "SELECT b WHERE x = $1 AND y IN (SELECT id FROM u WHERE k = $2) AND z = $3 LIMIT $4"); OArgs [AInt 1; AInt 3; AInt 7; AInt 9]]) /\
  w_next w = 2%nat.
Proof. eexists _, _. vm_compute. repeat split; reflexivity. Qed.

(** ** C17 *)
(** The inner statement is given by its dialect-neutral text [t] and Args [a].
    After a condition, SubQuery(p, x, inner) is Where(p + t + x, a...). *)
Theorem C17_subquery_in_where : forall r did d k cs1 c p x t a cs2, p <> [] -> is_clause (B "WHERE") c = true ->
  observe r did d k (cs1 ++ c :: CSubQuery p x t a :: cs2) = observe r did d k (cs1 ++ c :: CWhere (p ++ t ++ x) a :: cs2).
Proof. exact observe_where_sub. Qed.
(** After any other clause it is Expr(p + t + x, a...). *)
Theorem C17_subquery_elsewhere : forall r did d k cs1 c cl p x t a cs2, p <> [] -> clause_of c = Some cl -> cl <> B "WHERE" ->
  observe r did d k (cs1 ++ c :: CSubQuery p x t a :: cs2) = observe r did d k (cs1 ++ c :: CExpr (p ++ t ++ x) a :: cs2).
Proof. exact observe_expr_sub. Qed.
Example C17_subquery_ex : observe new_stmt 1 ex_pg (KSelect (B "x") []) [CLimit (AInt 9); CWhere (B "a = ?") [AInt 1]; CSubQuery (B "b IN (") (B ")") (B "SELECT y WHERE z = ?") [AInt 2]; CGroupBy (B "g")] =
  Some (B "SELECT x WHERE a = $1 AND b IN (SELECT y WHERE z = $2) GROUP BY g LIMIT $3", [AInt 1; AInt 2; AInt 9], []).
Proof. vm_compute. reflexivity. Qed.

(** With: C01_full_statement, where WITH is the first clause and each With one
    of its expressions.  Union goes after everything written so far. *)
Theorem C17_union : forall r did d k cs all t a, clean r -> d_cache d = [] -> renderable d k (cs ++ [CUnion all t a]) = true ->
  ok_build (d_nl d) k cs = true ->
  let s := spec_build (d_nl d) k cs in
  observe r did d k (cs ++ [CUnion all t a]) =
  Some (numbered d (trim sql_ws (spec_text (s_hist s) ++ B " " ++ (if s_nl s then [ch 10] else []) ++ (if all then B "UNION ALL " else B "UNION ") ++ t)),
        spec_args (s_hist s) ++ a, s_dest s).
Proof. exact union_last. Qed.
Example C17_union_ex : observe new_stmt 1 ex_pg (KSelect (B "x") []) (ex_calls ++ [CUnion true (B "SELECT y WHERE z = ?") [AInt 9]]) =
  Some (B "SELECT x, c FROM t WHERE a = $1 AND b > $2 ORDER BY a, b LIMIT $3 UNION ALL SELECT y WHERE z = $4", [AInt 1; AInt 2; AInt 5; AInt 9], []).
Proof. vm_compute. reflexivity. Qed.

(** On real objects (the inner statement's neutral text is rendered, it is then
    closed and may be reused at once): C16_pool_invisible, whose abstract steps
    WSub/WWith/WUnion are the calls above applied to [aneutral]. *)
Theorem C17_inner_neutral : forall a u a' t ia, aneutral a u = Some (a', t, ia) ->
  exists q k q1 d', a_vars a u = Some (q, k) /\ ia = st_args q /\ a_vars a' u = None /\
  q1 = (if (st_dialect q =? 0)%nat then q else invalidate (set_dialect q 0)) /\ stmt_string (a_dial a 0%nat) q1 = Some (d', t).
Proof.
  intros a u a' t ia H. unfold aneutral in H. destruct (a_vars a u) as [[q k]|] eqn:E; [|discriminate]. cbn [bind] in H.
  destruct (stmt_string _ _) as [[x s]|] eqn:ES; [|discriminate]. cbn [bind] in H. injection H as <- <- <-.
  eexists q, k, _, x. split; [reflexivity|]. split; [reflexivity|]. split; [cbn; rewrite upd_same; reflexivity|]. split; [reflexivity|exact ES].
Qed.

(** ** C18: false of the code.  The inner arguments overwrite those of the
    clause, and the text after the clause is swallowed twice. *)
Theorem C18_empty_prefix_refuted :
  observe new_stmt 0 ex_plain (KSelect (B "x") []) [CFrom (B "t") []; CWhere (B "a = ? AND b IN ") [AInt 1]; CSubQuery [] [] (B "(SELECT y WHERE z = ?)") [AInt 2]] =
  Some (B "SELECT x FROM t WHERE a = ? AND b IN (SELECT y WHERE z = ?)", [AInt 2], []).
Proof. vm_compute. reflexivity. Qed.

(** What does hold: right after the expression it continues, and for an inner
    statement without arguments, SubQuery("", x, inner) extends that expression. *)
Theorem C18_no_args_partial : forall r did d k cs1 c c' t x cs2, continued c (t ++ x) = Some c' -> expression c <> [] ->
  observe r did d k (cs1 ++ c :: CSubQuery [] x t [] :: cs2) = observe r did d k (cs1 ++ c' :: cs2).
Proof. exact empty_prefix_continues. Qed.
Example C18_no_args_partial_ex : observe new_stmt 1 ex_pg (KSelect (B "x") []) [CLimit (AInt 3); CWhere (B "a = ? AND b IN (") [AInt 1]; CSubQuery [] (B ")") (B "SELECT y") []; CFrom (B "t") []] =
  Some (B "SELECT x FROM t WHERE a = $1 AND b IN (SELECT y) LIMIT $2", [AInt 1; AInt 3], []).
Proof. vm_compute. reflexivity. Qed.

(** What happens with arguments: the text is the wanted one, but the statement
    has no more arguments than without the inner statement, in every dialect
    and whatever is called before and after. *)
Theorem C18_lost_exact_partial : forall r did d k cs1 c c' t x a cs2 s args ds, continued c (t ++ x) = Some c' -> expression c <> [] ->
  observe r did d k (cs1 ++ c :: CSubQuery [] x t a :: cs2) = Some (s, args, ds) ->
  exists args', observe r did d k (cs1 ++ c' :: cs2) = Some (s, args', ds) /\ length args' = length args.
Proof. exact empty_prefix_loses. Qed.
Example C18_lost_exact_partial_ex :
  observe new_stmt 1 ex_pg (KSelect (B "x") []) [CLimit (AInt 3); CWhere (B "a = ? AND b IN (") [AInt 1]; CSubQuery [] (B ")") (B "SELECT y WHERE u = ? AND v = ?") [AInt 7; AInt 8]] =
    Some (B "SELECT x WHERE a = $1 AND b IN (SELECT y WHERE u = $2 AND v = $3) LIMIT $4", [AInt 7; AInt 8], []).
Proof. vm_compute. reflexivity. Qed.

(** ** C19 *)
Theorem C19_set_on_insert : forall r did d t sets, clean r -> d_cache d = [] ->
  renderable d (KInsertInto t) (map (fun x => CSetExpr (fst (fst x)) (snd (fst x)) (snd x)) sets) = true -> t <> [] -> sets <> [] ->
  Forall (fun f => f <> []) (row_cols sets) -> Forall (fun x : bytes * bytes * list goany => snd (fst x) <> []) sets ->
  observe r did d (KInsertInto t) (map (fun x => CSetExpr (fst (fst x)) (snd (fst x)) (snd x)) sets) =
    Some (numbered d (insert_text (d_nl d) t (row_cols sets) (row_text sets)), concat (map snd sets), []).
Proof. exact insert_sets_observe. Qed.
(** On UPDATE: C01_user_statement with [CSet]/[CSetExpr] parts in the SET
    clause.  On any other statement: *)
Theorem C19_set_elsewhere : forall r did d k cs1 f e a cs2, clean r -> no_verb_ctor k = true -> forallb no_verb cs1 = true ->
  observe r did d k (cs1 ++ CSetExpr f e a :: cs2) = observe r did d k (cs1 ++ cs2).
Proof. exact set_nothing. Qed.
Example C19_update_ex : observe new_stmt 1 ex_pg (KUpdate (B "t")) [CWhere (B "i = ?") [AInt 7]; CSet (B "a") (AInt 1); CSetExpr (B "b") (B "b + ?") [AInt 2]] =
  Some (B "UPDATE t SET a=$1, b=b + $2 WHERE i = $3", [AInt 1; AInt 2; AInt 7], []).
Proof. vm_compute. reflexivity. Qed.
Example C19_insert_ex : observe new_stmt 0 ex_plain (KInsertInto (B "t")) [CSetExpr (B "a") (B "?") [AInt 1]; CSetExpr (B "b") (B "now()") []] =
  Some (B "INSERT INTO t ( a, b ) VALUES ( ?, now() )", [AInt 1], []).
Proof. vm_compute. reflexivity. Qed.
Example C19_elsewhere_ex : no_verb_ctor (KSelect (B "x") []) = true /\ forallb no_verb [CFrom (B "t") []] = true.
Proof. split; reflexivity. Qed.

(** ** C20 *)
(** Bind is Select(column).To(&field) for each tagged field, flattened. *)
Theorem C20_bind : forall r did d k cs1 fs cs2,
  observe r did d k (cs1 ++ CBind fs :: cs2) =
  observe r did d k (cs1 ++ flat_map (fun x => [CSelect (fst x) []; CTo [snd x]]) (flat_map bind_leaves fs) ++ cs2).
Proof. exact bind_observe. Qed.
Theorem C20_from_bind : forall r did d t fs, clean r -> d_cache d = [] -> renderable d (KFrom t []) [CBind fs] = true -> t <> [] ->
  flat_map bind_leaves fs <> [] -> Forall (fun x => fst x <> []) (flat_map bind_leaves fs) ->
  observe r did d (KFrom t []) [CBind fs] =
  Some (numbered d (user_sql (d_nl d) (CFrom t [] :: map (fun x => CSelect (fst x) []) (flat_map bind_leaves fs))), [], map snd (flat_map bind_leaves fs)).
Proof. exact from_bind. Qed.
Example C20_bind_ex : observe new_stmt 0 ex_plain (KFrom (B "t") []) [CBind [BLeaf (B "id,int8") 1; BEmbedded [BLeaf (B "") 2; BLeaf (B "name") 3]; BLeaf (B "x") 4]] =
  Some (B "SELECT id, name, x FROM t", [], [1; 3; 4]).
Proof. vm_compute. reflexivity. Qed.

(** ** C21: false of the code.  The tenth Clause after WHERE takes the rank of
    GROUP BY, whose keyword is then lost. *)
Theorem C21_clause_collision_refuted :
  observe new_stmt 0 ex_plain (KSelect (B "x") []) ([CWhere (B "a") []] ++ repeat (CClause (B "c") []) 10 ++ [CGroupBy (B "g")]) =
  Some (B "SELECT x WHERE a c c c c c c c c c c g", [], []).
Proof. vm_compute. reflexivity. Qed.
(** True when Clause is the last call. *)
Theorem C21_clause_last_partial : forall r did d k cs e a, clean r -> d_cache d = [] -> renderable d k (cs ++ [CClause e a]) = true ->
  ok_build (d_nl d) k cs = true -> e <> [] ->
  let s := spec_build (d_nl d) k cs in
  observe r did d k (cs ++ [CClause e a]) =
  Some (numbered d (trim sql_ws (spec_text (s_hist s) ++ B " " ++ (if s_nl s then [ch 10] else []) ++ e)), spec_args (s_hist s) ++ a, s_dest s).
Proof. exact clause_last. Qed.
Example C21_clause_last_partial_ex : observe new_stmt 0 ex_plain (KSelect (B "x") []) (ex_calls ++ [CClause (B "FOR UPDATE SKIP ?") [AInt 9]]) =
  Some (B "SELECT x, c FROM t WHERE a = ? AND b > ? ORDER BY a, b LIMIT ? FOR UPDATE SKIP ?", [AInt 1; AInt 2; AInt 5; AInt 9], []).
Proof. vm_compute. reflexivity. Qed.

(** ** C77: false of the code.  A second Close through a stale variable, after
    the object has been handed out again, returns an object in use to the pool:
    two statements then share it. *)
Definition ex_double : list (wop * option nat) :=
  [(WNew 1 0 (KSelect (B "a") []), None); (WClose 1, None);
   (WNew 2 0 (KSelect (B "b") []), Some 0%nat);   (* same object *)
   (WClose 1, None);                              (* stale *)
   (WNew 3 0 (KSelect (B "c") []), Some 0%nat);   (* same object again *)
   (WString 2, None)].
Theorem C77_double_close_refuted : exists w, wrun (world0 ex_dials) ex_double = Some (w, [OStr (B "SELECT c")]).
Proof. eexists. vm_compute. reflexivity. Qed.
(** If the object has not been handed out again, the second Close panics. *)
Theorem C77_double_close_partial : forall w v w1 ob, wstep w (WClose v) None = Some (w1, ob) -> wstep w1 (WClose v) None = None.
Proof.
  intros w v w1 ob H. cbn [wstep] in *. destruct (w_vars w v) as [i|] eqn:E; [|discriminate]. cbn [bind] in H.
  destruct (close_obj w i) as [w2|] eqn:EC; [|discriminate]. cbn [bind] in H. injection H as <- <-.
  unfold close_obj in EC. destruct (open_stmt w i); [|discriminate]. cbn [bind] in EC. injection EC as <-. cbn. rewrite E. cbn [bind].
  unfold close_obj, open_stmt. cbn. rewrite upd_same. reflexivity.
Qed.
Example C77_double_close_partial_ex : exists w x, wrun (world0 ex_dials) [(WNew 1 0 (KSelect (B "a") []), None)] = Some (w, []) /\ wstep w (WClose 1) None = Some x.
Proof. eexists _, _. vm_compute. split; reflexivity. Qed.

(** ** C22 *)
(** [query]: the statement's text and arguments are passed once to the database;
    on success the handler runs once per row in order, up to the first row that
    cannot be scanned; scans go to the statement's destinations, each before
    its handler call; Close is called exactly once, last; the error is the first
    of close, scan and iteration error. *)
Theorem C22_query : forall d q db handler d1 q1 t e, query d q db handler = Some (d1, q1, t, e) ->
  exists s, shown d q = Some (s, st_args q1, st_dest q1) /\ queries t = [(s, st_args q1)] /\
  match db s (st_args q1) with
  | inr err => t = [EvQuery s (st_args q1)] /\ e = Some err
  | inl rs => closes t = 1%nat /\ (exists t', t = t' ++ [EvClose]) /\
              handles t = (if handler then seq 0 (visited (st_dest q1) (rs_rows rs)) else []) /\
              scans_into t (st_dest q1) /\ StronglySorted lt (keys t) /\
              e = first_some [rs_close rs; match st_dest q1 with [] => None | _ => first_scan_err (rs_rows rs) end; rs_err rs]
  end.
Proof. exact query_spec. Qed.
Example C22_query_ex : exists d1 q1, query ex_plain (ex_stmt ex_plain (KSelect (B "a") []) [CTo [5]]) (fun _ _ => inl (mkRows [None; None; Some 9; None] None None)) true =
  Some (d1, q1, [EvQuery (B "SELECT a") []; EvScan 0 [5]; EvHandle 0; EvScan 1 [5]; EvHandle 1; EvScan 2 [5]; EvClose], Some 9).
Proof. eexists _, _. vm_compute. reflexivity. Qed.

(** C19 on UPDATE: SetExpr(f, e, a...) (Set(f, v) is SetExpr(f, "?", v)) appends
    f=e to the SET list, in call order, whatever conditions surround it. *)
Definition set_call (x : bytes * bytes * list goany) : bcall := CSetExpr (fst (fst x)) (snd (fst x)) (snd x).
Definition set_item (x : bytes * bytes * list goany) : bytes := fst (fst x) ++ B "=" ++ snd (fst x).
Definition update_text (nl : bool) (t : bytes) (items conds : list bytes) : bytes :=
  let n := if nl then [ch 10] else [] in
  trim sql_ws (n ++ B "UPDATE " ++ t ++ B " " ++ n ++ B "SET " ++ join (B ", ") items ++
    match conds with [] => [] | _ => B " " ++ n ++ B "WHERE " ++ join (B " AND ") conds end).
Lemma parts_map : forall cl {X} (f : X -> bcall) (g : X -> bytes) (h : X -> list goany) cl' l, (forall x, part (f x) = Some (cl', g x, h x)) ->
  parts cl (map f l) = if clause_eqb cl cl' then map (fun x => (g x, h x)) l else [].
Proof.
  intros cl X f g h cl' l Hf. unfold parts. induction l as [|x l IH]; cbn [map flat_map]; [destruct (clause_eqb cl cl'); reflexivity|].
  rewrite IH, Hf. destruct (clause_eqb cl cl'); reflexivity.
Qed.
Theorem C19_set_on_update : forall r did d t sets conds, clean r -> d_cache d = [] -> t <> [] -> sets <> [] ->
  Forall (fun x : bytes * list goany => fst x <> []) conds ->
  let cs := map set_call sets ++ map (fun x => CWhere (fst x) (snd x)) conds in
  renderable d (KUpdate t) cs = true ->
  observe r did d (KUpdate t) cs =
    Some (numbered d (update_text (d_nl d) t (map set_item sets) (map fst conds)), concat (map snd sets) ++ concat (map snd conds), []).
Proof.
  intros r did d t sets conds Hr Hd Ht Hs Hc cs Hn.
  rewrite (C01_user_statement r did d (KUpdate t) (CUpdate t) cs Hr Hd eq_refl); [|clear Hn|exact Hn].
  - assert (PS : forall cl, parts cl (CUpdate t :: cs) =
      (if clause_eqb cl ClUpdate then [(t, [])] else []) ++ (if clause_eqb cl ClSet then map (fun x => (set_item x, snd x)) sets else []) ++
      (if clause_eqb cl ClWhere then map (fun x => (fst x, snd x)) conds else [])).
    { intros cl. unfold cs. change (CUpdate t :: map set_call sets ++ map (fun x => CWhere (fst x) (snd x)) conds)
        with ([CUpdate t] ++ map set_call sets ++ map (fun x => CWhere (fst x) (snd x)) conds).
      rewrite <- (parts_map cl set_call set_item snd ClSet sets) by reflexivity.
      rewrite <- (parts_map cl (fun x => CWhere (fst x) (snd x)) fst snd ClWhere conds) by reflexivity.
      unfold parts at 1. rewrite !flat_map_app. f_equal. cbn. destruct cl; reflexivity. }
    f_equal. f_equal. f_equal.
    + f_equal. unfold user_sql, update_text. f_equal. unfold u_clause_text.
      rewrite (flat_map_ext _ (fun cl => match (if clause_eqb cl ClUpdate then [(t, [])] else []) ++ (if clause_eqb cl ClSet then map (fun x => (set_item x, snd x)) sets else []) ++
        (if clause_eqb cl ClWhere then map (fun x => (fst x, snd x)) conds else []) with [] => [] | ps => [(if d_nl d then [ch 10] else []) ++ keyword cl ++
           match cl with ClLimit | ClOffset => [] | _ => B " " ++ join (separator cl) (map fst ps) end] end)); [|intros cl; rewrite PS; reflexivity].
      cbn [flat_map clause_order clause_eqb app keyword separator].
      destruct sets as [|s0 sets]; [contradiction|]. rewrite !app_nil_r. cbn [map fst snd]. rewrite !map_map. cbn [fst].
      destruct conds as [|c0 conds].
      * cbn [map app join fst snd]. rewrite <- !app_assoc. cbn [app]. rewrite ?app_nil_r. reflexivity.
      * cbn [map app fst snd]. rewrite !map_map. cbn [fst]. cbn [join app]. rewrite <- ?app_assoc. reflexivity.
    + unfold user_args, u_clause_args. rewrite (flat_map_ext _ (fun cl => match cl with ClLimit | ClOffset => last (map snd (parts cl (CUpdate t :: cs))) [] | _ => concat (map snd
        ((if clause_eqb cl ClUpdate then [(t, [])] else []) ++ (if clause_eqb cl ClSet then map (fun x => (set_item x, snd x)) sets else []) ++
        (if clause_eqb cl ClWhere then map (fun x => (fst x, snd x)) conds else []))) end)); [|intros []; rewrite ?PS; reflexivity].
      cbn [flat_map clause_order clause_eqb app]. rewrite !PS. cbn [clause_eqb app map last concat]. rewrite !app_nil_r, !map_map. reflexivity.
  - unfold cs. cbn [forallb dml_call is_update]. rewrite forallb_app. destruct t; [contradiction|]. cbn [is_empty negb andb].
    apply andb_true_iff. split; apply forallb_forall; intros c Hin; apply in_map_iff in Hin as (x & <- & Hin); [reflexivity|].
    rewrite Forall_forall in Hc. specialize (Hc _ Hin). cbn [dml_call]. destruct (fst x); [contradiction|reflexivity].
Qed.
Example C19_set_on_update_ex : renderable ex_pg (KUpdate (B "t")) (map set_call [(B "a", B "?", [AInt 1]); (B "b", B "b + ?", [AInt 2])] ++ map (fun x => CWhere (fst x) (snd x)) [(B "i = ?", [AInt 7])]) = true /\
  update_text false (B "t") [B "a=?"; B "b=b + ?"] [B "i = ?"] = B "UPDATE t SET a=?, b=b + ? WHERE i = ?".
Proof. vm_compute. split; reflexivity. Qed.

Theorem C19_set_is_set_expr : forall r did d k cs1 f v cs2,
  observe r did d k (cs1 ++ CSet f v :: cs2) = observe r did d k (cs1 ++ CSetExpr f (B "?") [v] :: cs2).
Proof. intros r did d k cs1 f v cs2. unfold observe, build. destruct (construct (get_stmt r did d) k) as [q|]; [|reflexivity]. cbn [bind]. rewrite !calls_app. destruct (calls q cs1); reflexivity. Qed.

(** C21, what does hold: with at most nine Clause calls, the statement is laid out
    as XsqlClauseSpec says - text and arguments, whatever the order of the calls. *)
Theorem C21_layout_partial : forall r did d k c0 cs, clean r -> d_cache d = [] -> start_call k = Some c0 ->
  forallb (dml_or_clause (is_update k)) (c0 :: cs) = true -> (length (filter own_clause cs) <= 9)%nat -> renderable d k cs = true ->
  observe r did d k cs = Some (numbered d (laid_sql (d_nl d) (c0 :: cs)), laid_args (c0 :: cs), []).
Proof. intros r did d k c0 cs H1 H2 H3 H4 H5 H6. apply lay_observe; try assumption. unfold owns. lia. Qed.
(** In that layout the expression given to Clause comes after everything present
    when it was called, in unchanged order, and the clauses of SQL stay in SQL
    order, whatever is called afterwards. *)
Theorem C21_layout_meaning_partial : forall cs1 e a cs2,
  (exists l1 l2, layout (cs1 ++ CClause e a :: cs2) = l1 ++ Extra e a :: l2 /\ sublist (layout cs1) l1) /\
  Sorted.StronglySorted (fun x y => follows y x = true) (stds (layout (cs1 ++ CClause e a :: cs2))).
Proof. intros cs1 e a cs2. split; [apply layout_after|apply layout_order]. Qed.
Definition ex_own : list bcall :=
  [CFrom (B "t") []; CClause (B "TABLESAMPLE SYSTEM (?)") [AInt 5]; CLimit (AInt 3); CClause (B "FOR UPDATE OF ?") [AInt 9]; CWhere (B "a = ?") [AInt 1]; CSelect (B "y") []; CReturning (B "z")].
Example C21_layout_partial_ex : forallb (dml_or_clause false) (CSelect (B "x") [] :: ex_own) = true /\ renderable ex_pg (KSelect (B "x") []) ex_own = true /\
  layout (CSelect (B "x") [] :: ex_own) = [Std ClSelect; Std ClFrom; Extra (B "TABLESAMPLE SYSTEM (?)") [AInt 5]; Std ClWhere; Std ClLimit; Extra (B "FOR UPDATE OF ?") [AInt 9]; Std ClReturning] /\
  observe new_stmt 1 ex_pg (KSelect (B "x") []) ex_own =
  Some (B "SELECT x, y FROM t TABLESAMPLE SYSTEM ($1) WHERE a = $2 LIMIT $3 FOR UPDATE OF $4 RETURNING z", [AInt 5; AInt 1; AInt 3; AInt 9], []).
Proof. vm_compute. repeat split; reflexivity. Qed.

(** C15, exactly what a clone is when the next call names its clause: the
    original after SetName("") and UseNewLines(the dialect's setting) - whatever
    name, new-line setting and position the original has. *)
Theorem C15_exact_partial : forall r d q c cs, clean r -> has_clause c = true ->
  (do q' <- clone r d q; calls q' (c :: cs)) = calls q (CSetName [] :: CUseNewLines (d_nl d) :: c :: cs).
Proof.
  intros r d q c cs Hr Hc. cbn [calls call bind]. set (q0 := set_nl (set_name q []) (d_nl d)).
  transitivity (do q' <- clone r d q0; calls q' (c :: cs)).
  - assert (E : clone r d q = clone r d q0) by (unfold clone, q0; destruct q; reflexivity). rewrite E. reflexivity.
  - rewrite (C15_positioned_partial r d q0 c cs Hr eq_refl eq_refl Hc). reflexivity.
Qed.

(** ** C06, directly: the one clause and its argument *)
(** The calls that set the limit ([o = false]) or the offset. *)
Definition sets_page (o : bool) (c : bcall) : bool :=
  match c with CLimit _ => negb o | COffset _ => o | CPaginate p _ => negb o || (1 <? p) | _ => false end.
Definition before_page (o : bool) : list fclause :=
  [FWith; FDelete; FUpdate; FSet; FSelect; FFrom; FWhere; FGroupBy; FHaving; FOrderBy] ++ (if o then [FLimit] else []).
Definition after_page (o : bool) : list fclause := (if o then [] else [FOffset]) ++ [FReturning].
Lemma page_items o b : existsb (sets_page o) b = false -> of_clause (if o then FOffset else FLimit) b = [].
Proof.
  induction b as [|c b IH]; intros H; [reflexivity|]. cbn [existsb] in H. apply orb_false_iff in H as [H1 H2]. unfold of_clause in *. cbn [flat_map]. rewrite filter_app, (IH H2), app_nil_r.
  destruct c; try reflexivity; try (destruct o; reflexivity); cbn [items sets_page] in *; destruct o; cbn [negb orb] in H1; try discriminate H1; try reflexivity;
    try (rewrite H1; reflexivity); match goal with |- context [flat_map bind_leaves ?l] => induction (flat_map bind_leaves l) as [|x l' IHl]; [reflexivity|exact IHl] end.
Qed.
Lemma of_clause_app cl a b : of_clause cl (a ++ b) = of_clause cl a ++ of_clause cl b.
Proof. unfold of_clause. rewrite flat_map_app, filter_app. reflexivity. Qed.
(** If [page_call o v] is the last call that sets the limit (offset), the text has
    one LIMIT ? (OFFSET ?) in its place and the argument there is [v]. *)
Theorem C06_one_clause : forall r did d k c0 cs a o v b, clean r -> d_cache d = [] -> full_start k = Some c0 ->
  forallb (full_call (updates k)) (c0 :: cs) = true -> opened_first false false (c0 :: cs) = true -> renderable d k cs = true ->
  c0 :: cs = a ++ page_call o v :: b -> existsb (sets_page o) b = false ->
  let texts := flat_map (fun cl => f_text (d_nl d) cl (of_clause cl (c0 :: cs))) in
  let args := flat_map (fun cl => f_args cl (of_clause cl (c0 :: cs))) in
  observe r did d k cs =
    Some (numbered d (trim sql_ws (join (B " ") (texts (before_page o) ++ [(if d_nl d then [ch 10] else []) ++ (if o then B "OFFSET ?" else B "LIMIT ?")] ++ texts (after_page o)))),
          args (before_page o) ++ [v] ++ args (after_page o), full_dest (c0 :: cs)).
Proof.
  intros r did d k c0 cs a o v b Hr Hd Hk Hf Ho Hn E Hb texts args. rewrite (C01_full_statement r did d k c0 cs Hr Hd Hk Hf Ho Hn).
  assert (P : exists is i, of_clause (if o then FOffset else FLimit) (c0 :: cs) = is ++ [i] /\ i_args i = [v]).
  { rewrite E, of_clause_app. change (page_call o v :: b) with ([page_call o v] ++ b). rewrite of_clause_app, (page_items o b Hb), app_nil_r. exists (of_clause (if o then FOffset else FLimit) a).
    destruct o; eexists; (split; [f_equal; reflexivity|reflexivity]). }
  destruct P as (is & i & P & Iv).
  assert (T : f_text (d_nl d) (if o then FOffset else FLimit) (of_clause (if o then FOffset else FLimit) (c0 :: cs)) = [(if d_nl d then [ch 10] else []) ++ (if o then B "OFFSET ?" else B "LIMIT ?")]).
  { rewrite P. destruct is as [|j is]; destruct o; cbn [app f_text paging]; rewrite app_nil_r; reflexivity. }
  assert (A : f_args (if o then FOffset else FLimit) (of_clause (if o then FOffset else FLimit) (c0 :: cs)) = [v]).
  { rewrite P. destruct o; unfold f_args; cbn [paging]; rewrite map_app; cbn [map]; rewrite last_last, Iv; reflexivity. }
  assert (O : forder = before_page o ++ [if o then FOffset else FLimit] ++ after_page o) by (destruct o; reflexivity).
  assert (G1 : full_sql (d_nl d) (c0 :: cs) = trim sql_ws (join (B " ") (texts (before_page o) ++ [(if d_nl d then [ch 10] else []) ++ (if o then B "OFFSET ?" else B "LIMIT ?")] ++ texts (after_page o)))).
  { unfold full_sql, texts. rewrite O, !flat_map_app, <- T. cbn [flat_map]. rewrite !app_nil_r. reflexivity. }
  assert (G2 : full_args (c0 :: cs) = args (before_page o) ++ [v] ++ args (after_page o)).
  { unfold full_args, args. rewrite O, !flat_map_app, <- A. cbn [flat_map]. rewrite !app_nil_r. reflexivity. }
  rewrite G1, G2. reflexivity.
Qed.
Example C06_one_clause_ex : existsb (sets_page false) [CPaginate 1 5] = true /\
  observe new_stmt 1 ex_plain (KSelect (B "x") []) [CLimit (AInt 9); CPaginate 3 20; CLimit (AInt 4); CFrom (B "t") []] = Some (B "SELECT x FROM t LIMIT ? OFFSET ?", [AInt 4; AInt 40], []) /\
  CSelect (B "x") [] :: [CLimit (AInt 9); CPaginate 3 20; CLimit (AInt 4); CFrom (B "t") []] = [CSelect (B "x") []; CLimit (AInt 9); CPaginate 3 20] ++ page_call false (AInt 4) :: [CFrom (B "t") []] /\
  forallb (full_call false) (CSelect (B "x") [] :: [CLimit (AInt 9); CPaginate 3 20; CLimit (AInt 4); CFrom (B "t") []]) = true.
Proof. vm_compute. repeat split; reflexivity. Qed.

(** Exactly: a statement shows the text of the first statement, of those shown so far,
    that has its cache key. *)
Lemma strings_first pg qs : forall seen d, is_pg d = pg -> (forall k, get_cached d k = match find (fun q => beqb (cache_key q) k) seen with Some q => render pg q | None => None end) ->
  (forall q, In q seen -> render pg q <> None) -> (forall q, In q qs -> st_sql q = [] /\ render pg q <> None) ->
  exists d2 l, strings d qs = Some (d2, l) /\ map Some l = map (fun q => match find (fun q' => beqb (cache_key q') (cache_key q)) (seen ++ qs) with Some q' => render pg q' | None => None end) qs.
Proof.
  induction qs as [|q r IH]; intros seen d Hp G Hs H; [exists d, []; split; reflexivity|].
  destruct (H q (or_introl eq_refl)) as [Hq Rq]. cbn [strings]. unfold stmt_string. rewrite Hq. cbn [is_empty]. rewrite G, Hp.
  assert (FA : forall (f : stmt -> bool) l l', find f (l ++ l') = match find f l with Some x => Some x | None => find f l' end).
  { intros f l l'. induction l as [|x l IHl]; [reflexivity|]. cbn [app find]. destruct (f x); [reflexivity|exact IHl]. }
  assert (NX : forall s d', is_pg d' = pg -> (forall k, get_cached d' k = match find (fun q => beqb (cache_key q) k) (seen ++ [q]) with Some q => render pg q | None => None end) ->
    match find (fun q' => beqb (cache_key q') (cache_key q)) (seen ++ q :: r) with Some q' => render pg q' | None => None end = Some s ->
    exists d2 l, (do (d2, l) <- strings d' r; Some (d2, s :: l)) = Some (d2, l) /\
      map Some l = map (fun q0 => match find (fun q' => beqb (cache_key q') (cache_key q0)) (seen ++ q :: r) with Some q' => render pg q' | None => None end) (q :: r)).
  { intros s d' Hp' G' Hf. destruct (IH (seen ++ [q]) d' Hp' G') as (d2 & l & E & M).
    - intros q' [I|[<-|[]]]%in_app_or; [apply Hs, I|exact Rq].
    - intros q' I. apply H. right. exact I.
    - rewrite E. cbn [bind]. exists d2, (s :: l). split; [reflexivity|]. cbn [map]. rewrite Hf, M, <- app_assoc. reflexivity. }
  destruct (find (fun q' => beqb (cache_key q') (cache_key q)) seen) as [q0|] eqn:F.
  - assert (I0 : In q0 seen) by (apply (find_some _ _ F)). destruct (render pg q0) as [s|] eqn:R0; [|exfalso; apply (Hs q0 I0), R0].
    cbn [bind fst]. apply NX; [exact Hp| |rewrite FA, F; exact R0].
    intros k. rewrite G, FA. destruct (find (fun q => beqb (cache_key q) k) seen) as [q1|] eqn:F1; [reflexivity|]. cbn [find]. destruct (beqb (cache_key q) k) eqn:Ek; [|reflexivity].
    apply beqb_eq' in Ek. subst k. rewrite F in F1. discriminate.
  - destruct (render pg q) as [s|] eqn:R; [|congruence]. cbn [bind fst]. apply NX; [exact Hp| |].
    + intros k. rewrite FA. destruct (list_eq_dec ascii_dec k (cache_key q)) as [->|N].
      * rewrite F, put_get. cbn [find]. rewrite (proj2 (beqb_eq' _ _) eq_refl). symmetry. exact R.
      * rewrite put_get_other by exact N. rewrite G. destruct (find (fun q => beqb (cache_key q) k) seen); [reflexivity|]. cbn [find]. destruct (beqb (cache_key q) k) eqn:Ek; [|reflexivity]. apply beqb_eq' in Ek. congruence.
    + rewrite FA, F. cbn [find]. rewrite (proj2 (beqb_eq' _ _) eq_refl). exact R.
Qed.
Theorem C11_exact_partial : forall d qs, d_cache d = [] -> (forall q, In q qs -> st_sql q = [] /\ render (is_pg d) q <> None) ->
  exists d2 l, strings d qs = Some (d2, l) /\ length l = length qs /\
    forall i q, nth_error qs i = Some q -> exists q0, find (fun q' => beqb (cache_key q') (cache_key q)) qs = Some q0 /\ nth_error (map Some l) i = Some (render (is_pg d) q0).
Proof.
  intros d qs Hc H. destruct (strings_first (is_pg d) qs [] d eq_refl) as (d2 & l & E & M); [intros k; unfold get_cached; rewrite Hc; reflexivity|intros q []|exact H|].
  exists d2, l. split; [exact E|]. split; [rewrite <- (map_length Some l), M, map_length; reflexivity|]. intros i q Hi. cbn [app] in M.
  destruct (find (fun q' => beqb (cache_key q') (cache_key q)) qs) as [q0|] eqn:F.
  - exists q0. split; [reflexivity|]. rewrite M, nth_error_map, Hi. cbn [option_map]. rewrite F. reflexivity.
  - exfalso. pose proof (find_none _ _ F q (nth_error_In _ _ Hi)) as K. cbv beta in K. rewrite (proj2 (beqb_eq' _ _) eq_refl) in K. discriminate.
Qed.
Example C11_exact_ex : exists d2, strings ex_plain [ex_q1; ex_stmt ex_plain (KSelect (B "c") []) []; ex_q2] = Some (d2, [B "SELECT a FROM b"; B "SELECT c"; B "SELECT a FROM b"]) /\ cache_key ex_q1 = cache_key ex_q2.
Proof. eexists. vm_compute. split; reflexivity. Qed.

(** ** Assumptions *)
Print Assumptions C01_canonical_text.
Print Assumptions C01_user_statement.
Print Assumptions C01_full_statement.
Print Assumptions C01_interleaving.
Print Assumptions C02_args_in_order.
Print Assumptions C02_args_all_calls.
Print Assumptions C03_values_do_not_matter.
Print Assumptions C04_pg_numbering.
Print Assumptions C04_alignment.
Print Assumptions C05_literal_qmark_refuted.
Print Assumptions C05_exact.
Print Assumptions C05_runs.
Print Assumptions C05_apart.
Print Assumptions C05_literal_qmark_partial.
Print Assumptions C06_last_limit_wins.
Print Assumptions C07_paginate.
Print Assumptions C07_offset_exact.
Print Assumptions C08_paginate_again_refuted.
Print Assumptions C08_paginate_again_partial.
Print Assumptions C08_exact_partial.
Print Assumptions C09_bulk_insert.
Print Assumptions C09_rectangular.
Print Assumptions C10_string_stable.
Print Assumptions C10_cache_transparent.
Print Assumptions C11_cache_collision_refuted.
Print Assumptions C11_cache_collision_pg_refuted.
Print Assumptions C11_other_keys_partial.
Print Assumptions C12_extend_named_refuted.
Print Assumptions C12_extend_unnamed_partial.
Print Assumptions C12_named_exact_partial.
Print Assumptions C13_cached_name_no_create.
Print Assumptions C13_memoised.
Print Assumptions C14_clone_alike.
Print Assumptions C15_clone_position_refuted.
Print Assumptions C15_clone_newlines_refuted.
Print Assumptions C15_positioned_partial.
Print Assumptions C16_pool_clean.
Print Assumptions C16_pool_object_irrelevant.
Print Assumptions C16_pool_invisible.
Print Assumptions C17_subquery_in_where.
Print Assumptions C17_subquery_elsewhere.
Print Assumptions C17_union.
Print Assumptions C17_inner_neutral.
Print Assumptions C18_empty_prefix_refuted.
Print Assumptions C18_no_args_partial.
Print Assumptions C18_lost_exact_partial.
Print Assumptions C19_set_on_insert.
Print Assumptions C19_set_elsewhere.
Print Assumptions C20_bind.
Print Assumptions C20_from_bind.
Print Assumptions C21_clause_collision_refuted.
Print Assumptions C21_clause_last_partial.
Print Assumptions C77_double_close_refuted.
Print Assumptions C77_double_close_partial.
Print Assumptions C22_query.
Print Assumptions C19_set_on_update.
Print Assumptions C19_set_is_set_expr.
Print Assumptions C21_layout_partial.
Print Assumptions C21_layout_meaning_partial.
Print Assumptions C15_exact_partial.
Print Assumptions C06_one_clause.
Print Assumptions C11_exact_partial.
