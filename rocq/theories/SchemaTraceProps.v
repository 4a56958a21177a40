(** Connections used by listings: [held 0 ev] result sets (each with its
    connection) are open when the listing returns, [peak 0 ev] at most at once. *)
From Verif Require Import GoBase GoBaseFacts TypeModel ParamModel SchemaModel SchemaTrace SchemaTraceProofs.
From Coq Require Import Lia.
Open Scope nat_scope.

(** ** C131 Listings release their result sets *)
Theorem C131_success_partial : forall cat st schemas tables,
  (forall ts, snd (list_tables cat st schemas tables) = ROk ts -> held 0 (list_tables_events cat st schemas tables) = 0) /\
  (forall vord ts, snd (list_views cat st schemas tables vord) = ROk ts -> held 0 (list_views_events cat st schemas tables) = 0) /\
  (forall ks, snd (list_fks cat st schemas tables) = ROk ks -> held 0 (list_fks_events cat st schemas tables) = 0) /\
  (forall fuel ord tord st' ts, list_tables_deps fuel cat st schemas tables ord tord = Some (st', ROk ts) -> held 0 (list_tables_deps_events fuel cat st schemas tables ord) = 0).
Proof.
  intros cat st schemas tables. split; [|split; [|split]].
  - intros ts H. unfold list_tables, sorted_tables in H. pose proof (list_tables_balanced cat st schemas tables) as A.
    destruct (list_tables_only cat st schemas tables) as [st' [x|e|]]; try discriminate. apply (A x eq_refl).
  - intros vord ts H. apply (list_views_balanced _ _ _ _ _ _ H).
  - intros ks H. apply (list_fks_balanced _ _ _ _ _ H).
  - intros fuel ord tord st' ts H. eapply list_tables_deps_fits. exact H.
Qed.
(** A query that fails, or rows that end in an error: released too. *)
Theorem C131_end_error_partial : forall cat st schemas tables vord,
  (forall rows e, cat_views cat = inl (mkSrc (map SRow rows) (Some e)) -> snd (list_views cat st schemas tables vord) = RErr e /\ held 0 (list_views_events cat st schemas tables) = 0) /\
  (forall e, cat_views cat = inr e -> snd (list_views cat st schemas tables vord) = RErr e /\ list_views_events cat st schemas tables = []) /\
  (forall rows e, cat_fks cat = inl (mkSrc (map SRow rows) (Some e)) -> snd (list_fks cat st schemas tables) = RErr e /\ held 0 (list_fks_events cat st schemas tables) = 0) /\
  (forall e, cat_fks cat = inr e -> snd (list_fks cat st schemas tables) = RErr e /\ list_fks_events cat st schemas tables = []).
Proof.
  assert (G : forall S0 R (f : S0 -> R -> S0 * outcome unit) (Hf : forall st r, exists u, snd (f st r) = ROk u) rows st,
    (exists x, each_row f st (map SRow rows) = (x, ROk tt)) /\ loop_events f no_events st (map SRow rows) = [EClose]).
  { intros S0 R f Hf. induction rows as [|r rows IH]; intros st; cbn [map each_row loop_events]; [eauto|].
    destruct (Hf st r) as [u Hu]. destruct (f st r) as [st' o]. cbn [snd] in Hu. subst o. unfold no_events at 1. cbn [app]. apply IH. }
  intros cat st schemas tables vord.
  assert (V : forall st0 r, exists u, snd (view_row schemas tables st0 r) = ROk u) by (intros [a b] r; unfold view_row; destruct (negb _); [|destruct (alloc a _)]; eexists; reflexivity).
  assert (K : forall st0 r, exists u, snd (fk_row schemas tables st0 r) = ROk u) by (intros [a b] r; unfold fk_row; destruct (negb _); eexists; reflexivity).
  repeat split.
  - destruct (G _ _ _ V rows (st, [])) as [[[a b] X] Y]. unfold list_views. rewrite H. cbn [run_query src_rows src_err]. rewrite X. reflexivity.
  - destruct (G _ _ _ V rows (st, [])) as [X Y]. unfold list_views_events. rewrite H. cbn [query_events src_rows]. rewrite Y. reflexivity.
  - unfold list_views. rewrite H. reflexivity.
  - unfold list_views_events. rewrite H. reflexivity.
  - destruct (G _ _ _ K rows (st, [])) as [[[a b] X] Y]. unfold list_fks. rewrite H. cbn [run_query src_rows src_err]. rewrite X. reflexivity.
  - destruct (G _ _ _ K rows (st, [])) as [X Y]. unfold list_fks_events. rewrite H. cbn [query_events src_rows]. rewrite Y. reflexivity.
  - unfold list_fks. rewrite H. reflexivity.
  - unfold list_fks_events. rewrite H. reflexivity.
Qed.
(** A row that cannot be scanned: the error is returned and the result set, with
    its connection, stays open. *)
Theorem C131_scan_error_refuted : forall cat st schemas tables rows e rest err,
  (cat_fks cat = inl (mkSrc (map SRow rows ++ SFail e :: rest) err) -> snd (list_fks cat st schemas tables) = RErr e /\ held 0 (list_fks_events cat st schemas tables) = 1).
Proof.
  intros cat st schemas tables rows e rest err H.
  assert (K : forall st0 r, exists u, snd (fk_row schemas tables st0 r) = ROk u) by (intros [a b] r; unfold fk_row; destruct (negb _); eexists; reflexivity).
  assert (N : forall r : fkey, SFail e <> SRow r) by discriminate.
  destruct (loop_scan_fail (fk_row schemas tables) K (SFail e) rest N rows (st, [])) as [[[a b] X] Y].
  split; [unfold list_fks|unfold list_fks_events]; rewrite H; cbn [run_query query_events src_rows]; [rewrite X|rewrite Y]; reflexivity.
Qed.
Theorem C131_view_scan_error_refuted : forall cat st schemas tables vord rows e rest err,
  cat_views cat = inl (mkSrc (map SRow rows ++ SFail e :: rest) err) -> snd (list_views cat st schemas tables vord) = RErr e /\ held 0 (list_views_events cat st schemas tables) = 1.
Proof.
  intros cat st schemas tables vord rows e rest err H.
  assert (V : forall st0 r, exists u, snd (view_row schemas tables st0 r) = ROk u) by (intros [a b] r; unfold view_row; destruct (negb _); [|destruct (alloc a _)]; eexists; reflexivity).
  assert (N : forall r : viewrow, SFail e <> SRow r) by discriminate.
  destruct (loop_scan_fail (view_row schemas tables) V (SFail e) rest N rows (st, [])) as [[[a b] X] Y].
  split; [unfold list_views|unfold list_views_events]; rewrite H; cbn [run_query query_events src_rows]; [rewrite X|rewrite Y]; reflexivity.
Qed.
(** The columns or the indexes of a table cannot be read: the set of tables
    stays open; if a column cannot be scanned the set of columns too. *)
Theorem C131_nested_error_refuted : forall cat st schemas tables r rest err e,
  cat_tables cat = inl (mkSrc (SRow r :: rest) err) -> wanted schemas tables (tr_schema r) (tr_name r) = true ->
  (cat_columns cat (tr_schema r) (tr_name r) = inr e ->
     snd (list_tables cat st schemas tables) = RErr e /\ held 0 (list_tables_events cat st schemas tables) = 1) /\
  (forall crows crest cerr, cat_columns cat (tr_schema r) (tr_name r) = inl (mkSrc (map SRow crows ++ SFail e :: crest) cerr) ->
     snd (list_tables cat st schemas tables) = RErr e /\ held 0 (list_tables_events cat st schemas tables) = 2).
Proof.
  intros cat st schemas tables r rest err e H W. unfold list_tables, list_tables_only, list_tables_events. rewrite H. cbn [run_query query_events src_rows each_row loop_events].
  split; [intros C|intros crows crest cerr C].
  - assert (E1 : table_row cat schemas tables (st, []) r = ((st, []), RErr e) /\ table_events cat schemas tables (st, []) r = []).
    { unfold table_row, table_events. rewrite W. cbn [negb fst]. unfold read_columns, columns_events. rewrite C. split; reflexivity. }
    destruct E1 as [-> ->]. split; reflexivity.
  - assert (K : forall st0 x, exists u, snd (column_row (tr_schema r) (tr_name r) st0 x) = ROk u) by (intros [a b] x; unfold column_row; destruct (alloc a _); eexists; reflexivity).
    assert (N : forall x : colrow, SFail e <> SRow x) by discriminate.
    destruct (loop_scan_fail (column_row (tr_schema r) (tr_name r)) K (SFail e) crest N crows (st, [])) as [[[a b] X] Y].
    assert (E1 : table_row cat schemas tables (st, []) r = ((a, []), RErr e) /\ table_events cat schemas tables (st, []) r = [EOpen]).
    { unfold table_row, table_events. rewrite W. cbn [negb fst]. unfold read_columns, columns_events. rewrite C. cbn [run_query query_events src_rows]. rewrite X, Y. split; reflexivity. }
    destruct E1 as [-> ->]. split; reflexivity.
Qed.
(** Never more than two are left open by one call. *)
Theorem C131_bound_partial : forall cat st schemas tables fuel ord,
  held 0 (list_tables_events cat st schemas tables) <= 2 /\ held 0 (list_tables_deps_events fuel cat st schemas tables ord) <= 2 /\
  held 0 (list_views_events cat st schemas tables) <= 1 /\ held 0 (list_fks_events cat st schemas tables) <= 1.
Proof.
  intros. pose proof (list_tables_fits cat st schemas tables 0). pose proof (list_views_fits cat st schemas tables 0). pose proof (list_fks_fits cat st schemas tables 0).
  destruct (list_tables_deps_fits fuel cat st schemas tables ord []) as [F _]. pose proof (F 0). lia.
Qed.

(** ** C132 Listings over one connection *)
(** As soon as a table is wanted two result sets are open at once: with one
    connection (a transaction, or MaxOpenConns(1)) the columns query fails or
    waits for ever. *)
Theorem C132_tables_refuted : forall cat st schemas tables skipped r rest err src,
  cat_tables cat = inl (mkSrc (map SRow skipped ++ SRow r :: rest) err) ->
  (forall x, In x skipped -> wanted schemas tables (tr_schema x) (tr_name x) = false) ->
  wanted schemas tables (tr_schema r) (tr_name r) = true ->
  cat_columns cat (tr_schema r) (tr_name r) = inl src ->
  peak 0 (list_tables_events cat st schemas tables) = 2.
Proof.
  intros cat st schemas tables skipped r rest err src H Sk W C.
  assert (Hge : 2 <= peak 0 (list_tables_events cat st schemas tables)).
  { unfold list_tables_events. rewrite H. cbn [query_events src_rows peak]. generalize (@nil table). clear H. induction skipped as [|x l IH]; intros acc; cbn [map app loop_events].
    - unfold table_events at 1. rewrite W. cbn [negb fst]. unfold columns_events. rewrite C. cbn [query_events]. rewrite !peak_app. cbn [peak].
      pose proof (peak_ge (loop_events (column_row (tr_schema r) (tr_name r)) no_events (st, []) (src_rows src)) 2). lia.
    - assert (Wx : wanted schemas tables (tr_schema x) (tr_name x) = false) by (apply Sk; left; reflexivity).
      unfold table_events at 1. rewrite Wx. cbn [negb app]. unfold table_row at 1. rewrite Wx. cbn [negb]. apply IH. intros y Hy. apply Sk. right. exact Hy. }
  pose proof (list_tables_fits cat st schemas tables 0). lia.
Qed.
(** Two are always enough, and one is for views and foreign keys; the discovery
    of dependencies itself uses one. *)
Theorem C132_two_partial : forall cat st schemas tables fuel ord,
  peak 0 (list_tables_events cat st schemas tables) <= 2 /\ peak 0 (list_tables_deps_events fuel cat st schemas tables ord) <= 2.
Proof.
  intros. pose proof (list_tables_fits cat st schemas tables 0).
  destruct (list_tables_deps_fits fuel cat st schemas tables ord []) as [F _]. pose proof (F 0). lia.
Qed.
Theorem C132_one_partial : forall cat st schemas tables fuel ord,
  peak 0 (list_views_events cat st schemas tables) <= 1 /\ peak 0 (list_fks_events cat st schemas tables) <= 1 /\ peak 0 (discover_events fuel cat st ord) <= 1.
Proof.
  intros. pose proof (list_views_fits cat st schemas tables 0). pose proof (list_fks_fits cat st schemas tables 0).
  destruct (discover_fits fuel cat st ord []) as [F _]. pose proof (F 0). lia.
Qed.

(** A catalog of one table with a column and an index. *)
Definition cat_one : catalog := mkCat
  (inl (mkSrc [SRow (mkTR (B "s") (B "t") (B "BASE TABLE"))] None)) (inl (mkSrc [] None))
  (fun _ _ => inl (mkSrc [SRow (mkCR (B "id") (B "bigint") (B "int8") (B "NO") None 1)] None))
  (fun _ _ => inl (mkSrc [SRow (mkIR (B "pk") true true (B "id"))] None)) (inl (mkSrc [] None)).
Example C131_ex : (exists st ts, list_tables cat_one new_prov [] [] = (st, ROk ts) /\ length ts = 1) /\
  list_tables_events cat_one new_prov [] [] = [EOpen; EOpen; EClose; EOpen; EClose; EClose].
Proof. split; [eexists _, _; split; [reflexivity|reflexivity]|reflexivity]. Qed.
Definition cat_bad : catalog := mkCat (cat_tables cat_one) (cat_views cat_one) (fun _ _ => inl (mkSrc [SFail 7%Z] None)) (cat_indexes cat_one) (cat_fks cat_one).
Example C131_ex_bad : snd (list_tables cat_bad new_prov [] []) = RErr 7%Z /\ list_tables_events cat_bad new_prov [] [] = [EOpen; EOpen].
Proof. split; reflexivity. Qed.
Example C132_ex : cat_tables cat_one = inl (mkSrc (map SRow [] ++ SRow (mkTR (B "s") (B "t") (B "BASE TABLE")) :: []) None) /\ wanted [] [] (B "s") (B "t") = true /\
  (exists src, cat_columns cat_one (B "s") (B "t") = inl src).
Proof. repeat split. eexists. reflexivity. Qed.

(** ** Assumptions *)
Print Assumptions C131_success_partial.
Print Assumptions C131_end_error_partial.
Print Assumptions C131_scan_error_refuted.
Print Assumptions C131_view_scan_error_refuted.
Print Assumptions C131_nested_error_refuted.
Print Assumptions C131_bound_partial.
Print Assumptions C132_tables_refuted.
Print Assumptions C132_two_partial.
Print Assumptions C132_one_partial.
