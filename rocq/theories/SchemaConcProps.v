(** Listings that run at the same time: properties. *)
From Coq Require Import ZArith List Bool Lia Ascii String.
From Verif Require Import GoBase ParamModel SchemaModel SchemaConc SchemaConcProofs.
Import ListNotations.
Open Scope Z_scope.

(** ** C187 Listings may run in several goroutines *)
(** The call finds something to list: the database answers with rows, and one of
    them passes the filters (and wanted tables have at least one column). *)
Definition finds_something (cat : catalog) (q : request) : Prop :=
  match q with
  | CallTables ss ts => exists rows e, cat_tables cat = inl (mkSrc (map SRow rows) e)
      /\ (exists r, In r rows /\ wanted ss ts (tr_schema r) (tr_name r) = true)
      /\ forall r, In r rows -> wanted ss ts (tr_schema r) (tr_name r) = true ->
           exists c more e', cat_columns cat (tr_schema r) (tr_name r) = inl (mkSrc (SRow c :: more) e')
  | CallViews ss ts _ => exists rows e, cat_views cat = inl (mkSrc (map SRow rows) e)
      /\ exists r, In r rows /\ wanted ss ts (vr_schema r) (vr_table r) = true
  | CallKeys ss ts => exists rows e, cat_fks cat = inl (mkSrc (map SRow rows) e)
      /\ exists r, In r rows /\ wanted ss ts (k_schema r) (k_table r) = true
  end.
Definition lists_keys (q : request) : bool := match q with CallKeys _ _ => true | _ => false end.

(** Two goroutines on one provider that list tables or views (or both foreign
    keys), and each finds something: some schedule ends the whole process,
    whatever else runs and whatever was listed before. *)
Theorem C187_process_ends_refuted : forall cat mem calls i j pv q q', i <> j ->
  nth_error calls i = Some (pv, q) -> nth_error calls j = Some (pv, q') -> lists_keys q = lists_keys q' ->
  finds_something cat q -> finds_something cat q' ->
  exists sched, wrun (wstart cat mem calls) sched = None.
Proof.
  intros cat mem calls i j pv q q' N E1 E2 EK F1 F2.
  assert (C : forall q, lists_keys q = false -> finds_something cat q -> begins_col (p_request cat q)).
  { intros [ss ts|ss ts v|ss ts] K F; [| |discriminate].
    - destruct F as (rows & e & H1 & H2 & H3). eapply tables_begin; eauto.
    - destruct F as (rows & e & H1 & H2). eapply views_begin; eauto. }
  assert (K : forall q, lists_keys q = true -> finds_something cat q -> begins_fk (p_request cat q)).
  { intros [ss ts|ss ts v|ss ts] L F; [discriminate|discriminate|]. destruct F as (rows & e & H1 & H2). eapply keys_begin; eauto. }
  destruct (lists_keys q) eqn:Q.
  - exists [i; j]. eapply crash_keys; eauto.
  - exists [i; i; j; j]. eapply crash_cols; eauto.
Qed.

(** Any number of goroutines, where a provider is shared at most by one that lists
    tables or views and one that lists foreign keys: no schedule ends the process,
    and a call that has returned has returned what it returns alone (SchemaModel). *)
Theorem C187_separate_partial : forall cat mem calls sched,
  (forall i j pv q q', nth_error calls i = Some (pv, q) -> nth_error calls j = Some (pv, q') -> i <> j -> lists_keys q <> lists_keys q') ->
  exists w, wrun (wstart cat mem calls) sched = Some w
  /\ forall i pv q a, nth_error calls i = Some (pv, q) -> returned w i = Some a -> a = alone cat q (mem pv).
Proof. intros cat mem calls sched H. exact (separate_runs cat mem calls sched H). Qed.
(** In particular when every goroutine has a provider of its own. *)
Theorem C187_own_provider_partial : forall cat mem calls sched, NoDup (map fst calls) ->
  exists w, wrun (wstart cat mem calls) sched = Some w
  /\ forall i pv q a, nth_error calls i = Some (pv, q) -> returned w i = Some a -> a = alone cat q (mem pv).
Proof.
  intros cat mem calls sched ND. apply C187_separate_partial. intros i j pv q q' E1 E2 N. exfalso. apply N.
  assert (F1 : nth_error (map fst calls) i = Some pv) by (rewrite nth_error_map, E1; reflexivity).
  assert (F2 : nth_error (map fst calls) j = Some pv) by (rewrite nth_error_map, E2; reflexivity).
  apply (proj1 (NoDup_nth_error (map fst calls)) ND); [|congruence]. apply nth_error_Some. congruence.
Qed.
(** Such calls never wait for each other: wherever they stand, they can all be
    run to their end. *)
Theorem C187_all_return_partial : forall cat mem calls sched w,
  (forall i j pv q q', nth_error calls i = Some (pv, q) -> nth_error calls j = Some (pv, q') -> i <> j -> lists_keys q <> lists_keys q') ->
  wrun (wstart cat mem calls) sched = Some w ->
  exists more w', wrun w more = Some w' /\ forall i pv q, nth_error calls i = Some (pv, q) -> returned w' i = Some (alone cat q (mem pv)).
Proof.
  intros cat mem calls sched w H E. pose proof (separate cat mem calls H) as AP.
  destruct (inv_run _ AP sched _ (inv_start cat mem calls)) as (w1 & E1 & IV). assert (w1 = w) by congruence. subst w1.
  destruct (all_finish _ AP w IV) as (more & w' & E2 & R). exists more, w'. split; [exact E2|]. intros i pv q F.
  assert (Li : (i < length (specs_of cat mem calls))%nat). { unfold specs_of. rewrite map_length. apply nth_error_Some. congruence. }
  destruct (R i Li) as (a & Ra). rewrite Ra. f_equal.
  assert (E3 : wrun (wstart cat mem calls) (sched ++ more) = Some w').
  { clear -E E2. revert E. generalize (wstart cat mem calls). induction sched as [|x s IH]; intros w0 E; cbn [wrun app] in *.
    - inversion E; subst; exact E2.
    - destruct (wstep w0 x); [apply IH; exact E|discriminate]. }
  destruct (C187_separate_partial cat mem calls (sched ++ more) H) as (w2 & E4 & A). assert (w2 = w') by congruence. subst w2. eapply A; eauto.
Qed.

(** A database with one table, an index and a key. *)
Definition src1 {A} (l : list A) : rowsrc A + Z := inl (mkSrc (map SRow l) None).
Definition cat_t : catalog := mkCat (src1 [mkTR (B "s") (B "t") (B "BASE TABLE")]) (src1 [])
  (fun _ _ => src1 [mkCR (B "id") (B "bigint") (B "int8") (B "NO") None 1])
  (fun _ _ => src1 [mkIR (B "t_pkey") true true (B "id")])
  (src1 [mkFK (B "f") (B "s") (B "t") (B "id") (B "s") (B "u") (B "id")]).
(** Even a schedule that does not end the process may give a wrong answer: the
    other goroutine's column object replaces the own one in the map, and the index
    and the primary key are attached to that. *)
Theorem C187_lost_index_refuted : exists cat mem calls sched w t t0,
  wrun (wstart cat mem calls) sched = Some w
  /\ returned w 0 = Some (GotTables (ROk [t])) /\ alone cat (CallTables [] []) (mem 0%nat) = GotTables (ROk [t0])
  /\ nth_error calls 0 = Some (0%nat, CallTables [] []) /\ t_cols t = t_cols t0 /\ t_cols t0 = [0%nat]
  /\ option_map (fun c => length (c_idx c)) (nth_error (p_heap (w_mem w 0%nat)) 0) = Some 0%nat
  /\ option_map (fun c => length (c_idx c)) (nth_error (p_heap (fst (list_tables cat (mem 0%nat) [] []))) 0) = Some 1%nat
  /\ t_pk t0 = Some 0%nat /\ t_pk t = Some 1%nat.
Proof.
  exists cat_t, (fun _ => new_prov), [(0%nat, CallTables [] []); (0%nat, CallTables [] [])],
    ([0;0;0;1;1;1;0;0;0;0;0;0;0;0;0;1;1;1;1;1;1;1;1;1]%nat).
  eexists. eexists. eexists.
  split; [vm_compute; reflexivity|]. split; [vm_compute; reflexivity|]. split; [vm_compute; reflexivity|].
  repeat split; vm_compute; reflexivity.
Qed.

Example C187_ex_finds : finds_something cat_t (CallTables [] []) /\ finds_something cat_t (CallKeys [] [B "t"]).
Proof.
  split; cbn [finds_something].
  - exists [mkTR (B "s") (B "t") (B "BASE TABLE")], None. split; [reflexivity|]. split.
    + eexists. split; [left; reflexivity|reflexivity].
    + intros r _ _. eexists. eexists. eexists. reflexivity.
  - eexists. eexists. split; [reflexivity|]. eexists. split; [left; reflexivity|reflexivity].
Qed.
Example C187_ex_ends : wrun (wstart cat_t (fun _ => new_prov) [(0%nat, CallTables [] []); (0%nat, CallTables [] [])]) [0; 0; 1; 1]%nat = None.
Proof. vm_compute. reflexivity. Qed.
(** Tables and foreign keys of one provider, and tables of another, interleaved. *)
Example C187_ex_separate :
  exists w, wrun (wstart cat_t (fun _ => new_prov) [(0%nat, CallTables [] []); (0%nat, CallKeys [] []); (1%nat, CallTables [] [])])
     [0;1;2;0;1;2;0;2;0;2;0;2;0;2;0;2;0;2;0;2;0;2]%nat = Some w
  /\ returned w 0 = Some (alone cat_t (CallTables [] []) new_prov) /\ returned w 1 = Some (alone cat_t (CallKeys [] []) new_prov)
  /\ returned w 2 = Some (alone cat_t (CallTables [] []) new_prov).
Proof. eexists. split; [vm_compute; reflexivity|]. repeat split; vm_compute; reflexivity. Qed.

(** A call that finds nothing to list touches no map: the database refuses, or no row
    it sends passes the filters. *)
Definition finds_nothing (cat : catalog) (q : request) : Prop :=
  match q with
  | CallTables ss ts => forall src r, cat_tables cat = inl src -> In (SRow r) (src_rows src) -> wanted ss ts (tr_schema r) (tr_name r) = false
  | CallKeys ss ts => forall src k, cat_fks cat = inl src -> In (SRow k) (src_rows src) -> wanted ss ts (k_schema k) (k_table k) = false
  | CallViews _ _ _ => False
  end.
Lemma finds_nothing_bool cat q : finds_nothing cat q -> nothing cat q = true.
Proof.
  destruct q as [ss ts|ss ts v|ss ts]; cbn [finds_nothing nothing]; [| |]; intros H; [| destruct H|].
  - destruct (cat_tables cat) as [src|e]; [|reflexivity]. apply forallb_forall. intros [r|e|] I; [|reflexivity|reflexivity]. rewrite (H src r eq_refl I). reflexivity.
  - destruct (cat_fks cat) as [src|e]; [|reflexivity]. apply forallb_forall. intros [r|e|] I; [|reflexivity|reflexivity]. rewrite (H src r eq_refl I). reflexivity.
Qed.
(** So any number of listings of tables and of foreign keys that find nothing may share
    a provider with the others. *)
Theorem C187_nothing_found_partial : forall cat mem calls sched,
  (forall i j pv q q', nth_error calls i = Some (pv, q) -> nth_error calls j = Some (pv, q') -> i <> j ->
    finds_nothing cat q \/ finds_nothing cat q' \/ lists_keys q <> lists_keys q') ->
  exists w, wrun (wstart cat mem calls) sched = Some w
  /\ forall i pv q a, nth_error calls i = Some (pv, q) -> returned w i = Some a -> a = alone cat q (mem pv).
Proof.
  intros cat mem calls sched H. apply separate_runs2. intros i j pv q q' E1 E2 N.
  destruct (H i j pv q q' E1 E2 N) as [X|[X|X]]; [left|right; left|right; right; exact X]; apply finds_nothing_bool, X.
Qed.
Example C187_ex_nothing : finds_nothing cat_t (CallTables [] [B "x"]) /\ finds_nothing cat_t (CallKeys [B "other"] []) /\
  exists w, wrun (wstart cat_t (fun _ => new_prov) [(0%nat, CallTables [] []); (0%nat, CallTables [] [B "x"]); (0%nat, CallTables [] [B "x"]); (0%nat, CallKeys [] []); (0%nat, CallKeys [B "other"] [])])
     [0;1;2;3;4;0;1;2;3;4;0;3;0;0;0;0;0;0;0;0]%nat = Some w
  /\ returned w 0 = Some (alone cat_t (CallTables [] []) new_prov) /\ returned w 1 = Some (GotTables (ROk [])) /\ returned w 3 = Some (alone cat_t (CallKeys [] []) new_prov).
Proof.
  split; [|split].
  - intros src r E I. injection E as <-. destruct I as [I|[]]. injection I as <-. vm_compute. reflexivity.
  - intros src r E I. injection E as <-. destruct I as [I|[]]. injection I as <-. vm_compute. reflexivity.
  - eexists. split; [vm_compute; reflexivity|]. repeat split; vm_compute; reflexivity.
Qed.

(** ** Assumptions *)
Print Assumptions C187_process_ends_refuted.
Print Assumptions C187_separate_partial.
Print Assumptions C187_own_provider_partial.
Print Assumptions C187_all_return_partial.
Print Assumptions C187_lost_index_refuted.
Print Assumptions C187_nothing_found_partial.
