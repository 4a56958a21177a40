(** Views, foreign keys, and indexes that do not fit their table. *)
From Verif Require Import GoBase GoBaseFacts TypeModel ParamModel SchemaModel SchemaSpec SchemaProofs SchemaMore CatalogModel CatalogSpec CatalogProofs CatalogListing CatalogQueries.
From Coq Require Import Permutation Sorted Lia.
Open Scope Z_scope.

(** ** Views *)
Definition view_rows (udt : acol -> bytes) (t : atable) : list viewrow := map (fun r => mkVR (at_schema t) (at_name t) r) (col_rows udt t).
Lemma view_rows_of udt V t : NoDup (map table_key V) -> In t V -> filter (is_view_row (table_key t)) (flat_map (view_rows udt) V) = view_rows udt t.
Proof.
  intros ND Ht. rewrite <- filter_flat, flat_map_flat. rewrite <- (one_table (view_rows udt) V t ND Ht). apply flat_map_in_ext. intros u _. unfold view_rows. rewrite flat_map_map. unfold is_view_row, table_key. cbn [vr_schema vr_table fst snd].
  change (beqb (at_schema u) (at_schema t) && beqb (at_name u) (at_name t)) with (at_key (at_schema t) (at_name t) u). rewrite flat_map_where, flat_map_single. reflexivity.
Qed.
Lemma col_rows_nil udt t : at_cols t <> [] -> exists r, In r (col_rows udt t).
Proof. intros H. rewrite col_rows_map. destruct (at_cols t) as [|c l]; [congruence|]. rewrite enum_cons. eexists. left. reflexivity. Qed.
Lemma view_listing cat (V : list atable) udt rows st schemas tables vord :
  NoDup (map table_key V) -> (forall t, In t V -> no_dot (at_schema t) /\ Z.of_nat (length (at_cols t)) < 2 ^ 32 /\ at_cols t <> []) ->
  Permutation (flat_map (view_rows udt) V) rows -> delivers (cat_views cat) rows ->
  NoDup vord -> (forall n, In n vord <-> exists t, In t V /\ wanted schemas tables (at_schema t) (at_name t) = true /\ n = fqn2 (at_schema t) (at_name t)) ->
  exists st' ts, list_views cat st schemas tables vord = (st', ROk ts) /\
    (forall x, In x ts -> exists t, In t V /\ wanted schemas tables (at_schema t) (at_name t) = true /\ shows_view udt st' t x) /\
    (forall t, In t V -> wanted schemas tables (at_schema t) (at_name t) = true -> exists x, In x ts /\ shows_view udt st' t x) /\
    StronglySorted (fun a b => bltb (t_fqn a) (t_fqn b) = true) ts.
Proof.
  intros ND H P D No Ho.
  assert (RV : forall r, In r rows <-> exists t, In t V /\ In r (view_rows udt t)).
  { intros r. split; [intros Hr; apply (Permutation_in _ (Permutation_sym P)) in Hr; apply in_flat_map in Hr; exact Hr|]. intros Hr. apply (Permutation_in _ P). apply in_flat_map. exact Hr. }
  assert (VR : forall t r, In r (view_rows udt t) -> vr_schema r = at_schema t /\ vr_table r = at_name t).
  { intros t r Hr. unfold view_rows in Hr. apply in_map_iff in Hr. destruct Hr as (c & <- & _). auto. }
  assert (VE : forall t, In t V -> exists r, In r (view_rows udt t)).
  { intros t Ht. destruct (H t Ht) as (_ & _ & Ne). destruct (col_rows_nil udt t Ne) as (r & Hr). eexists. unfold view_rows. apply in_map, Hr. }
  destruct (list_views_ok cat rows st schemas tables vord D) as (st' & ts & vs & E & Nv & Iv & M & S).
  { intros r Hr. apply RV in Hr. destruct Hr as (t & Ht & Hr). destruct (VR t r Hr) as [-> _]. apply (H t Ht). }
  { exact No. }
  { intros n. rewrite Ho. split.
    - intros (t & Ht & W & ->). destruct (VE t Ht) as (r & Hr). destruct (VR t r Hr) as [E1 E2]. exists r. rewrite E1, E2. split; [apply RV; exists t; auto|auto].
    - intros (r & Hr & W & ->). apply RV in Hr. destruct Hr as (t & Ht & Hr). destruct (VR t r Hr) as [E1 E2]. rewrite E1, E2 in *. exists t. auto. }
  assert (IV : forall a, In a vs <-> exists t, In t V /\ wanted schemas tables (at_schema t) (at_name t) = true /\ a = table_key t).
  { intros a. rewrite Iv. split.
    - intros (r & Hr & W & ->). apply RV in Hr. destruct Hr as (t & Ht & Hr). destruct (VR t r Hr) as [E1 E2]. rewrite E1, E2 in *. exists t. auto.
    - intros (t & Ht & W & ->). destruct (VE t Ht) as (r & Hr). destruct (VR t r Hr) as [E1 E2]. exists r. rewrite E1, E2. split; [apply RV; exists t; auto|auto]. }
  assert (PM : Permutation (map (view_of rows) vs) (map (see st') ts)) by (rewrite M; apply sort_perm_by).
  assert (SH : forall t x, In t V -> see st' x = view_of rows (table_key t) -> shows_view udt st' t x).
  { intros t x Ht Ex. unfold see, view_of, table_key in Ex. cbn [fst snd] in Ex. injection Ex as E1 E2 E3 E4 E5 E6 E7 E8. constructor; [destruct (t_pk x); [discriminate E8|auto 12]|]. rewrite E6. destruct (H t Ht) as (_ & Len & _).
    assert (PR : Permutation (view_rows udt t) (filter (is_view_row (at_schema t, at_name t)) rows)) by (rewrite <- (view_rows_of udt V t ND Ht); apply perm_filter, P).
    assert (SC : sort_by col_by_pos (map (fun r => make_column (at_schema t) (at_name t) (vr_col r)) (filter (is_view_row (at_schema t, at_name t)) rows)) = map (fun e => make_column (at_schema t) (at_name t) (col_row udt e)) (enum (at_cols t))).
    { apply strict_sort.
      - eapply Permutation_trans; [|apply Permutation_map, PR]. unfold view_rows. rewrite map_map, col_rows_map, map_map. apply Permutation_refl.
      - unfold enum. apply (pos_sorted (fun e => make_column (at_schema t) (at_name t) (col_row udt e)) (at_cols t) 0). intros [i c] Hc. cbn [fst make_column c_pos col_row cr_pos snd]. unfold u32, wrap_u. apply Z.mod_small. apply in_combine_l, in_seq in Hc. lia. }
    rewrite SC, map_map. assert (Bd : forall e, In e (enum (at_cols t)) -> (fst e < length (at_cols t))%nat) by (intros [i c] He; apply enum_in in He; cbn [fst]; apply nth_error_Some; congruence).
    clear - Bd Len. induction (enum (at_cols t)) as [|[i c] l IH]; cbn [map]; constructor; [|apply IH; intros e He; apply Bd; right; exact He]. eexists. split; [reflexivity|]. cbn [make_column col_row cr_name cr_type cr_udt cr_null cr_max cr_pos c_name c_type c_udt c_null c_max c_pos snd fst].
    rewrite yes_no_fold. repeat (split; [reflexivity|]). specialize (Bd (i, c) (or_introl eq_refl)). cbn [fst] in Bd. unfold u32, wrap_u. apply Z.mod_small. lia. }
  exists st', ts. split; [exact E|]. split; [|split].
  - intros x Hx. assert (Hs : In (see st' x) (map (view_of rows) vs)) by (apply (Permutation_in _ (Permutation_sym PM)), in_map, Hx). apply in_map_iff in Hs. destruct Hs as (a & Ea & Ha). apply IV in Ha. destruct Ha as (t & Ht & W & ->). exists t. split; [exact Ht|]. split; [exact W|]. apply SH; [exact Ht|congruence].
  - intros t Ht W. assert (Ha : In (view_of rows (table_key t)) (map (see st') ts)) by (apply (Permutation_in _ PM), in_map, IV; exists t; auto). apply in_map_iff in Ha. destruct Ha as (x & Ex & Hx). exists x. split; [exact Hx|]. apply SH; [exact Ht|congruence].
  - clear - S. assert (FQ : forall a, v_fqn (see st' a) = t_fqn a) by reflexivity. induction ts as [|x ts IH]; [constructor|]. cbn [map] in S. inversion S as [|? ? S' F]; subst. constructor; [apply IH, S'|]. apply Forall_forall. intros y Hy. rewrite Forall_forall in F. apply (F (see st' y)). apply in_map, Hy.
Qed.
Definition pg_view (t : atable) : bool := match at_kind t with TView => negb (memb (at_schema t) pg_system) | _ => false end.
Lemma pg_view_iff t : pg_view t = true <-> is_user t /\ at_kind t = TView.
Proof. unfold pg_view, is_user. rewrite <- not_system. destruct (at_kind t); rewrite ?negb_true_iff; intuition (try discriminate). Qed.
Lemma memb_swap s : memb s [B "information_schema"; B "pg_catalog"] = memb s pg_system.
Proof. apply eq_true_iff_eq. rewrite !memb_in. unfold pg_system. cbn [In]. tauto. Qed.
Lemma pg_q_views_ok db : NoDup (map table_key db) ->
  pg_q_views db = flat_map (fun t => match col_rows a_udt t with [] => [(at_schema t, at_name t, None)] | rs => map (fun r => (at_schema t, at_name t, Some r)) rs end) (filter pg_view db).
Proof.
  intros ND. unfold pg_q_views, left_join. rewrite map_flat_map.
  assert (FL : filter (fun '(t, ty) => beqb ty (B "VIEW") && negb (memb (at_schema t) [B "information_schema"; B "pg_catalog"])) (pg_is_tables db) = map (fun t => (t, B "VIEW")) (filter pg_view db)).
  { clear ND. unfold pg_is_tables. induction db as [|t db IH]; [reflexivity|]. cbn [flat_map]. rewrite filter_app, IH. cbn [filter]. rewrite memb_swap || idtac. unfold pg_view at 2. destruct (at_kind t); cbn [pg_type app filter map]; try reflexivity. rewrite memb_swap. destruct (memb (at_schema t) pg_system); reflexivity. }
  rewrite FL, flat_map_map. apply flat_map_in_ext. intros t Ht. apply filter_In in Ht. destruct Ht as [Ht Vt]. apply pg_view_iff in Vt. destruct Vt as [_ Vt].
  assert (FC : filter (fun '(s, n, _) => beqb (at_schema t) s && beqb (at_name t) n) (pg_is_columns db) = map (fun r => (at_schema t, at_name t, r)) (col_rows a_udt t)).
  { rewrite pg_is_columns_ok, <- filter_flat, flat_map_flat. transitivity (flat_map (fun u => where_ (at_key (at_schema t) (at_name t) u) (map (fun r => (at_schema u, at_name u, r)) (pg_col_rows u))) db).
    - apply flat_map_in_ext. intros u _. rewrite flat_map_map. unfold at_key. rewrite (flat_map_in_ext _ (fun r => where_ (beqb (at_schema u) (at_schema t) && beqb (at_name u) (at_name t)) [(at_schema u, at_name u, r)])), flat_map_where, flat_map_single; [reflexivity|].
      intros r _. destruct (beqb_spec (at_schema t) (at_schema u)), (beqb_spec (at_schema u) (at_schema t)), (beqb_spec (at_name t) (at_name u)), (beqb_spec (at_name u) (at_name t)); try reflexivity; congruence.
    - rewrite (one_table (fun u => map (fun r => (at_schema u, at_name u, r)) (pg_col_rows u)) db t ND Ht). unfold pg_col_rows. rewrite Vt. reflexivity. }
  change (fun b => (let '(t0, _) := (t, B "VIEW") in fun '(s, n, _) => beqb (at_schema t0) s && beqb (at_name t0) n) b) with (fun b : bytes * bytes * colrow => let '(s, n, _) := b in beqb (at_schema t) s && beqb (at_name t) n).
  rewrite FC. destruct (col_rows a_udt t) as [|r rs]; [reflexivity|]. cbn [map]. rewrite !map_map. reflexivity.
Qed.
Lemma scan_views e rows : map (scan_view e) (map (fun r => (vr_schema r, vr_table r, Some (vr_col r))) rows) = map SRow rows.
Proof. rewrite map_map. apply map_ext. intros [s t c]. reflexivity. Qed.
Lemma pg_views db cat st schemas tables vord : db_ok db -> (forall t, In t db -> no_dot (at_schema t)) -> (forall t, In t db -> at_kind t = TView -> at_cols t <> []) -> pg_answers db cat ->
  NoDup vord -> (forall n, In n vord <-> exists t, In t db /\ is_user t /\ at_kind t = TView /\ wanted schemas tables (at_schema t) (at_name t) = true /\ n = fqn2 (at_schema t) (at_name t)) ->
  exists st' ts, list_views cat st schemas tables vord = (st', ROk ts) /\
    (forall x, In x ts -> exists t, In t db /\ is_user t /\ at_kind t = TView /\ wanted schemas tables (at_schema t) (at_name t) = true /\ shows_view a_udt st' t x) /\
    (forall t, In t db -> is_user t -> at_kind t = TView -> wanted schemas tables (at_schema t) (at_name t) = true -> exists x, In x ts /\ shows_view a_udt st' t x) /\
    StronglySorted (fun a b => bltb (t_fqn a) (t_fqn b) = true) ts.
Proof.
  intros Ok Nd Ne A No Ho. destruct (pa_views db cat A) as (e & raw & P & D). rewrite (pg_q_views_ok db (ok_tables db Ok)) in P.
  assert (PV : forall t, In t (filter pg_view db) <-> In t db /\ is_user t /\ at_kind t = TView) by (intros t; rewrite filter_In, pg_view_iff; tauto).
  assert (EV : flat_map (fun t => match col_rows a_udt t with [] => [(at_schema t, at_name t, None)] | rs => map (fun r => (at_schema t, at_name t, Some r)) rs end) (filter pg_view db) = map (fun r => (vr_schema r, vr_table r, Some (vr_col r))) (flat_map (view_rows a_udt) (filter pg_view db))).
  { rewrite map_flat_map. apply flat_map_in_ext. intros t Ht. apply PV in Ht. destruct Ht as (Ht & _ & Vt). destruct (col_rows_nil a_udt t (Ne t Ht Vt)) as (r & Hr). unfold view_rows. rewrite map_map. cbn [vr_schema vr_table vr_col]. destruct (col_rows a_udt t); [destruct Hr|reflexivity]. }
  rewrite EV in P. apply Permutation_sym, Permutation_map_inv in P. destruct P as (rows & -> & P). rewrite scan_views in D.
  destruct (view_listing cat (filter pg_view db) a_udt rows st schemas tables vord) as (st' & ts & E & F & G & S).
  - apply nodup_keys_filter, (ok_tables db Ok).
  - intros t Ht. apply PV in Ht. destruct Ht as (Ht & _ & Vt). split; [apply Nd, Ht|]. split; [apply (ok_width db Ok t Ht)|apply Ne; assumption].
  - exact P.
  - exact D.
  - exact No.
  - intros n. rewrite Ho. split; [intros (t & Ht & U & K & W & Q); exists t; rewrite PV; tauto|]. intros (t & Ht & W & Q). apply PV in Ht. exists t. tauto.
  - exists st', ts. split; [exact E|]. split; [|split; [|exact S]].
    + intros x Hx. destruct (F x Hx) as (t & Ht & W & Q). apply PV in Ht. exists t. tauto.
    + intros t Ht U K W. apply G; [apply PV; tauto|exact W].
Qed.
(** One NULL row and nothing is listed. *)
Lemma each_view_fails schemas tables e : forall rows x, In None (map snd rows) -> snd (each_row (view_row schemas tables) x (map (scan_view e) rows)) = RErr e.
Proof.
  induction rows as [|[[s n] o] rows IH]; intros x H; [destruct H|]. cbn [map snd] in H. cbn [map scan_view each_row]. destruct o as [c|]; [|reflexivity]. destruct H as [H|H]; [discriminate|].
  assert (V : snd (view_row schemas tables x (mkVR s n c)) = ROk tt) by (unfold view_row; destruct x as [st m]; destruct (negb _); [reflexivity|]; destruct (alloc _ _); reflexivity).
  destruct (view_row schemas tables x (mkVR s n c)) as [y o]. cbn [snd] in V. subst o. apply IH, H.
Qed.
Lemma pg_views_fail db cat st schemas tables vord t : db_ok db -> pg_answers db cat -> In t db -> is_user t -> at_kind t = TView -> at_cols t = [] -> exists e, snd (list_views cat st schemas tables vord) = RErr e.
Proof.
  intros Ok A Ht U K Ec. destruct (pa_views db cat A) as (e & raw & P & D). rewrite (pg_q_views_ok db (ok_tables db Ok)) in P. exists e.
  assert (N : In None (map snd raw)).
  { apply in_map_iff. exists (at_schema t, at_name t, None). split; [reflexivity|]. apply (Permutation_in _ P). apply in_flat_map. exists t. split; [apply filter_In; split; [exact Ht|apply pg_view_iff; auto]|]. rewrite col_rows_map, Ec. left. reflexivity. }
  unfold list_views, run_query. rewrite D. cbn [src_rows src_err]. pose proof (each_view_fails schemas tables e raw (st, []) N) as Q. destruct (each_row (view_row schemas tables) (st, []) (map (scan_view e) raw)) as [[st' m] o]. cbn [snd] in Q. subst o. reflexivity.
Qed.
(** SQL Server *)
Definition ms_view (t : atable) : bool := negb (is_mstable t).
Lemma ms_q_views_ok db : (forall t u, In t db -> In u db -> at_kind u = TView -> at_name t = at_name u -> t = u) -> NoDup db -> ms_q_views db = flat_map (view_rows a_type) (filter ms_view db).
Proof.
  intros U ND. unfold ms_q_views, ms_is_columns. rewrite flat_map_flat.
  rewrite <- (filter_flat ms_view db), flat_map_flat. apply flat_map_in_ext. intros t Ht. rewrite flat_map_map. unfold view_rows.
  assert (Q : forall C (f : list C), flat_map (fun v => where_ (beqb (at_name v) (at_name t)) f) (filter (fun t0 => negb (is_mstable t0)) db) = where_ (ms_view t) f).
  { intros C f. unfold ms_view. destruct (negb (is_mstable t)) eqn:V.
    - apply (flat_map_key (fun u => u) (fun v => beqb (at_name v) (at_name t)) (fun _ => f) (filter (fun t0 => negb (is_mstable t0)) db) t); [rewrite map_id; apply NoDup_filter, ND|apply filter_In; auto|apply beqb_refl|].
      intros u Hu E. apply filter_In in Hu. destruct (beqb_spec (at_name u) (at_name t)); [|discriminate]. apply (U u t); [tauto|exact Ht| |assumption]. unfold is_mstable in V. destruct (at_kind t); try discriminate; reflexivity.
    - apply flat_map_nil. intros u Hu. apply filter_In in Hu. destruct Hu as [Hu Vu]. destruct (beqb_spec (at_name u) (at_name t)) as [E|]; [|reflexivity]. exfalso. assert (t = u) by (apply U; auto; unfold is_mstable in Vu; destruct (at_kind u); try discriminate; reflexivity). subst. congruence. }
  rewrite (flat_map_in_ext _ (fun r => where_ (ms_view t) [mkVR (at_schema t) (at_name t) r])) by (intros r _; apply Q).
  rewrite flat_map_where, flat_map_single. destruct (ms_view t); cbn [where_ flat_map]; [rewrite app_nil_r|]; reflexivity.
Qed.
Lemma ms_view_iff t : ms_view t = true <-> at_kind t = TView.
Proof. unfold ms_view, is_mstable. destruct (at_kind t); cbn; split; intros H; try reflexivity; discriminate. Qed.
Lemma ms_views db cat st schemas tables vord : db_ok db -> (forall t, In t db -> no_dot (at_schema t)) -> (forall t, In t db -> at_kind t = TView -> at_cols t <> []) ->
  (forall t u, In t db -> In u db -> at_kind u = TView -> at_name t = at_name u -> t = u) -> ms_answers db cat ->
  NoDup vord -> (forall n, In n vord <-> exists t, In t db /\ at_kind t = TView /\ wanted schemas tables (at_schema t) (at_name t) = true /\ n = fqn2 (at_schema t) (at_name t)) ->
  exists st' ts, list_views cat st schemas tables vord = (st', ROk ts) /\
    (forall x, In x ts -> exists t, In t db /\ at_kind t = TView /\ wanted schemas tables (at_schema t) (at_name t) = true /\ shows_view a_type st' t x) /\
    (forall t, In t db -> at_kind t = TView -> wanted schemas tables (at_schema t) (at_name t) = true -> exists x, In x ts /\ shows_view a_type st' t x) /\
    StronglySorted (fun a b => bltb (t_fqn a) (t_fqn b) = true) ts.
Proof.
  intros Ok Nd Ne U A No Ho. destruct (ma_views db cat A) as (rows & P & D). rewrite ms_q_views_ok in P; [|exact U|apply (NoDup_map_inv table_key), (ok_tables db Ok)].
  assert (PV : forall t, In t (filter ms_view db) <-> In t db /\ at_kind t = TView) by (intros t; rewrite filter_In, ms_view_iff; tauto).
  destruct (view_listing cat (filter ms_view db) a_type rows st schemas tables vord) as (st' & ts & E & F & G & S).
  - apply nodup_keys_filter, (ok_tables db Ok).
  - intros t Ht. apply PV in Ht. destruct Ht as (Ht & Vt). split; [apply Nd, Ht|]. split; [apply (ok_width db Ok t Ht)|apply Ne; assumption].
  - exact P.
  - exact D.
  - exact No.
  - intros n. rewrite Ho. split; [intros (t & Ht & K & W & Q); exists t; rewrite PV; tauto|]. intros (t & Ht & W & Q). apply PV in Ht. exists t. tauto.
  - exists st', ts. split; [exact E|]. split; [|split; [|exact S]].
    + intros x Hx. destruct (F x Hx) as (t & Ht & W & Q). apply PV in Ht. exists t. tauto.
    + intros t Ht K W. apply G; [apply PV; tauto|exact W].
Qed.

(** ** Foreign keys *)
(** A constraint: its table, name, columns, what it uses, is it a foreign key. *)
Record constr := mkCon { k_of : atable; k_cname : bytes; k_kcu : list bytes; k_ccu : list (bytes * bytes * bytes); k_isfk : bool }.
Definition cons_of (t : atable) : list constr :=
  map (fun k => mkCon t (fst k) (snd k) (map (fun c => (at_schema t, at_name t, c)) (snd k)) false) (at_keys t) ++
  map (fun k => mkCon t (fst k) [] (map (fun c => (at_schema t, at_name t, c)) (snd k)) false) (at_checks t) ++
  map (fun f => mkCon t (af_name f) (af_cols f) (map (fun c => (af_rschema f, af_rtable f, c)) (af_rcols f)) true) (at_fks t).
Lemma cons_constraints db : pg_constraints db = map (fun k => (k_cname k, at_schema (k_of k), at_name (k_of k), k_isfk k)) (flat_map cons_of db).
Proof. unfold pg_constraints, cons_of. rewrite map_flat_map. apply flat_map_in_ext. intros t _. rewrite !map_app, !map_map, <- app_assoc. reflexivity. Qed.
Lemma cons_kcu db : pg_kcu db = flat_map (fun k => map (fun c => (k_cname k, at_schema (k_of k), at_name (k_of k), c)) (k_kcu k)) (flat_map cons_of db).
Proof.
  unfold pg_kcu, cons_of. rewrite flat_map_flat. apply flat_map_in_ext. intros t _. rewrite !flat_map_app, !flat_map_map. cbn [k_cname k_of k_kcu map]. rewrite (flat_map_nil (fun x : bytes * list bytes => @nil (bytes * bytes * bytes * bytes)) (at_checks t)) by reflexivity. reflexivity.
Qed.
Lemma cons_ccu db : pg_ccu db = flat_map (fun k => map (fun '(s, t, c) => (k_cname k, s, t, c)) (k_ccu k)) (flat_map cons_of db).
Proof.
  unfold pg_ccu, cons_of. rewrite flat_map_flat. apply flat_map_in_ext. intros t _. rewrite !flat_map_app, !flat_map_map, <- app_assoc. cbn [k_cname k_of k_ccu].
  f_equal; [|f_equal]; apply flat_map_in_ext; intros x _; rewrite map_map; reflexivity.
Qed.
Lemma cons_names db : map k_cname (flat_map cons_of db) = flat_map (fun t => map fst (at_keys t) ++ map fst (at_checks t) ++ map af_name (at_fks t)) db.
Proof. rewrite map_flat_map. apply flat_map_in_ext. intros t _. unfold cons_of. rewrite !map_app, !map_map. reflexivity. Qed.
(** Every column of the key with every column it refers to *)
Definition fk_products (db : database) : list fkey :=
  flat_map (fun t => flat_map (fun f => flat_map (fun c => map (fun rc => mkFK (af_name f) (at_schema t) (at_name t) c (af_rschema f) (af_rtable f) rc) (af_rcols f)) (af_cols f)) (at_fks t)) db.
Lemma beqb_sym a b : beqb a b = beqb b a. Proof. destruct (beqb_spec a b), (beqb_spec b a); congruence. Qed.
Lemma pg_q_fks_ok db : constraint_names_once db -> pg_q_fks db = fk_products db.
Proof.
  intros N. unfold constraint_names_once in N. rewrite <- cons_names in N. unfold pg_q_fks. rewrite cons_constraints, flat_map_map. rewrite cons_ccu, cons_kcu. set (L := flat_map cons_of db) in *.
  transitivity (flat_map (fun k => where_ (k_isfk k) (flat_map (fun c => map (fun '(s, t, rc) => mkFK (k_cname k) (at_schema (k_of k)) (at_name (k_of k)) c s t rc) (k_ccu k)) (k_kcu k))) L).
  - apply flat_map_in_ext. intros k Hk. destruct (k_isfk k); [|reflexivity]. cbn [where_]. rewrite flat_map_flat.
    rewrite (flat_map_in_ext _ (fun q => where_ (beqb (k_cname q) (k_cname k)) (flat_map (fun c => where_ (beqb (at_schema (k_of k)) (at_schema (k_of q))) (map (fun '(s, t, rc) => mkFK (k_cname k) (at_schema (k_of k)) (at_name (k_of k)) c s t rc) (k_ccu k))) (k_kcu q)))).
    + rewrite (flat_map_key k_cname (fun q => beqb (k_cname q) (k_cname k)) _ L k N Hk); [|apply beqb_refl|intros q _ E; destruct (beqb_spec (k_cname q) (k_cname k)); [assumption|discriminate]]. rewrite beqb_refl. reflexivity.
    + intros q _. rewrite flat_map_map. rewrite <- flat_map_where. apply flat_map_in_ext. intros c _. rewrite (beqb_sym (k_cname k) (k_cname q)). destruct (beqb (k_cname q) (k_cname k)); [|reflexivity]. cbn [andb where_]. destruct (beqb (at_schema (k_of k)) (at_schema (k_of q))); [|reflexivity]. cbn [where_].
      rewrite flat_map_flat. rewrite (flat_map_in_ext _ (fun p => where_ (beqb (k_cname p) (k_cname k)) (map (fun '(s, t, rc) => mkFK (k_cname k) (at_schema (k_of k)) (at_name (k_of k)) c s t rc) (k_ccu p)))).
      * apply (flat_map_key k_cname (fun p => beqb (k_cname p) (k_cname k)) (fun p => map (fun '(s, t, rc) => mkFK (k_cname k) (at_schema (k_of k)) (at_name (k_of k)) c s t rc) (k_ccu p)) L k N Hk); [apply beqb_refl|]. intros p _ E. destruct (beqb_spec (k_cname p) (k_cname k)); [assumption|discriminate].
      * intros p _. rewrite flat_map_map. rewrite (flat_map_in_ext _ (fun '(s, t, rc) => where_ (beqb (k_cname p) (k_cname k)) [mkFK (k_cname k) (at_schema (k_of k)) (at_name (k_of k)) c s t rc])) by (intros [[s t] rc] _; reflexivity).
        destruct (beqb (k_cname p) (k_cname k)); cbn [where_]; [|apply flat_map_nil; intros [[s t] rc] _; reflexivity]. rewrite <- flat_map_single. apply flat_map_in_ext. intros [[s t] rc] _. reflexivity.
  - unfold L, cons_of, fk_products. rewrite flat_map_flat. apply flat_map_in_ext. intros t _. rewrite !flat_map_app, !flat_map_map. cbn [k_isfk where_ k_cname k_of k_ccu k_kcu]. rewrite !flat_map_nil by reflexivity. cbn [app].
    apply flat_map_in_ext. intros f _. apply flat_map_in_ext. intros c _. rewrite map_map. reflexivity.
Qed.
Lemma single_pairs db : (forall t f, In t db -> In f (at_fks t) -> length (af_cols f) = 1%nat /\ length (af_rcols f) = 1%nat) -> fk_products db = fk_pairs db.
Proof.
  intros H. apply flat_map_in_ext. intros t Ht. apply flat_map_in_ext. intros f Hf. destruct (H t f Ht Hf) as [H1 H2]. destruct (af_cols f) as [|c [|d l]]; try discriminate. destruct (af_rcols f) as [|rc [|rd rl]]; try discriminate. reflexivity.
Qed.
(** The row is there for any referenced column under the same name. *)
Lemma pg_fk_cross db t f u g c rc : In t db -> In f (at_fks t) -> In u db -> In g (at_fks u) -> af_name g = af_name f -> In c (af_cols f) -> In rc (af_rcols g) ->
  In (mkFK (af_name f) (at_schema t) (at_name t) c (af_rschema g) (af_rtable g) rc) (pg_q_fks db).
Proof.
  intros Ht Hf Hu Hg E Hc Hr. unfold pg_q_fks. apply in_flat_map. exists (af_name f, at_schema t, at_name t, true). split.
  - unfold pg_constraints. apply in_flat_map. exists t. split; [exact Ht|]. apply in_app_iff. right. apply (in_map (fun f => (af_name f, at_schema t, at_name t, true))), Hf.
  - cbn [where_]. apply in_flat_map. exists (af_name f, at_schema t, at_name t, c). split.
    + unfold pg_kcu. apply in_flat_map. exists t. split; [exact Ht|]. apply in_app_iff. right. apply in_flat_map. exists f. split; [exact Hf|]. apply (in_map (fun c => (af_name f, at_schema t, at_name t, c))), Hc.
    + rewrite !beqb_refl. cbn [andb where_]. apply in_flat_map. exists (af_name g, af_rschema g, af_rtable g, rc). split.
      * unfold pg_ccu. apply in_flat_map. exists u. split; [exact Hu|]. apply in_app_iff. right. apply in_flat_map. exists g. split; [exact Hg|]. apply (in_map (fun c => (af_name g, af_rschema g, af_rtable g, c))), Hr.
      * rewrite E, beqb_refl. left. reflexivity.
Qed.
Lemma fk_listing cat st schemas tables rows : some_order (cat_fks cat) rows -> exists st' ks, list_fks cat st schemas tables = (st', ROk ks) /\ Permutation ks (filter (fun k => wanted schemas tables (k_schema k) (k_table k)) rows).
Proof.
  intros (l & P & D). destruct (list_fks_filter cat l st schemas tables D) as (st' & E). exists st', (filter (fun k => wanted schemas tables (k_schema k) (k_table k)) l). split; [exact E|]. apply perm_filter, Permutation_sym, P.
Qed.
(** SQL Server *)
Lemma table_id_at db u : NoDup (map table_key db) -> In u db -> is_mstable u = true -> exists j, table_id db (at_schema u) (at_name u) = Some j /\ nth_error db j = Some u.
Proof.
  induction db as [|t db IH]; intros ND Hu Ku; [destruct Hu|]. cbn [table_id]. cbn [map] in ND. inversion ND as [|? ? N ND' E]; subst. destruct Hu as [->|Hu].
  - rewrite !beqb_refl, Ku. exists 0%nat. auto.
  - change (beqb (at_schema t) (at_schema u) && beqb (at_name t) (at_name u)) with (at_key (at_schema u) (at_name u) t). destruct (at_key (at_schema u) (at_name u) t) eqn:K.
    + exfalso. apply at_key_iff in K. apply N. rewrite K. apply (in_map table_key), Hu.
    + cbn [andb]. destruct (IH ND' Hu Ku) as (j & E1 & E2). rewrite E1. exists (S j). auto.
Qed.
Lemma column_at cols n : NoDup (map a_name cols) -> In n (map a_name cols) -> exists k c, nth_error cols k = Some c /\ a_name c = n /\ attnum cols n = S k.
Proof. intros ND H. apply in_map_iff in H. destruct H as (c & <- & Hc). apply In_nth_error in Hc. destruct Hc as (k & Hk). exists k, c. split; [exact Hk|]. split; [reflexivity|]. apply attnum_at; assumption. Qed.
Lemma enum_pick {A C} (l : list A) k x (p : A -> bool) (f : A -> list C) : nth_error l k = Some x -> p x = true -> flat_map (fun '(i, y) => where_ ((i =? k)%nat && p y) (f y)) (enum l) = f x.
Proof.
  intros H P. rewrite (flat_map_in_ext _ (fun e => where_ (fst e =? k)%nat (where_ (p (snd e)) (f (snd e))))) by (intros [i y] _; cbn [fst snd]; destruct (i =? k)%nat, (p y); reflexivity).
  rewrite (flat_enum_at l k x _ H). cbn [snd]. rewrite P. reflexivity.
Qed.
Lemma enum_pick1 {A C} (l : list A) k x (f : A -> list C) : nth_error l k = Some x -> flat_map (fun '(i, y) => where_ (S i =? S k)%nat (f y)) (enum l) = f x.
Proof. intros H. rewrite (flat_map_in_ext _ (fun e => where_ (fst e =? k)%nat (f (snd e)))) by (intros [i y] _; reflexivity). rewrite (flat_enum_at l k x _ H). reflexivity. Qed.
Lemma ms_q_fks_ok db : ms_ok db -> ms_q_fks db = fk_pairs db.
Proof.
  intros Mo. pose proof (mo_db db Mo) as Ok. unfold ms_q_fks, ms_fkc, fk_pairs. rewrite flat_map_flat. rewrite <- (flat_enum _ db). apply flat_map_in_ext. intros [i t] Hi. apply enum_in in Hi. assert (Ht : In t db) by (eapply nth_error_In, Hi).
  rewrite flat_map_flat. apply flat_map_in_ext. intros f Hf. rewrite flat_map_map. rewrite <- flat_map_single. apply flat_map_in_ext. intros [c rc] Hc.
  destruct (ok_fk db Ok t f Ht Hf) as (_ & _ & _ & _ & C1 & u & Hu & Ku & C2). pose proof (in_combine_l _ _ _ _ Hc) as Ic. pose proof (in_combine_r _ _ _ _ Hc) as Ir.
  destruct (mo_fk db Mo t f u Ht Hf Hu Ku) as [Kt Kv]. assert (Mt : is_mstable t = true) by (unfold is_mstable; destruct (at_kind t); congruence). assert (Mu : is_mstable u = true) by (unfold is_mstable; destruct (at_kind u); congruence).
  unfold table_key in Ku. injection Ku as Es En. rewrite <- Es, <- En. destruct (table_id_at db u (ok_tables db Ok) Hu Mu) as (j & Ej & Nj). rewrite Ej, Nj.
  destruct (column_at (at_cols t) c (ok_cols db Ok t Ht) (C1 c Ic)) as (k1 & c1 & N1 & A1 & T1). destruct (column_at (at_cols u) rc (ok_cols db Ok u Hu) (C2 rc Ir)) as (k2 & c2 & N2 & A2 & T2). rewrite T1, T2.
  rewrite (enum_pick db i t is_mstable _ Hi Mt). rewrite (enum_pick1 (at_cols t) k1 c1 _ N1). rewrite (enum_pick db j u is_mstable _ Nj Mu). rewrite (enum_pick1 (at_cols u) k2 c2 _ N2). rewrite A1, A2. reflexivity.
Qed.

(** ** An index column that the table does not have *)
Lemma attach_cols_all tfqn ix : forall names st pk, match attach_cols st tfqn ix names pk with
  | (st', ROk _) => p_cols st' = p_cols st /\ forall n, In n names -> mget (tfqn ++ B "." ++ n) (p_cols st) <> None
  | (_, RErr _) => False
  | (_, RPanic) => True end.
Proof.
  induction names as [|n names IH]; intros st pk; cbn [attach_cols]; [split; [reflexivity|intros m []]|].
  destruct (mget (tfqn ++ B "." ++ n) (p_cols st)) as [id|] eqn:E; [|exact I]. specialize (IH (set_heap st (upd_heap (p_heap st) id (add_idx ix))) (if ix_primary ix && (length (ix_cols ix) =? 1)%nat then Some id else pk)).
  destruct (attach_cols _ _ _ names _) as [st' [p|e|]]; [|exact IH|exact I]. destruct IH as [E1 E2]. cbn [set_heap p_cols] in E1, E2. split; [exact E1|]. intros m [<-|Hm]; [congruence|apply E2, Hm].
Qed.
Lemma attach_all tfqn : forall ii st pk, match attach st tfqn ii pk with
  | (st', ROk _) => p_cols st' = p_cols st /\ forall ix n, In ix ii -> In n (ix_cols ix) -> mget (tfqn ++ B "." ++ n) (p_cols st) <> None
  | (_, RErr _) => False
  | (_, RPanic) => True end.
Proof.
  induction ii as [|ix ii IH]; intros st pk; cbn [attach]; [split; [reflexivity|intros i n []]|]. pose proof (attach_cols_all tfqn ix (ix_cols ix) st pk) as A. destruct (attach_cols st tfqn ix (ix_cols ix) pk) as [st1 [p|e|]]; [|exact A|exact I]. destruct A as [E1 E2].
  specialize (IH st1 p). destruct (attach st1 tfqn ii p) as [st2 [q|e|]]; [|exact IH|exact I]. destruct IH as [F1 F2]. split; [congruence|]. intros i n [<-|Hi] Hn; [apply E2, Hn|]. rewrite <- E1. apply (F2 i n Hi Hn).
Qed.
Definition cols_from (cat : catalog) (rows : list tabrow) (st : prov) : Prop :=
  forall k, mget k (p_cols st) <> None -> exists q c, In q rows /\ In c (rows_of (cat_columns cat (tr_schema q) (tr_name q))) /\ k = fqn3 (tr_schema q) (tr_name q) (cr_name c).
Lemma read_state_cols st s t rows : p_cols (read_state st s t rows) = put_cols s t rows (length (p_heap st)) (p_cols st).
Proof. reflexivity. Qed.
Lemma table_row_or cat rows schemas tables st ts q : In q rows ->
  (forall q, In q rows -> delivers (cat_columns cat (tr_schema q) (tr_name q)) (rows_of (cat_columns cat (tr_schema q) (tr_name q))) /\ delivers (cat_indexes cat (tr_schema q) (tr_name q)) (rows_of (cat_indexes cat (tr_schema q) (tr_name q))) /\ no_dot (tr_schema q) /\ no_dot (tr_name q)) ->
  cols_from cat rows st -> match table_row cat schemas tables (st, ts) q with
  | ((st', _), ROk _) => cols_from cat rows st' /\ (wanted schemas tables (tr_schema q) (tr_name q) = true -> forall ix n, In ix (rows_of (cat_indexes cat (tr_schema q) (tr_name q))) -> In n (split_on (ch 44) (ir_cols ix)) -> In n (map cr_name (rows_of (cat_columns cat (tr_schema q) (tr_name q)))))
  | (_, RErr _) => False
  | (_, RPanic) => True end.
Proof.
  intros Hq H C. unfold table_row. destruct (wanted schemas tables (tr_schema q) (tr_name q)) eqn:W; cbn [negb]; [|split; [exact C|discriminate]].
  destruct (H q Hq) as (Dc & Di & N1 & N2). rewrite (read_columns_ok cat st _ _ _ Dc), (read_indexes_ok cat _ _ _ Di).
  set (cs := rows_of (cat_columns cat (tr_schema q) (tr_name q))) in *. set (st1 := read_state st (tr_schema q) (tr_name q) cs).
  assert (C1 : cols_from cat rows st1).
  { intros k Hk. unfold st1 in Hk. rewrite read_state_cols in Hk. destruct (existsb (fun r => beqb (fqn3 (tr_schema q) (tr_name q) (cr_name r)) k) cs) eqn:Ex.
    - apply existsb_exists in Ex. destruct Ex as (c & Hc & Ec). destruct (beqb_spec (fqn3 (tr_schema q) (tr_name q) (cr_name c)) k) as [Ek|]; [|discriminate]. exists q, c. auto.
    - rewrite put_cols_other in Hk; [apply C, Hk|]. intros r Hr Ek. assert (existsb (fun r => beqb (fqn3 (tr_schema q) (tr_name q) (cr_name r)) k) cs = true) by (apply existsb_exists; exists r; split; [exact Hr|rewrite Ek; apply beqb_refl]). congruence. }
  pose proof (attach_all (fqn2 (tr_schema q) (tr_name q)) (map make_index (rows_of (cat_indexes cat (tr_schema q) (tr_name q)))) st1 None) as A. destruct (attach st1 _ _ None) as [st2 [p|e|]]; [|exact A|exact I]. destruct A as [A1 A2]. split.
  - intros k Hk. cbn [put_table p_cols] in Hk. rewrite A1 in Hk. apply C1, Hk.
  - intros _ ix n Hix Hn. specialize (A2 (make_index ix) n (in_map make_index _ _ Hix) Hn). destruct (C1 _ A2) as (q' & c & Hq' & Hc & E). rewrite fqn2_dot in E. destruct (H q' Hq') as (_ & _ & M1 & M2).
    destruct (fqn3_inj _ _ _ _ _ _ N1 M1 N2 M2 E) as (E1 & E2 & E3). rewrite <- E1, <- E2 in Hc. rewrite E3. apply in_map, Hc.
Qed.
Lemma rows_panic cat rows schemas tables :
  (forall q, In q rows -> delivers (cat_columns cat (tr_schema q) (tr_name q)) (rows_of (cat_columns cat (tr_schema q) (tr_name q))) /\ delivers (cat_indexes cat (tr_schema q) (tr_name q)) (rows_of (cat_indexes cat (tr_schema q) (tr_name q))) /\ no_dot (tr_schema q) /\ no_dot (tr_name q)) ->
  forall q ix n, wanted schemas tables (tr_schema q) (tr_name q) = true -> In ix (rows_of (cat_indexes cat (tr_schema q) (tr_name q))) -> In n (split_on (ch 44) (ir_cols ix)) -> ~ In n (map cr_name (rows_of (cat_columns cat (tr_schema q) (tr_name q)))) ->
  forall l, (forall r, In r l -> In r rows) -> In q l -> forall st ts, cols_from cat rows st -> snd (each_row (table_row cat schemas tables) (st, ts) (map SRow l)) = RPanic.
Proof.
  intros H q ix n W Hix Hn Bad. induction l as [|r l IH]; intros Sub Hq st ts C; [destruct Hq|]. cbn [map each_row]. pose proof (table_row_or cat rows schemas tables st ts r (Sub r (or_introl eq_refl)) H C) as T.
  destruct (table_row cat schemas tables (st, ts) r) as [[st' ts'] [u|e|]]; [|destruct T|reflexivity]. destruct T as [C' G]. destruct Hq as [->|Hq]; [exfalso; apply Bad, (G W ix n Hix Hn)|]. apply IH; auto. intros s Hs. apply Sub. right. exact Hs.
Qed.
Lemma list_panics cat rows schemas tables q ix n : delivers (cat_tables cat) rows ->
  (forall q, In q rows -> delivers (cat_columns cat (tr_schema q) (tr_name q)) (rows_of (cat_columns cat (tr_schema q) (tr_name q))) /\ delivers (cat_indexes cat (tr_schema q) (tr_name q)) (rows_of (cat_indexes cat (tr_schema q) (tr_name q))) /\ no_dot (tr_schema q) /\ no_dot (tr_name q)) ->
  In q rows -> wanted schemas tables (tr_schema q) (tr_name q) = true -> In ix (rows_of (cat_indexes cat (tr_schema q) (tr_name q))) -> In n (split_on (ch 44) (ir_cols ix)) -> ~ In n (map cr_name (rows_of (cat_columns cat (tr_schema q) (tr_name q)))) ->
  snd (list_tables cat new_prov schemas tables) = RPanic.
Proof.
  intros D H Hq W Hix Hn Bad. unfold list_tables, list_tables_only, run_query. rewrite D. cbn [src_rows src_err].
  pose proof (rows_panic cat rows schemas tables H q ix n W Hix Hn Bad rows (fun r Hr => Hr) Hq new_prov []) as P. cbn [new_prov p_cols] in P.
  assert (C : cols_from cat rows new_prov) by (intros k Hk; contradiction Hk; reflexivity). specialize (P C). destruct (each_row (table_row cat schemas tables) (new_prov, []) (map SRow rows)) as [[st' ts] o]. cbn [snd] in P. subst o. reflexivity.
Qed.

(** ** Groups *)
Lemma add_group_keys {K V} (eqb : K -> K -> bool) k (v : V) : (forall a b, eqb a b = true <-> a = b) -> forall g, NoDup (map fst g) -> NoDup (map fst (add_group eqb k v g)) /\ (forall j, In j (map fst (add_group eqb k v g)) -> j = k \/ In j (map fst g)).
Proof.
  intros Eq. induction g as [|[j vs] g IH]; intros ND; cbn [add_group map fst]; [split; [repeat constructor; intros []|intros i [<-|[]]; auto]|]. cbn [map fst] in ND. inversion ND as [|? ? N ND' E]; subst. destruct (eqb j k) eqn:Ek; cbn [map fst].
  - split; [constructor; assumption|intros i Hi; right; exact Hi].
  - destruct (IH ND') as [A C]. split; [constructor; [|exact A]|].
    + intros H. destruct (C j H) as [->|H']; [rewrite (proj2 (Eq k k) eq_refl) in Ek; discriminate|contradiction].
    + intros i [<-|Hi]; [right; left; reflexivity|]. destruct (C i Hi); auto. right. right. assumption.
Qed.
Lemma add_group_in {K V} (eqb : K -> K -> bool) k (v : V) : (forall a b, eqb a b = true <-> a = b) -> forall g, (exists vs, In (k, vs) (add_group eqb k v g) /\ In v vs) /\ (forall j ws w, In (j, ws) g -> In w ws -> exists vs, In (j, vs) (add_group eqb k v g) /\ In w vs).
Proof.
  intros Eq. induction g as [|[j vs] g [IH1 IH2]]; cbn [add_group]; [split; [exists [v]; split; left; reflexivity|intros j ws w []]|]. destruct (eqb j k) eqn:Ek.
  - apply Eq in Ek. subst j. split; [exists (vs ++ [v]); split; [left; reflexivity|apply in_app_iff; right; left; reflexivity]|]. intros j ws w [[= -> ->]|H] Hw; [exists (ws ++ [v]); split; [left; reflexivity|apply in_app_iff; left; exact Hw]|exists ws; split; [right; exact H|exact Hw]].
  - split; [destruct IH1 as (ws & H & Hw); exists ws; split; [right; exact H|exact Hw]|]. intros i ws w [[= -> ->]|H] Hw; [exists ws; split; [left; reflexivity|exact Hw]|]. destruct (IH2 i ws w H Hw) as (us & Hu & Hwu). exists us. split; [right; exact Hu|exact Hwu].
Qed.
Lemma group_in {K V} (eqb : K -> K -> bool) (rows : list (K * V)) k v : (forall a b, eqb a b = true <-> a = b) -> In (k, v) rows -> exists vs, In (k, vs) (group_by eqb rows) /\ In v vs.
Proof.
  intros Eq. unfold group_by. assert (G : forall rows g, In (k, v) rows \/ (exists vs, In (k, vs) g /\ In v vs) -> exists vs, In (k, vs) (fold_left (fun g kv => add_group eqb (fst kv) (snd kv) g) rows g) /\ In v vs).
  { clear rows. induction rows as [|[j w] rows IH]; intros g H; cbn [fold_left fst snd]; [destruct H as [[]|H]; exact H|]. apply IH. destruct (add_group_in eqb j w Eq g) as [A C]. destruct H as [[[= -> ->]|H]|(vs & H & Hv)]; [right; exact A|left; exact H|right; apply (C k vs v H Hv)]. }
  intros H. apply G. left. exact H.
Qed.
(** An index row of one table counts for the same-named index of the other. *)
Lemma shared_index_row db t u x y d : (forall t, In t db -> NoDup (col_names t)) -> In t db -> In u db -> is_table t = true -> is_table u = true -> In x (at_idx t) -> In y (at_idx u) -> ai_name x = ai_name y -> In d (index_columns u y) ->
  In ((ai_name y, ai_primary y, ai_unique y), d) (pg_index_rows db (at_schema t) (at_name t)).
Proof.
  intros ND Ht Hu Kt Ku Hx Hy E Hd. rewrite index_rows_plain by exact ND. apply in_flat_map. exists u. split; [exact Hu|]. rewrite Ku. cbn [where_]. apply in_flat_map. exists y. split; [exact Hy|]. apply in_flat_map. exists d. split; [exact Hd|].
  apply in_flat_map. exists (at_schema t, at_name t, ai_name x). split.
  - unfold pg_indexes. apply in_flat_map. exists t. split; [exact Ht|]. unfold is_table in Kt. destruct (at_kind t); try discriminate. apply (in_map (fun x => (at_schema t, at_name t, ai_name x))), Hx.
  - rewrite E, !beqb_refl. left. reflexivity.
Qed.
Lemma pg_shared_panics db cat schemas tables t u x y d : db_ok db -> plain_names db -> pg_answers db cat ->
  In t db -> In u db -> is_user t -> at_kind t = TTable -> at_kind u = TTable -> wanted schemas tables (at_schema t) (at_name t) = true ->
  In x (at_idx t) -> In y (at_idx u) -> ai_name x = ai_name y -> In d (index_columns u y) -> ~ In d (col_names t) ->
  snd (list_tables cat new_prov schemas tables) = RPanic.
Proof.
  intros Ok Pn A Ht Hu Us Kt Ku W Hx Hy E Hd Bad.
  destruct (some_order_rows _ _ (pa_tables db cat A)) as [PT DT]. rewrite pg_q_tables_ok in PT. set (q := mkTR (at_schema t) (at_name t) (pg_ty t)).
  assert (Hq : In q (rows_of (cat_tables cat))).
  { apply (Permutation_in _ PT). apply (in_map (fun t => mkTR (at_schema t) (at_name t) (pg_ty t))). apply filter_In. split; [exact Ht|]. apply pg_listed_iff. split; [exact Us|]. unfold pg_table_type. rewrite Kt. eexists. reflexivity. }
  assert (All : forall r, In r (rows_of (cat_tables cat)) -> delivers (cat_columns cat (tr_schema r) (tr_name r)) (rows_of (cat_columns cat (tr_schema r) (tr_name r))) /\ delivers (cat_indexes cat (tr_schema r) (tr_name r)) (rows_of (cat_indexes cat (tr_schema r) (tr_name r))) /\ no_dot (tr_schema r) /\ no_dot (tr_name r)).
  { intros r Hr. apply (Permutation_in _ (Permutation_sym PT)) in Hr. apply in_map_iff in Hr. destruct Hr as (w & <- & Hw). apply filter_In in Hw. destruct Hw as [Hw _]. cbn [tr_schema tr_name]. destruct (pn_tables db Pn w Hw) as (N1 & N2 & U1 & U2).
    split; [apply (some_order_rows _ _ (pa_columns db cat A _ _ U1 U2))|]. destruct (pa_indexes db cat A (at_schema w) (at_name w)) as (rs & _ & S). split; [apply (some_order_rows _ _ S)|auto]. }
  assert (Row : In ((ai_name y, ai_primary y, ai_unique y), d) (pg_index_rows db (at_schema t) (at_name t))).
  { apply (shared_index_row db t u x y d (ok_cols db Ok) Ht Hu); auto; unfold is_table; [rewrite Kt|rewrite Ku]; reflexivity. }
  assert (ColsIn : forall k v, In (k, v) (group_by ikey_eqb (pg_index_rows db (at_schema t) (at_name t))) -> forall c, In c v -> ~ In (ch 44) c).
  { assert (RC : forall k c, In (k, c) (pg_index_rows db (at_schema t) (at_name t)) -> ~ In (ch 44) c).
    { intros k c H. rewrite index_rows_plain in H by apply (ok_cols db Ok). apply in_flat_map in H. destruct H as (w & Hw & H). destruct (is_table w); [|destruct H]. cbn [where_] in H. apply in_flat_map in H. destruct H as (z & Hz & H). apply in_flat_map in H. destruct H as (c' & Hc' & H). apply in_flat_map in H. destruct H as ([[sn tn] im] & _ & H).
      destruct (_ && _ && _); [|destruct H]. destruct H as [[= _ <-]|[]]. apply (pn_cols db Pn w c' Hw), (index_columns_in w z), Hc'. }
    assert (G : forall rows g, (forall k c, In (k, c) rows -> ~ In (ch 44) c) -> (forall k v, In (k, v) g -> forall c, In c v -> ~ In (ch 44) c) -> forall k v, In (k, v) (fold_left (fun g kv => add_group ikey_eqb (fst kv) (snd kv) g) rows g) -> forall c, In c v -> ~ In (ch 44) c).
    { clear. induction rows as [|[j w] rows IH]; intros g H1 H2; cbn [fold_left fst snd]; [exact H2|]. apply IH; [intros k c H; apply (H1 k c); right; exact H|]. assert (Hw : ~ In (ch 44) w) by (apply (H1 j w); left; reflexivity). clear - H2 Hw. induction g as [|[i vs] g IHg]; cbn [add_group].
      - intros k v [[= <- <-]|[]] c [<-|[]]. exact Hw.
      - destruct (ikey_eqb i j); intros k v [[= <- <-]|H] c Hc.
        + apply in_app_iff in Hc. destruct Hc as [Hc|[<-|[]]]; [apply (H2 i vs (or_introl eq_refl) c Hc)|exact Hw].
        + apply (H2 k v (or_intror H) c Hc).
        + apply (H2 i vs (or_introl eq_refl) c Hc).
        + apply (IHg (fun k v H => H2 k v (or_intror H)) k v H c Hc). }
    intros k v H. apply (G _ [] RC) with (k := k); [intros ? ? []|exact H]. }
  destruct (group_in ikey_eqb _ _ _ ikey_eqb_eq Row) as (vs & Hvs & Hdv). destruct (pa_indexes db cat A (at_schema t) (at_name t)) as (rs & F & S).
  destruct (f2_in_l _ _ _ _ F Hvs) as (r & Hr & cs & Pc & Er). destruct (some_order_rows _ _ S) as [PS _].
  apply (list_panics cat (rows_of (cat_tables cat)) schemas tables q r d DT All Hq W).
  - apply (Permutation_in _ PS), Hr.
  - rewrite Er. cbn [ir_cols snd] in *. rewrite split_join; [apply (Permutation_in _ Pc), Hdv|intros ->; apply Permutation_sym, Permutation_nil in Pc; subst; destruct Hdv|]. apply Forall_forall. intros c Hc. apply (ColsIn _ vs Hvs), (Permutation_in _ (Permutation_sym Pc)), Hc.
  - destruct (pn_tables db Pn t Ht) as (_ & _ & U1 & U2). destruct (some_order_rows _ _ (pa_columns db cat A _ _ U1 U2)) as [PC _]. cbn [q tr_schema tr_name]. intros H. apply Bad. rewrite (pg_q_columns_ok db t (ok_tables db Ok) Ht) in PC. unfold pg_col_rows in PC. rewrite Kt in PC. cbn [pg_type] in PC.
    rewrite <- (col_rows_names a_udt t). apply (Permutation_in _ (Permutation_sym (Permutation_map cr_name PC))), H.
Qed.
(** Markup in the name of an indexed column *)
Lemma ms_markup_panics db cat schemas tables t x n : ms_ok db -> plain_names db -> (forall t, In t db -> at_props t = []) -> ms_answers db cat ->
  In t db -> at_kind t <> TView -> at_shipped t = false -> wanted schemas tables (at_schema t) (at_name t) = true -> In x (at_idx t) -> In n (index_columns t x) -> ~ In (xml_text n) (col_names t) ->
  snd (list_tables cat new_prov schemas tables) = RPanic.
Proof.
  intros Mo Pn Np A Ht Kt St W Hx Hn Bad. pose proof (mo_db db Mo) as Ok. assert (Mt : is_mstable t = true) by (unfold is_mstable; destruct (at_kind t); congruence).
  destruct (some_order_rows _ _ (ma_tables db cat A)) as [PT DT]. rewrite ms_q_tables_ok in PT by exact Np. set (q := mkTR (at_schema t) (at_name t) (B "USER_TABLE")).
  assert (Hq : In q (rows_of (cat_tables cat))).
  { apply (Permutation_in _ PT). apply (in_map (fun t => mkTR (at_schema t) (at_name t) (B "USER_TABLE"))). apply filter_In. split; [exact Ht|]. rewrite Mt, St. reflexivity. }
  assert (All : forall r, In r (rows_of (cat_tables cat)) -> delivers (cat_columns cat (tr_schema r) (tr_name r)) (rows_of (cat_columns cat (tr_schema r) (tr_name r))) /\ delivers (cat_indexes cat (tr_schema r) (tr_name r)) (rows_of (cat_indexes cat (tr_schema r) (tr_name r))) /\ no_dot (tr_schema r) /\ no_dot (tr_name r)).
  { intros r Hr. apply (Permutation_in _ (Permutation_sym PT)) in Hr. apply in_map_iff in Hr. destruct Hr as (w & <- & Hw). apply filter_In in Hw. destruct Hw as [Hw _]. cbn [tr_schema tr_name]. destruct (pn_tables db Pn w Hw) as (N1 & N2 & U1 & U2).
    split; [apply (some_order_rows _ _ (ma_columns db cat A _ _ U1 U2))|]. split; [apply (some_order_rows _ _ (ma_indexes db cat A _ _))|auto]. }
  destruct (some_order_rows _ _ (ma_indexes db cat A (at_schema t) (at_name t))) as [PI _]. rewrite (ms_q_indexes_ok db t (ok_tables db Ok) Ht), Mt, St in PI. cbn [andb negb where_] in PI.
  assert (NE : index_columns t x <> []) by (apply (mo_idx db Mo t x Ht Hx)).
  apply (list_panics cat (rows_of (cat_tables cat)) schemas tables q (mkIR (ai_name x) (ai_primary x) (ai_unique x) (drop_last (flat_map (fun c => xml_text (c ++ B ",")) (index_columns t x)))) (xml_text n) DT All Hq W).
  - apply (Permutation_in _ PI). apply (in_map (fun x => mkIR (ai_name x) (ai_primary x) (ai_unique x) (drop_last (flat_map (fun c => xml_text (c ++ B ",")) (index_columns t x))))), Hx.
  - cbn [ir_cols]. rewrite comma_join by exact NE. rewrite split_join; [apply in_map, Hn|destruct (index_columns t x); [congruence|discriminate]|]. apply Forall_forall. intros c Hc. apply in_map_iff in Hc. destruct Hc as (m & <- & Hm).
    pose proof (pn_cols db Pn t m Ht (index_columns_in t x m Hm)) as Nc. clear - Nc. unfold xml_text. intros H. apply in_flat_map in H. destruct H as (c & Hc & H). unfold xml_char in H.
    destruct (ascii_dec c (ch 38)); [vm_compute in H; intuition discriminate|]. destruct (ascii_dec c (ch 60)); [vm_compute in H; intuition discriminate|]. destruct (ascii_dec c (ch 62)); [vm_compute in H; intuition discriminate|]. destruct H as [->|[]]. contradiction.
  - destruct (pn_tables db Pn t Ht) as (_ & _ & U1 & U2). destruct (some_order_rows _ _ (ma_columns db cat A _ _ U1 U2)) as [PC _]. cbn [q tr_schema tr_name]. intros H. apply Bad. rewrite (ms_q_columns_ok db t (ok_tables db Ok) Ht) in PC.
    rewrite <- (col_rows_names a_type t). apply (Permutation_in _ (Permutation_sym (Permutation_map cr_name PC))), H.
Qed.
(** ** Every listed table comes from a row *)
Lemma listed_from cat schemas tables st rows st' ts : delivers (cat_tables cat) rows -> list_tables cat st schemas tables = (st', ROk ts) -> forall x, In x ts -> exists r, In r rows /\ t_schema x = tr_schema r /\ t_name x = tr_name r.
Proof.
  intros D E. unfold list_tables, list_tables_only, run_query in E. rewrite D in E. cbn [src_rows src_err] in E.
  assert (G : forall l st acc st' acc', (forall r, In r l -> In r rows) -> (forall x, In x acc -> exists r, In r rows /\ t_schema x = tr_schema r /\ t_name x = tr_name r) ->
     each_row (table_row cat schemas tables) (st, acc) (map SRow l) = ((st', acc'), ROk tt) -> forall x, In x acc' -> exists r, In r rows /\ t_schema x = tr_schema r /\ t_name x = tr_name r).
  { clear E. induction l as [|r l IH]; intros s acc s' acc' Sub Ha E; cbn [map each_row] in E; [injection E as <- <-; exact Ha|]. destruct (table_row cat schemas tables (s, acc) r) as [[s1 acc1] o] eqn:T. destruct o as [[]|e|]; [|discriminate|discriminate].
    apply (IH s1 acc1 s' acc'); [intros z Hz; apply Sub; right; exact Hz| |exact E]. unfold table_row in T. destruct (negb _); [injection T as <- <-; exact Ha|]. destruct (read_columns cat s (tr_schema r) (tr_name r)) as [s2 [cc|e|]]; [|discriminate|discriminate]. destruct (read_indexes cat (tr_schema r) (tr_name r)) as [ii|e|]; [|discriminate|discriminate]. destruct (attach s2 _ ii None) as [s3 [pk|e|]]; [|discriminate|discriminate].
    injection T as <- <-. intros x Hx. apply in_app_iff in Hx. destruct Hx as [Hx|[<-|[]]]; [apply Ha, Hx|]. exists r. split; [apply Sub; left; reflexivity|auto]. }
  destruct (each_row (table_row cat schemas tables) (st, []) (map SRow rows)) as [[s1 acc] [[]|e|]] eqn:Er; [|discriminate|discriminate]. cbn [sorted_tables] in E. injection E as <- <-.
  intros x Hx. apply (G rows st [] s1 acc (fun r H => H) (fun x H => match H with end) Er). apply (Permutation_in _ (Permutation_sym (sort_perm_by by_name acc))), Hx.
Qed.
