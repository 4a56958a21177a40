(** Property theorems C178: what the command line tool prints of a database, from
    the catalog of the server to the text. *)
From Verif Require Import GoBase GoBaseFacts TypeModel ParamModel SchemaModel SchemaSpec SchemaProofs SchemaDeps SchemaProps CatalogModel CatalogSpec CatalogListing CatalogProps JsonModel JsonSpec CliModel CliSpec CliProofs CliProps CliDbSpec.
From Coq Require Import Permutation Sorted.
Open Scope Z_scope.

(** ** What is shown of a listed table *)
Lemma shown_cols nilx h x : forall cs, map (nth_error h) (t_cols x) = map Some cs -> elems (pt_cols (shown nilx h x)) = map shown_column cs.
Proof.
  unfold shown. cbn [pt_cols elems]. induction (t_cols x) as [|i l IH]; intros [|c cs] E; try discriminate E; [reflexivity|]. cbn [map] in E. injection E as E1 E2. cbn [flat_map map]. rewrite E1, (IH _ E2). reflexivity.
Qed.
Lemma all_some {A B} (R : A -> option B -> Prop) l r : Forall2 R l r -> (forall a o, R a o -> exists b, o = Some b) -> exists bs, r = map Some bs.
Proof. intros F H. induction F as [|a o l r Ho _ (bs & ->)]; [exists []; reflexivity|]. destruct (H _ _ Ho) as (b & ->). exists (b :: bs). reflexivity. Qed.
Lemma index_shown_as i : index_as i (shown_index i).
Proof. repeat split. Qed.
Lemma column_shown_as c : column_as c (shown_column c).
Proof. unfold column_as, shown_column. cbn [pc_name pc_type pc_udt pc_null pc_max pc_pos pc_ref pc_idx]. repeat (split; [reflexivity|]). induction (c_idx c); constructor; [apply index_shown_as|assumption]. Qed.
Lemma shown_idx nilx h x : (nilx x = true -> t_idx x = []) -> elems (pt_idx (shown nilx h x)) = map shown_index (t_idx x).
Proof. intros H. unfold shown. cbn [pt_idx]. destruct (nilx x); [rewrite (H eq_refl)|]; reflexivity. Qed.
Lemma seen_shown nilx st x : (nilx x = true -> t_idx x = []) -> (exists cs, v_columns (see st x) = map Some cs) -> (forall o, v_pk (see st x) = Some o -> o <> None) -> printed_as (see st x) (shown nilx (p_heap st) x).
Proof.
  intros N (cs & C) K. constructor.
  - repeat split.
  - rewrite C, (shown_cols nilx (p_heap st) x cs C). clear. induction cs; constructor; [eexists; split; [reflexivity|apply column_shown_as]|assumption].
  - rewrite (shown_idx _ _ _ N). cbn [see v_indexes]. clear. induction (t_idx x); constructor; [apply index_shown_as|assumption].
  - unfold shown. cbn [pt_pk]. cbn [see v_pk] in *. destruct (t_pk x) as [i|]; [|exact I]. destruct (nth_error (p_heap st) i) as [c|] eqn:E; [apply column_shown_as|exfalso; exact (K None eq_refl eq_refl)].
Qed.
Lemma shows_shown ty udt idx st t x nilx : (nilx x = true -> t_idx x = []) -> shows ty udt idx st t x -> prints ty udt idx t (shown nilx (p_heap st) x).
Proof.
  intros N [(S1 & S2 & S3 & S4 & _) SC SI SP].
  destruct (all_some _ _ _ SC) as (cs & E); [intros a o (k & -> & _); eauto|].
  assert (SC' : Forall2 (prints_column udt) (enum (at_cols t)) (map shown_column cs)).
  { rewrite E in SC. clear - SC. revert SC. generalize (enum (at_cols t)). induction cs as [|c cs IH]; intros l F; inversion F as [|e o l' r (k & Ek & H) F']; subst; constructor; [injection Ek as ->; exact H|apply IH, F']. }
  pose proof (shown_cols nilx (p_heap st) x cs E) as Ec. constructor.
  - repeat split; assumption.
  - rewrite Ec. exact SC'.
  - destruct SI as (l & P & F). exists l. split; [exact P|]. rewrite (shown_idx _ _ _ N). clear - F. induction F as [|a i l r H _ IH]; constructor; [exact H|exact IH].
  - unfold shown at 1. cbn [pt_pk]. destruct (t_pk x) as [i|]; [|exact SP]. destruct SP as (k & a & -> & Ik & Ia & Pa & Ca). cbn [option_map]. split; [|exists a; auto].
    rewrite Ec. rewrite E in Ik. apply in_map_iff in Ik as (k' & [= ->] & Ik). apply in_map, Ik.
Qed.
Lemma shows_view_shown udt st t x nilx : (nilx x = true -> t_idx x = []) -> shows_view udt st t x -> prints_view udt t (shown nilx (p_heap st) x) /\ pt_type (shown nilx (p_heap st) x) = [] /\ elems (pt_idx (shown nilx (p_heap st) x)) = [] /\ pt_pk (shown nilx (p_heap st) x) = None.
Proof.
  intros N [(S1 & S2 & S3 & S4 & S5 & S6 & _) SC].
  destruct (all_some _ _ _ SC) as (cs & E); [intros a o (k & -> & _); eauto|].
  pose proof (shown_cols nilx (p_heap st) x cs E) as Ec. split; [constructor|].
  - repeat split; assumption.
  - rewrite Ec. rewrite E in SC. clear - SC. revert SC. generalize (enum (at_cols t)). induction cs as [|c cs IH]; intros l F; inversion F as [|e o l' r (k & Ek & H) F']; subst; constructor; [injection Ek as ->; exact H|apply IH, F'].
  - split; [exact S4|]. rewrite (shown_idx _ _ _ N), S5. split; [reflexivity|]. unfold shown. cbn [pt_pk]. rewrite S6. reflexivity.
Qed.
Lemma prints_plain ty udt idx t p : prints ty udt idx t p -> prints ty udt idx t (plain_table p).
Proof.
  intros [(S1 & S2 & S3 & S4) SC SI SP].
  assert (Ep : elems (pt_cols (plain_table p)) = map plain_column (elems (pt_cols p))) by (unfold plain_table; cbn [pt_cols]; destruct (pt_cols p); reflexivity).
  constructor; [repeat split; assumption|rewrite Ep; clear - SC; induction SC as [|a b l r H _ IH]; constructor; [exact H|exact IH]|exact SI|].
  rewrite Ep. cbn [plain_table pt_pk]. destruct (pt_pk p) as [k|]; [|exact SP]. destruct SP as (I & a & A). cbn [option_map]. split; [apply in_map, I|exists a; exact A].
Qed.
Lemma prints_view_plain udt t p : prints_view udt t p -> prints_view udt t (plain_table p).
Proof.
  intros [S SC].
  assert (Ep : elems (pt_cols (plain_table p)) = map plain_column (elems (pt_cols p))) by (unfold plain_table; cbn [pt_cols]; destruct (pt_cols p); reflexivity).
  constructor; [exact S|rewrite Ep; clear - SC; induction SC as [|a b l r H _ IH]; constructor; [exact H|exact IH]].
Qed.
Lemma columns_text udt cols ps : Forall (fun c => utf8_text (a_name c) /\ utf8_text (a_type c) /\ utf8_text (a_udt c)) cols -> (forall c, In c cols -> utf8_text (udt c)) ->
  Forall2 (prints_column udt) (enum cols) ps -> Forall column_utf8 ps.
Proof.
  intros U Uu F. assert (G : forall e, In e (enum cols) -> In (snd e) cols) by (intros [i c] He; apply in_combine_r in He; exact He). revert F G. generalize (enum cols). intros es F. induction F as [|e k es ps (A1 & A2 & A3 & _) _ IH]; intros G; constructor; [|apply IH; intros e' He'; apply G; right; exact He'].
  specialize (G e (or_introl eq_refl)). rewrite Forall_forall in U. destruct (U _ G) as (B1 & B2 & _). unfold column_utf8. rewrite A1, A2, A3. auto.
Qed.
Lemma prints_utf8 ty udt idx t p : utf8_text ty -> (forall a, In a idx -> In a (at_idx t)) ->
  utf8_text (at_schema t) /\ utf8_text (at_name t) /\ Forall (fun c => utf8_text (a_name c) /\ utf8_text (a_type c) /\ utf8_text (a_udt c)) (at_cols t) /\ Forall (fun a => utf8_text (ai_name a)) (at_idx t) ->
  (forall c, In c (at_cols t) -> utf8_text (udt c)) -> prints ty udt idx t p -> table_utf8 p.
Proof.
  intros Ut Si (U1 & U2 & U3 & U4) Uu [(S1 & S2 & S3 & S4) SC SI SP]. pose proof (columns_text udt _ _ U3 Uu SC) as UC. unfold table_utf8. rewrite S1, S2, S3. repeat (split; [assumption|]). split.
  - destruct SI as (l & P & F). assert (Sl : forall a, In a l -> In a (at_idx t)) by (intros a Ha; apply Si, (Permutation_in _ P), Ha). clear - F Sl U3 U4. induction F as [|a i l r (A1 & _ & _ & A4) _ IH]; constructor; [|apply IH; intros b Hb; apply Sl; right; exact Hb].
    split; [rewrite A1; rewrite Forall_forall in U4; apply U4, Sl; left; reflexivity|]. eapply Permutation_Forall; [apply Permutation_sym, A4|]. rewrite Forall_forall in *. intros n Hn. unfold index_columns in Hn. apply filter_In in Hn as [Hn _].
    unfold col_names in Hn. apply in_map_iff in Hn as (c & <- & Hc). apply U3, Hc.
  - destruct (pt_pk p) as [k|]; [|exact I]. destruct SP as (Ik & _). rewrite Forall_forall in UC. apply UC, Ik.
Qed.

Lemma utf8_check s : repaired s = s -> utf8_text s.
Proof. intros <-. apply JsonProofs.repaired_is_text. Qed.
Lemma f2_map_r {A C D} (R : A -> D -> Prop) (f : C -> D) l r : Forall2 (fun a c => R a (f c)) l r -> Forall2 R l (map f r).
Proof. induction 1; constructor; assumption. Qed.
Lemma f2_forall {A C} (R : A -> C -> Prop) (P : C -> Prop) l r : Forall2 R l r -> (forall a c, In a l -> R a c -> P c) -> Forall P r.
Proof. intros F H. induction F as [|a c l r Hr _ IH]; constructor; [apply (H a); [left; reflexivity|exact Hr]|apply IH; intros a' c' I; apply H; right; exact I]. Qed.
Lemma f2_weaken {A C} (R S : A -> C -> Prop) l r : Forall2 R l r -> (forall a c, In a l -> In c r -> R a c -> S a c) -> Forall2 S l r.
Proof. intros F H. induction F as [|a c l r Hr _ IH]; constructor; [apply H; [left; reflexivity|left; reflexivity|exact Hr]|apply IH; intros a' c' I J; apply H; right; assumption]. Qed.
Definition by_name (a b : atable) : Prop := bltb (fqn2 (at_schema a) (at_name a)) (fqn2 (at_schema b) (at_name b)) = true.
Lemma sorted_tables (R : atable -> table -> Prop) l ts : (forall t x, R t x -> t_fqn x = fqn2 (at_schema t) (at_name t)) -> Forall2 R l ts ->
  StronglySorted (fun a b => bltb (t_fqn a) (t_fqn b) = true) ts -> StronglySorted by_name l.
Proof.
  intros H F. induction F as [|t x l ts Hx F IH]; intros S; [constructor|]. inversion S as [|? ? S1 S2]; subst. constructor; [apply IH, S1|]. apply Forall_forall. intros u Hu. destruct (f2_in_l _ _ _ u F Hu) as (y & Hy & Ry).
  rewrite Forall_forall in S2. unfold by_name. rewrite <- (H _ _ Hx), <- (H _ _ Ry). apply S2, Hy.
Qed.
(** From a listing to the document and to the text. *)
Lemma printed_json lb r schemas tables ps : l_tables r schemas tables false = ROk ps -> Forall table_utf8 ps ->
  exists out, output lb (B "json") (ROk r) (KColumns schemas tables false false) None = (out, ROk tt) /\ read_doc rd_table out = Some (Some (map plain_table ps)).
Proof.
  intros LT UP. pose proof (C135_columns_partial lb r schemas tables false false ps LT ltac:(discriminate) UP) as R.
  destruct (output lb (B "json") (ROk r) (KColumns schemas tables false false) None) as [out o] eqn:O. exists out. split; [|exact R]. f_equal.
  revert O. unfold output, run, cmd_columns, with_provider, lift. rewrite LT. intros O. injection O as _ <-. reflexivity.
Qed.
Lemma printed_text lb format r schemas tables deps ps : format <> B "json" -> format <> B "yaml" -> l_tables r schemas tables deps = ROk ps ->
  exists outs, output lb format (ROk r) (KColumns schemas tables deps false) None = (concat outs, ROk tt) /\ Forall2 (table_text (lb_table lb)) ps outs.
Proof.
  intros N1 N2 LT. destruct (C138_tables lb format (VTables (Some ps)) N1 N2) as (outs & E & F). exists outs. split; [|exact F].
  unfold output, run, cmd_columns, with_provider, lift. rewrite LT, E. reflexivity.
Qed.
Lemma printed_views_json lb r schemas views ps : l_views r schemas views = ROk ps -> Forall table_utf8 ps ->
  exists out, output lb (B "json") (ROk r) (KViews schemas views) None = (out, ROk tt) /\ read_doc rd_table out = Some (Some (map plain_table ps)).
Proof.
  intros LT UP. pose proof (C135_views lb r schemas views ps LT UP) as R.
  destruct (output lb (B "json") (ROk r) (KViews schemas views) None) as [out o] eqn:O. exists out. split; [|exact R]. f_equal.
  revert O. unfold output, run, cmd_views, with_provider, lift. rewrite LT. change (structured (B "json")) with true. cbv iota. unfold print_object. change (beqb (B "json") (B "yaml")) with false. change (beqb (B "json") (B "json")) with true. cbv iota. intros O. injection O as _ <-. reflexivity.
Qed.
Lemma printed_fks_json lb r schemas tables ks : l_fks r schemas tables = ROk ks -> Forall fk_utf8 ks ->
  exists out, output lb (B "json") (ROk r) (KFks schemas tables) None = (out, ROk tt) /\ read_doc rd_fk out = Some (Some ks).
Proof.
  intros LT UP. pose proof (C135_fks lb r schemas tables ks LT UP) as R.
  destruct (output lb (B "json") (ROk r) (KFks schemas tables) None) as [out o] eqn:O. exists out. split; [|exact R]. f_equal.
  revert O. unfold output, run, cmd_fks, with_provider, lift. rewrite LT. unfold print_object. change (beqb (B "json") (B "yaml")) with false. change (beqb (B "json") (B "json")) with true. cbv iota. intros O. injection O as _ <-. reflexivity.
Qed.
Lemma pg_ps nilx db cat schemas tables : db_ok db -> plain_names db -> index_names_once db -> pg_answers db cat -> (forall x, nilx x = true -> t_idx x = []) ->
  exists st' ts l, list_tables cat new_prov schemas tables = (st', ROk ts) /\ NoDup l /\
    (forall t, In t l <-> In t db /\ is_user t /\ (exists ty, pg_table_type t = Some ty) /\ wanted schemas tables (at_schema t) (at_name t) = true) /\ StronglySorted by_name l /\
    Forall2 (fun t p => exists ty, pg_table_type t = Some ty /\ prints ty a_udt (pg_shown t) t p) l (map (shown nilx (p_heap st')) ts) /\
    (db_utf8 db -> Forall table_utf8 (map (shown nilx (p_heap st')) ts)).
Proof.
  intros Ok Pn Nx A N. destruct (C152_tables_partial db cat new_prov schemas tables Ok Pn Nx A) as (st' & ts & l & E & ND & I & F & S). exists st', ts, l. split; [exact E|]. split; [exact ND|]. split; [exact I|].
  split; [eapply sorted_tables; [|exact F|exact S]; intros t x (ty & _ & Sh); destruct Sh as [(_ & _ & _ & _ & Q) _ _ _]; exact Q|].
  set (ps := map (shown nilx (p_heap st')) ts).
  assert (F2 : Forall2 (fun t p => exists ty, pg_table_type t = Some ty /\ prints ty a_udt (pg_shown t) t p) l ps).
  { apply f2_map_r. eapply f2_weaken; [exact F|]. intros t x _ _ (ty & Ty & Sh). exists ty. split; [exact Ty|]. apply shows_shown; [apply N|exact Sh]. }
  split; [exact F2|]. intros U. eapply f2_forall; [exact F2|]. intros t p It (ty & Ty & P). apply I in It as (It & _). pose proof (U t It) as Ut. eapply prints_utf8; [| |exact Ut| |exact P].
  - unfold pg_table_type in Ty. destruct (at_kind t); try discriminate Ty; injection Ty as <-; apply utf8_check; vm_compute; reflexivity.
  - intros a Ha. unfold pg_shown in Ha. destruct (at_kind t); [apply filter_In in Ha; apply Ha|destruct Ha..].
  - intros c Hc. destruct Ut as (_ & _ & Uc & _). rewrite Forall_forall in Uc. apply Uc, Hc.
Qed.
Lemma ms_ps nilx db cat schemas tables : ms_ok db -> plain_names db -> (forall t n, In t db -> In n (col_names t) -> no_markup n) -> (forall t, In t db -> at_props t = []) -> ms_answers db cat -> (forall x, nilx x = true -> t_idx x = []) ->
  exists st' ts l, list_tables cat new_prov schemas tables = (st', ROk ts) /\ NoDup l /\
    (forall t, In t l <-> In t db /\ at_kind t <> TView /\ at_shipped t = false /\ wanted schemas tables (at_schema t) (at_name t) = true) /\ StronglySorted by_name l /\
    Forall2 (fun t p => prints (B "USER_TABLE") a_type (at_idx t) t p) l (map (shown nilx (p_heap st')) ts) /\
    (db_utf8 db -> Forall table_utf8 (map (shown nilx (p_heap st')) ts)).
Proof.
  intros Ok Pn Nm Np A N. destruct (C155_tables_partial db cat new_prov schemas tables Ok Pn Nm Np A) as (st' & ts & l & E & ND & I & F & S). exists st', ts, l. split; [exact E|]. split; [exact ND|]. split; [exact I|].
  split; [eapply sorted_tables; [|exact F|exact S]; intros t x [(_ & _ & _ & _ & Q) _ _ _]; exact Q|].
  set (ps := map (shown nilx (p_heap st')) ts).
  assert (F2 : Forall2 (fun t p => prints (B "USER_TABLE") a_type (at_idx t) t p) l ps).
  { apply f2_map_r. eapply f2_weaken; [exact F|]. intros t x _ _ Sh. apply shows_shown; [apply N|exact Sh]. }
  split; [exact F2|]. intros U. eapply f2_forall; [exact F2|]. intros t p It P. apply I in It as (It & _). pose proof (U t It) as Ut. eapply prints_utf8; [| |exact Ut| |exact P].
  - apply utf8_check. vm_compute. reflexivity.
  - auto.
  - intros c Hc. destruct Ut as (_ & _ & Uc & _). rewrite Forall_forall in Uc. apply Uc, Hc.
Qed.

(** ** C178: the tool prints the database *)
(** `schema columns -o json` against Postgres: the document decodes to exactly the
    tables that were asked for, each with its columns, indexes and key, sorted by
    name.  [nilx] only tells which index slices are nil.  Missing: see C152. *)
Theorem C178_pg_json_partial : forall lb nilx db cat fuel ord tord vord schemas tables, db_ok db -> plain_names db -> index_names_once db -> db_utf8 db -> pg_answers db cat -> (forall x, nilx x = true -> t_idx x = []) ->
  exists out l ps, output lb (B "json") (ROk (new_lister nilx cat fuel ord tord vord)) (KColumns schemas tables false false) None = (out, ROk tt) /\
    read_doc rd_table out = Some (Some ps) /\ NoDup l /\
    (forall t, In t l <-> In t db /\ is_user t /\ (exists ty, pg_table_type t = Some ty) /\ wanted schemas tables (at_schema t) (at_name t) = true) /\ StronglySorted by_name l /\
    Forall2 (fun t p => exists ty, pg_table_type t = Some ty /\ prints ty a_udt (pg_shown t) t p) l ps.
Proof.
  intros lb nilx db cat fuel ord tord vord schemas tables Ok Pn Nx U A N.
  destruct (pg_ps nilx db cat schemas tables Ok Pn Nx A N) as (st' & ts & l & E & ND & I & S & F & UP).
  destruct (printed_json lb (new_lister nilx cat fuel ord tord vord) schemas tables (map (shown nilx (p_heap st')) ts)) as (out & O & R); [cbn [new_lister l_tables]; rewrite E; reflexivity|exact (UP U)|].
  exists out, l, (map plain_table (map (shown nilx (p_heap st')) ts)). split; [exact O|]. split; [exact R|]. split; [exact ND|]. split; [exact I|]. split; [exact S|].
  apply f2_map_r. eapply f2_weaken; [exact F|]. intros t p _ _ (ty & Ty & P). exists ty. split; [exact Ty|apply prints_plain, P].
Qed.
(** The same in text mode, for every layout of rows: one text per table. *)
Theorem C178_pg_text_partial : forall lb format nilx db cat fuel ord tord vord schemas tables, format <> B "json" -> format <> B "yaml" -> db_ok db -> plain_names db -> index_names_once db -> pg_answers db cat -> (forall x, nilx x = true -> t_idx x = []) ->
  exists outs l, output lb format (ROk (new_lister nilx cat fuel ord tord vord)) (KColumns schemas tables false false) None = (concat outs, ROk tt) /\ NoDup l /\
    (forall t, In t l <-> In t db /\ is_user t /\ (exists ty, pg_table_type t = Some ty) /\ wanted schemas tables (at_schema t) (at_name t) = true) /\ StronglySorted by_name l /\
    Forall2 (fun t out => exists ty p, pg_table_type t = Some ty /\ prints ty a_udt (pg_shown t) t p /\ table_text (lb_table lb) p out) l outs.
Proof.
  intros lb format nilx db cat fuel ord tord vord schemas tables N1 N2 Ok Pn Nx A N.
  destruct (pg_ps nilx db cat schemas tables Ok Pn Nx A N) as (st' & ts & l & E & ND & I & S & F & _).
  destruct (printed_text lb format (new_lister nilx cat fuel ord tord vord) schemas tables false (map (shown nilx (p_heap st')) ts) N1 N2) as (outs & O & T); [cbn [new_lister l_tables]; rewrite E; reflexivity|].
  exists outs, l. split; [exact O|]. split; [exact ND|]. split; [exact I|]. split; [exact S|]. revert F T. clear. generalize (map (shown nilx (p_heap st')) ts). intros ps F. revert outs.
  induction F as [|t p l ps (ty & Ty & P) F IH]; intros outs T; inversion T; subst; constructor; [exists ty, p; auto|apply IH; assumption].
Qed.
(** `schema views -o json` *)
Theorem C178_pg_views_partial : forall lb nilx db cat fuel ord tord vord schemas views, db_ok db -> (forall t, In t db -> no_dot (at_schema t)) -> (forall t, In t db -> at_kind t = TView -> at_cols t <> []) -> db_utf8 db -> pg_answers db cat -> (forall x, nilx x = true -> t_idx x = []) ->
  NoDup vord -> (forall n, In n vord <-> exists t, In t db /\ is_user t /\ at_kind t = TView /\ wanted schemas views (at_schema t) (at_name t) = true /\ n = fqn2 (at_schema t) (at_name t)) ->
  exists out ps, output lb (B "json") (ROk (new_lister nilx cat fuel ord tord vord)) (KViews schemas views) None = (out, ROk tt) /\ read_doc rd_table out = Some (Some ps) /\
    (forall p, In p ps -> exists t, In t db /\ is_user t /\ at_kind t = TView /\ wanted schemas views (at_schema t) (at_name t) = true /\ prints_view a_udt t p) /\
    (forall t, In t db -> is_user t -> at_kind t = TView -> wanted schemas views (at_schema t) (at_name t) = true -> exists p, In p ps /\ prints_view a_udt t p).
Proof.
  intros lb nilx db cat fuel ord tord vord schemas views Ok Nd Ne U A N NV HV.
  destruct (C154_views_partial db cat new_prov schemas views vord Ok Nd Ne A NV HV) as (st' & ts & E & F & G & _).
  destruct (printed_views_json lb (new_lister nilx cat fuel ord tord vord) schemas views (map (shown nilx (p_heap st')) ts)) as (out & O & R); [cbn [new_lister l_views]; rewrite E; reflexivity| |].
  - apply Forall_forall. intros p Hp. apply in_map_iff in Hp as (x & <- & Hx). destruct (F x Hx) as (t & It & _ & _ & _ & S). destruct (shows_view_shown _ _ _ _ nilx (N x) S) as (P & P1 & P2 & P3).
    destruct (U t It) as (U1 & U2 & U3 & _). destruct P as [(Q1 & Q2 & _) QC]. unfold table_utf8. rewrite Q1, Q2, P1, P2, P3. split; [exact U1|]. split; [exact U2|]. split; [exists []; split; [constructor|reflexivity]|]. split; [|split; [constructor|exact I]].
    apply (columns_text _ _ _ U3) in QC; [exact QC|]. intros c Hc. rewrite Forall_forall in U3. apply U3, Hc.
  - exists out, (map plain_table (map (shown nilx (p_heap st')) ts)). split; [exact O|]. split; [exact R|]. split.
    + intros p Hp. apply in_map_iff in Hp as (q & <- & Hq). apply in_map_iff in Hq as (x & <- & Hx). destruct (F x Hx) as (t & A1 & A2 & A3 & A4 & S). exists t. repeat (split; [assumption|]). apply prints_view_plain. apply (shows_view_shown _ _ _ _ nilx (N x) S).
    + intros t A1 A2 A3 A4. destruct (G t A1 A2 A3 A4) as (x & Hx & S). eexists. split; [apply in_map, in_map, Hx|]. apply prints_view_plain, (shows_view_shown _ _ _ _ nilx (N x) S).
Qed.
(** `schema foreign_keys -o json`: every pair of a column and the column it refers
    to.  Missing: foreign keys of several columns, see C153. *)
Theorem C178_pg_fks_partial : forall lb nilx db cat fuel ord tord vord schemas tables, constraint_names_once db -> (forall t f, In t db -> In f (at_fks t) -> length (af_cols f) = 1%nat /\ length (af_rcols f) = 1%nat) ->
  Forall fk_utf8 (fk_pairs db) -> pg_answers db cat ->
  exists out ks, output lb (B "json") (ROk (new_lister nilx cat fuel ord tord vord)) (KFks schemas tables) None = (out, ROk tt) /\ read_doc rd_fk out = Some (Some ks) /\
    Permutation ks (filter (fun k => wanted schemas tables (k_schema k) (k_table k)) (fk_pairs db)).
Proof.
  intros lb nilx db cat fuel ord tord vord schemas tables C1 C2 U A. destruct (C153_fks_partial db cat new_prov schemas tables C1 C2 A) as (st' & ks & E & P).
  destruct (printed_fks_json lb (new_lister nilx cat fuel ord tord vord) schemas tables ks) as (out & O & R); [cbn [new_lister l_fks]; rewrite E; reflexivity| |exists out, ks; auto].
  eapply Permutation_Forall; [apply Permutation_sym, P|]. rewrite Forall_forall in *. intros k Hk. apply filter_In in Hk. apply U, Hk.
Qed.
(** The same against SQL Server. *)
Theorem C178_ms_json_partial : forall lb nilx db cat fuel ord tord vord schemas tables, ms_ok db -> plain_names db -> (forall t n, In t db -> In n (col_names t) -> no_markup n) -> (forall t, In t db -> at_props t = []) -> db_utf8 db -> ms_answers db cat -> (forall x, nilx x = true -> t_idx x = []) ->
  exists out l ps, output lb (B "json") (ROk (new_lister nilx cat fuel ord tord vord)) (KColumns schemas tables false false) None = (out, ROk tt) /\
    read_doc rd_table out = Some (Some ps) /\ NoDup l /\
    (forall t, In t l <-> In t db /\ at_kind t <> TView /\ at_shipped t = false /\ wanted schemas tables (at_schema t) (at_name t) = true) /\ StronglySorted by_name l /\
    Forall2 (fun t p => prints (B "USER_TABLE") a_type (at_idx t) t p) l ps.
Proof.
  intros lb nilx db cat fuel ord tord vord schemas tables Ok Pn Nm Np U A N.
  destruct (ms_ps nilx db cat schemas tables Ok Pn Nm Np A N) as (st' & ts & l & E & ND & I & S & F & UP).
  destruct (printed_json lb (new_lister nilx cat fuel ord tord vord) schemas tables (map (shown nilx (p_heap st')) ts)) as (out & O & R); [cbn [new_lister l_tables]; rewrite E; reflexivity|exact (UP U)|].
  exists out, l, (map plain_table (map (shown nilx (p_heap st')) ts)). split; [exact O|]. split; [exact R|]. split; [exact ND|]. split; [exact I|]. split; [exact S|].
  apply f2_map_r. eapply f2_weaken; [exact F|]. intros t p _ _ P. apply prints_plain, P.
Qed.
(** `schema columns --dependencies` in text mode: over a whole catalog, the tables
    that were asked for and those they lead to, every column with its foreign key
    and whether it is indexed.  Missing: a column in two foreign keys, see C65. *)
Theorem C178_dependencies_partial : forall lb format nilx cat tabs cols idxs fks schemas tables fuel ord tord vord st' o,
  described cat tabs cols idxs fks -> one_fk_per_column fks -> format <> B "json" -> format <> B "yaml" -> (forall x, nilx x = true -> t_idx x = []) ->
  (forall a r, requested tabs schemas tables a -> In r (cols (fst a) (snd a)) -> In (fqn3 (fst a) (snd a) (cr_name r)) ord) ->
  list_tables_deps fuel cat new_prov schemas tables ord tord = Some (st', o) -> Permutation tord (map fst (p_tabs st')) ->
  exists outs ds, output lb format (ROk (new_lister nilx cat fuel ord tord vord)) (KColumns schemas tables true false) None = (concat outs, ROk tt) /\ NoDup ds /\
    (forall a, In a ds <-> ~ requested tabs schemas tables a /\ exists b, requested tabs schemas tables b /\ reachable fks b a) /\
    Forall2 (fun v out => exists p, printed_as v p /\ table_text (lb_table lb) p out)
      (sort_by seen_by_name (map (with_refs fks) (map (expected cols idxs) (filter (fun r => wanted schemas tables (tr_schema r) (tr_name r)) tabs) ++ map (dependency cols) ds))) outs.
Proof.
  intros lb format nilx cat tabs cols idxs fks schemas tables fuel ord tord vord st' o D O1 N1 N2 N HO E P.
  destruct (C65_deps_exact_partial cat tabs cols idxs fks schemas tables fuel ord tord st' o D O1 HO E P) as (ts & ds & -> & ND & Hds & M & S).
  destruct (printed_text lb format (new_lister nilx cat fuel ord tord vord) schemas tables true (map (shown nilx (p_heap st')) ts) N1 N2) as (outs & O & T); [cbn [new_lister l_tables]; rewrite E; reflexivity|].
  exists outs, ds. split; [exact O|]. split; [exact ND|]. split; [exact Hds|]. rewrite <- M.
  assert (G : forall x, In x ts -> (exists cs, v_columns (see st' x) = map Some cs) /\ (forall k, v_pk (see st' x) = Some k -> k <> None)).
  { intros x Hx. assert (Hs : In (see st' x) (map (see st') ts)) by (apply in_map, Hx). rewrite M in Hs. apply (Permutation_in _ (Permutation_sym (sort_perm_by _ _))) in Hs. apply in_map_iff in Hs as (v & Ev & Hv). rewrite <- Ev. clear Ev.
    apply in_app_or in Hv as [Hv|Hv]; apply in_map_iff in Hv as (r & <- & Hr).
    - cbn [with_refs expected v_columns v_pk]. split; [eexists; rewrite map_map; cbn [option_map]; rewrite <- map_map with (g := Some); reflexivity|].
      intros k. destruct (pk_of _) as [n|] eqn:PO; [|discriminate]. cbn [option_map]. intros [= <-]. apply pk_of_some in PO as (ix & Hix & _ & Xc). apply in_map_iff in Hix as (i & <- & Hi).
      assert (Hn : In n (map cr_name (cols (tr_schema r) (tr_name r)))) by (apply (d_idx_cols _ _ _ _ _ D _ _ i n Hi); cbn [make_index ix_cols] in Xc; rewrite Xc; left; reflexivity).
      destruct (find _ _) as [c|] eqn:Fd; [discriminate|]. exfalso. apply in_map_iff in Hn as (q & Eq & Hq).
      pose proof (find_none _ _ Fd (column_of (tr_schema r) (tr_name r) (map make_index (idxs (tr_schema r) (tr_name r))) q)) as X. cbv beta in X.
      assert (In (column_of (tr_schema r) (tr_name r) (map make_index (idxs (tr_schema r) (tr_name r))) q) (sort_by col_by_pos (map (column_of (tr_schema r) (tr_name r) (map make_index (idxs (tr_schema r) (tr_name r)))) (cols (tr_schema r) (tr_name r))))) as Y.
      { eapply Permutation_in; [apply sort_perm_by|]. apply in_map, Hq. }
      specialize (X Y). cbn [column_of make_column c_name] in X. rewrite Eq, beqb_refl in X. discriminate X.
    - destruct r as [s t]. cbn [with_refs dependency v_columns v_pk option_map]. split; [eexists; rewrite map_map; cbn [option_map]; rewrite <- map_map with (g := Some); reflexivity|discriminate]. }
  revert T G. clear - N. revert outs. induction ts as [|x ts IH]; intros outs T G; cbn [map] in T; inversion T; subst; cbn [map]; [constructor|]. constructor; [|apply IH; [assumption|intros z Hz; apply G; right; exact Hz]].
  destruct (G x (or_introl eq_refl)) as [G1 G2]. eexists. split; [|eassumption]. apply seen_shown; [apply N|exact G1|exact G2].
Qed.

(** Cases that meet the hypotheses. *)
Lemma ex_db_utf8 : db_utf8 ex_db.
Proof. intros t Ht. repeat (destruct Ht as [<-|Ht]; [repeat split; try (apply utf8_check; vm_compute; reflexivity); repeat constructor; apply utf8_check; vm_compute; reflexivity|]). destruct Ht. Qed.
Example C178_pg_json_partial_ex : db_ok ex_db /\ plain_names ex_db /\ index_names_once ex_db /\ db_utf8 ex_db /\ pg_answers ex_db (pg_server ex_db) /\
  option_map (option_map (map (fun p => (pt_name p, map pc_name (elems (pt_cols p)), option_map pc_name (pt_pk p)))))
    (read_doc rd_table (fst (output ex_libs (B "json") (ROk (new_lister t_view (pg_server ex_db) 0 [] [] [])) (KColumns [] [B "Orders"] false false) None)))
  = Some (Some [(B "orders", [B "id"; B "user_id"; B "note"], Some (B "id"))]).
Proof.
  destruct C152_tables_partial_ex as (E1 & E2 & E3 & E4 & _). repeat (split; [assumption|]). split; [exact ex_db_utf8|]. split; [exact E4|]. vm_compute. reflexivity.
Qed.
Example C178_pg_views_partial_ex : option_map (option_map (map (fun p => (pt_name p, map pc_name (elems (pt_cols p))))))
    (read_doc rd_table (fst (output ex_libs (B "json") (ROk (new_lister t_view (pg_server ex_db) 0 [] [] [B "public.names"])) (KViews [] []) None)))
  = Some (Some [(B "names", [B "name"; B "id"])]).
Proof. vm_compute. reflexivity. Qed.
Example C178_pg_fks_partial_ex : read_doc rd_fk (fst (output ex_libs (B "json") (ROk (new_lister t_view (pg_server ex_db) 0 [] [] [])) (KFks [] []) None))
  = Some (Some [mkFK (B "orders_user_fkey") (B "public") (B "orders") (B "user_id") (B "public") (B "users") (B "id")]).
Proof. vm_compute. reflexivity. Qed.
Example C178_ms_json_partial_ex : option_map (option_map (map (fun p => (pt_name p, map pc_name (elems (pt_cols p)), option_map pc_name (pt_pk p)))))
    (read_doc rd_table (fst (output ex_libs (B "json") (ROk (new_lister t_view (ms_server ex_ms) 0 [] [] [])) (KColumns [] [] false false) None)))
  = Some (Some [(B "orders", [B "a"; B "b"; B "c"], Some (B "b")); (B "parts", [B "x"; B "y"], None)]).
Proof. vm_compute. reflexivity. Qed.

Example C178_dependencies_partial_ex : fst (output ex_libs (B "table") (ROk (new_lister (fun _ => false) SchemaProps.ex_c 5 SchemaProps.ex_ord [B "public.c"; B "public.a"; B "public.b"] [])) (KColumns [] [B "A"] true false) None) =
B "Schema: public
Table: a

Ord|Name|Type|UDT|NULL|Max|Index|Ref
1|id|integer|int4|||YES|
2|bid|integer|int4||||public.b.id

Indexes:
Name|Primary|Unique|Columns
a_pkey|YES|YES|id

Schema: public
Table: b

Ord|Name|Type|UDT|NULL|Max|Index|Ref
1|id|integer|int4||||
2|cid|integer|int4||||public.c.id

Schema: public
Table: c

Ord|Name|Type|UDT|NULL|Max|Index|Ref
1|id|integer|int4||||
2|aid|integer|int4||||public.a.id

".
Proof. vm_compute. reflexivity. Qed.

(** ** Assumptions *)
Print Assumptions C178_pg_json_partial.
Print Assumptions C178_pg_text_partial.
Print Assumptions C178_pg_views_partial.
Print Assumptions C178_pg_fks_partial.
Print Assumptions C178_ms_json_partial.
Print Assumptions C178_dependencies_partial.
