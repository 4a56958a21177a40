(** What the catalog queries select, as lists over the database. *)
From Verif Require Import GoBase GoBaseFacts TypeModel ParamModel SchemaModel SchemaSpec SchemaProofs SchemaMore CatalogModel CatalogSpec CatalogProofs CatalogListing.
From Coq Require Import Permutation Sorted Lia.
Open Scope Z_scope.

Definition at_key (s n : bytes) (t : atable) : bool := beqb (at_schema t) s && beqb (at_name t) n.
Lemma at_key_iff s n t : at_key s n t = true <-> table_key t = (s, n).
Proof.
  unfold at_key, table_key. rewrite andb_true_iff. destruct (beqb_spec (at_schema t) s), (beqb_spec (at_name t) n); split; intros H; try (destruct H; discriminate); try congruence; auto.
Qed.
Lemma at_key_refl t : at_key (at_schema t) (at_name t) t = true. Proof. apply at_key_iff. reflexivity. Qed.

(** ** Tables *)
Definition pg_listed (t : atable) : bool := match pg_table_type t with Some _ => negb (memb (at_schema t) pg_system) | None => false end.
Definition pg_ty (t : atable) : bytes := match pg_table_type t with Some x => x | None => [] end.
Lemma pg_q_tables_ok db : pg_q_tables db = map (fun t => mkTR (at_schema t) (at_name t) (pg_ty t)) (filter pg_listed db).
Proof.
  unfold pg_q_tables, pg_is_tables. rewrite flat_map_flat. rewrite <- filter_flat, map_flat_map. apply flat_map_in_ext. intros t _. unfold pg_listed, pg_ty, pg_table_type, pg_type.
  destruct (at_kind t) eqn:K; cbn [flat_map]; rewrite ?app_nil_r; try reflexivity; destruct (memb (at_schema t) pg_system); try reflexivity; cbn [negb where_ map]; rewrite K; reflexivity.
Qed.
Lemma not_system s : memb s pg_system = false <-> s <> B "pg_catalog" /\ s <> B "information_schema".
Proof.
  rewrite <- not_true_iff_false, memb_in. unfold pg_system. cbn [In]. split; [intros H; split; intros ->; apply H; auto|]. intros [H1 H2] [H|[H|[]]]; congruence.
Qed.
Lemma pg_listed_iff t : pg_listed t = true <-> is_user t /\ exists ty, pg_table_type t = Some ty.
Proof.
  unfold pg_listed, is_user. rewrite <- not_system. destruct (pg_table_type t) as [ty|]; [|split; [discriminate|intros [_ [ty E]]; discriminate]]. rewrite negb_true_iff. split; [intros H; split; [exact H|exists ty; reflexivity]|tauto].
Qed.

(** ** Columns *)
Lemma columns_of (g : atable -> list colrow) db s n : flat_map (fun '(s', n', r) => where_ (beqb s' s && beqb n' n) [r]) (flat_map (fun u => map (fun r => (at_schema u, at_name u, r)) (g u)) db) = flat_map (fun u => where_ (at_key s n u) (g u)) db.
Proof.
  rewrite flat_map_flat. apply flat_map_in_ext. intros u _. rewrite flat_map_map. unfold at_key. rewrite flat_map_where, (flat_map_single (fun x => x)), map_id. reflexivity.
Qed.
Lemma one_table {C} (g : atable -> list C) db t : NoDup (map table_key db) -> In t db -> flat_map (fun u => where_ (at_key (at_schema t) (at_name t) u) (g u)) db = g t.
Proof.
  intros ND Ht. apply (flat_map_key table_key (at_key (at_schema t) (at_name t)) g db t ND Ht); [apply at_key_refl|]. intros u _ E. apply at_key_iff in E. exact E.
Qed.
Definition pg_col_rows (t : atable) : list colrow := match pg_type (at_kind t) with Some _ => col_rows a_udt t | None => [] end.
Lemma pg_is_columns_ok db : pg_is_columns db = flat_map (fun u => map (fun r => (at_schema u, at_name u, r)) (pg_col_rows u)) db.
Proof.
  unfold pg_is_columns, pg_is_tables. rewrite flat_map_flat. apply flat_map_in_ext. intros t _. unfold pg_col_rows. destruct (pg_type (at_kind t)); cbn [flat_map map]; [apply app_nil_r|reflexivity].
Qed.
Lemma pg_q_columns_ok db t : NoDup (map table_key db) -> In t db -> pg_q_columns db (at_schema t) (at_name t) = pg_col_rows t.
Proof. intros ND Ht. unfold pg_q_columns. rewrite pg_is_columns_ok, columns_of. apply one_table; assumption. Qed.
Lemma ms_q_columns_ok db t : NoDup (map table_key db) -> In t db -> ms_q_columns db (at_schema t) (at_name t) = col_rows a_type t.
Proof. intros ND Ht. unfold ms_q_columns, ms_is_columns. rewrite columns_of. apply (one_table (col_rows a_type)); assumption. Qed.

(** ** Index rows *)
Lemma index_columns_in t x n : In n (index_columns t x) -> In n (col_names t).
Proof. unfold index_columns. intros H. apply filter_In in H. apply H. Qed.
Lemma pg_index_rows_of db cat t : db_ok db -> plain_names db -> index_names_once db -> pg_answers db cat -> In t db ->
  exists rs, some_order (cat_indexes cat (at_schema t) (at_name t)) rs /\ Forall2 (index_row_of t) (pg_shown t) rs.
Proof.
  intros Ok Pn Nx A Ht. destruct (pa_indexes db cat A (at_schema t) (at_name t)) as (rs & F & S). exists rs. split; [exact S|]. rewrite (pg_q_indexes_ok db t Ok Nx Ht) in F. clear S.
  assert (NoC : forall n, In n (col_names t) -> ~ In (ch 44) n) by (intros n; apply (pn_cols db Pn t n Ht)).
  unfold is_table, pg_shown in *. destruct (at_kind t); try (inversion F; subst; constructor). unfold listed_indexes in F. clear - F NoC. revert rs F. induction (at_idx t) as [|x l IH]; intros rs F; cbn [flat_map filter] in *; [inversion F; constructor|].
  destruct (index_columns t x) as [|c cs] eqn:E; [apply IH, F|]. cbn [app] in F. inversion F as [|g r gs rs' (ds & Pd & Er) F']; subst. constructor; [|apply IH, F']. cbn [fst snd] in *.
  unfold index_row_of. cbn [ir_name ir_primary ir_unique ir_cols]. repeat (split; [reflexivity|]). exists ds. rewrite E. split; [exact Pd|]. apply split_join.
  - intros ->. apply Permutation_sym, Permutation_nil in Pd. discriminate.
  - apply Forall_forall. intros d Hd. apply NoC. apply (index_columns_in t x). rewrite E. apply (Permutation_in _ (Permutation_sym Pd)), Hd.
Qed.
Lemma ms_listed_indexes t x : ms_index_columns t x = index_columns t x. Proof. reflexivity. Qed.
Lemma xml_plain s : no_markup s -> xml_text s = s.
Proof.
  unfold no_markup, xml_text. induction s as [|c s IH]; intros (H1 & H2 & H3); [reflexivity|]. cbn [flat_map]. unfold xml_char. destruct (ascii_dec c (ch 38)) as [->|]; [exfalso; apply H1; left; reflexivity|]. destruct (ascii_dec c (ch 60)) as [->|]; [exfalso; apply H2; left; reflexivity|]. destruct (ascii_dec c (ch 62)) as [->|]; [exfalso; apply H3; left; reflexivity|].
  cbn [app]. f_equal. apply IH. repeat split; intros H; [apply H1|apply H2|apply H3]; right; exact H.
Qed.
Lemma xml_comma c : xml_text (c ++ B ",") = xml_text c ++ B ",".
Proof. unfold xml_text. rewrite flat_map_app. reflexivity. Qed.
Lemma drop_last_app (s : bytes) c : drop_last (s ++ [c]) = s.
Proof. unfold drop_last. rewrite app_length. cbn [length]. replace (length s + 1 - 1)%nat with (length s + 0)%nat by lia. rewrite firstn_app_2. cbn [firstn]. apply app_nil_r. Qed.
Lemma comma_join cs : cs <> [] -> drop_last (flat_map (fun c => xml_text (c ++ B ",")) cs) = join (B ",") (map xml_text cs).
Proof.
  intros N. assert (G : flat_map (fun c => xml_text (c ++ B ",")) cs = join (B ",") (map xml_text cs) ++ B ",").
  { induction cs as [|c cs IH]; [congruence|]. cbn [flat_map map]. rewrite xml_comma. destruct cs as [|d cs]; [cbn [flat_map map join]; rewrite app_nil_r; reflexivity|]. rewrite IH by discriminate. rewrite join_cons by discriminate. rewrite <- !app_assoc. reflexivity. }
  rewrite G. apply drop_last_app.
Qed.
Lemma ms_q_indexes_ok db t : NoDup (map table_key db) -> In t db -> ms_q_indexes db (at_schema t) (at_name t) =
  where_ (is_mstable t && negb (at_shipped t)) (map (fun x => mkIR (ai_name x) (ai_primary x) (ai_unique x) (drop_last (flat_map (fun c => xml_text (c ++ B ",")) (index_columns t x)))) (at_idx t)).
Proof.
  intros ND Ht. unfold ms_q_indexes. rewrite <- (one_table (fun t => where_ (is_mstable t && negb (at_shipped t)) (map (fun x => mkIR (ai_name x) (ai_primary x) (ai_unique x) (drop_last (flat_map (fun c => xml_text (c ++ B ",")) (index_columns t x)))) (at_idx t))) db t ND Ht).
  apply flat_map_in_ext. intros u _. unfold at_key. destruct (is_mstable u), (at_shipped u), (beqb (at_schema u) (at_schema t)), (beqb (at_name u) (at_name t)); reflexivity.
Qed.
Lemma ms_index_rows_of db cat t : ms_ok db -> plain_names db -> (forall n, In n (col_names t) -> no_markup n) -> ms_answers db cat -> In t db -> is_mstable t = true -> at_shipped t = false ->
  exists rs, some_order (cat_indexes cat (at_schema t) (at_name t)) rs /\ Forall2 (index_row_of t) (at_idx t) rs.
Proof.
  intros Ok Pn Nm A Ht Kt St. eexists. split; [apply (ma_indexes db cat A)|]. rewrite (ms_q_indexes_ok db t (ok_tables db (mo_db db Ok)) Ht), Kt, St. cbn [negb andb where_].
  assert (NE : forall x, In x (at_idx t) -> index_columns t x <> []) by (intros x; apply (mo_idx db Ok t x Ht)). induction (at_idx t) as [|x l IH]; cbn [map]; constructor; [|apply IH; intros y Hy; apply NE; right; exact Hy].
  unfold index_row_of. cbn [ir_name ir_primary ir_unique ir_cols]. repeat (split; [reflexivity|]). exists (index_columns t x). split; [apply Permutation_refl|]. rewrite comma_join by (apply NE; left; reflexivity).
  rewrite (map_ext_in xml_text (fun x => x)), map_id; [|intros n Hn; apply xml_plain, Nm, (index_columns_in t x), Hn]. apply split_join; [apply NE; left; reflexivity|]. apply Forall_forall. intros n Hn. apply (pn_cols db Pn t n Ht), (index_columns_in t x), Hn.
Qed.
Lemma ms_q_tables_ok db : (forall t, In t db -> at_props t = []) -> ms_q_tables db = map (fun t => mkTR (at_schema t) (at_name t) (B "USER_TABLE")) (filter (fun t => is_mstable t && negb (at_shipped t)) db).
Proof.
  unfold ms_q_tables. induction db as [|t db IH]; intros H; [reflexivity|]. cbn [filter]. assert (P : at_props t = []) by (apply H; left; reflexivity). assert (R : forall u, In u db -> at_props u = []) by (intros u Hu; apply H; right; exact Hu).
  destruct (is_mstable t); cbn [andb]; [|apply IH, R]. cbn [flat_map]. rewrite IH by exact R. rewrite P. unfold left_join. cbn [flat_map filter app]. destruct (at_shipped t); reflexivity.
Qed.

(** ** Listing the tables *)
Lemma nodup_keys_filter p db : NoDup (map table_key db) -> NoDup (map table_key (filter p db)).
Proof.
  induction db as [|t db IH]; intros H; [constructor|]. cbn [map] in H. inversion H as [|? ? N ND E]; subst. cbn [filter]. destruct (p t); [|apply IH, ND]. cbn [map]. constructor; [|apply IH, ND].
  intros Q. apply N. apply in_map_iff in Q. destruct Q as (u & E & Hu). apply filter_In in Hu. rewrite <- E. apply in_map, Hu.
Qed.
Lemma nodup_names (l : list aindex) : NoDup (map ai_name l) -> NoDup l. Proof. apply NoDup_map_inv. Qed.
Lemma nodup_filter {A} (p : A -> bool) l : NoDup l -> NoDup (filter p l). Proof. apply NoDup_filter. Qed.
Lemma pg_list db cat st schemas tables : db_ok db -> plain_names db -> index_names_once db -> pg_answers db cat ->
  exists st' ts l, list_tables cat st schemas tables = (st', ROk ts) /\
    NoDup l /\ (forall t, In t l <-> In t db /\ is_user t /\ (exists ty, pg_table_type t = Some ty) /\ wanted schemas tables (at_schema t) (at_name t) = true) /\
    Forall2 (fun t x => shows (pg_ty t) a_udt (pg_shown t) st' t x) l ts /\ StronglySorted (fun a b => bltb (t_fqn a) (t_fqn b) = true) ts.
Proof.
  intros Ok Pn Nx A. assert (LD : forall t, In t (filter pg_listed db) -> In t db /\ exists ty, pg_table_type t = Some ty) by (intros t Ht; apply filter_In in Ht; destruct Ht as [Ht Lt]; split; [exact Ht|]; apply pg_listed_iff, Lt).
  destruct (listing cat (filter pg_listed db) pg_ty a_udt pg_shown schemas tables st) as (st' & ts & l & E & P & F & S).
  - apply nodup_keys_filter, (ok_tables db Ok).
  - intros t Ht. destruct (LD t Ht) as [Hd _]. destruct (pn_tables db Pn t Hd) as (N1 & N2 & _). split; [apply (ok_cols db Ok t Hd)|]. split; [exact N1|]. split; [exact N2|apply (ok_width db Ok t Hd)].
  - intros t a b Ht Ha Hb. assert (K : forall a, In a (pg_shown t) -> In a (at_idx t)) by (intros c Hc; unfold pg_shown in Hc; destruct (at_kind t); try destruct Hc; apply filter_In in Hc; apply Hc). apply (ok_pk db Ok t); [apply (LD t Ht)|apply K, Ha|apply K, Hb].
  - intros t Ht. destruct (LD t Ht) as [Hd _]. unfold pg_shown. destruct (at_kind t); try constructor. apply NoDup_filter, (NoDup_map_inv ai_name), (ok_idx_names db Ok t Hd).
  - rewrite <- pg_q_tables_ok. apply (pa_tables db cat A).
  - intros t Ht. destruct (LD t Ht) as [Hd [ty Ty]]. destruct (pn_tables db Pn t Hd) as (_ & _ & U1 & U2). pose proof (pa_columns db cat A _ _ U1 U2) as C. rewrite (pg_q_columns_ok db t (ok_tables db Ok) Hd) in C. unfold pg_col_rows, pg_type, pg_table_type in *. destruct (at_kind t); try discriminate; exact C.
  - intros t Ht. apply (pg_index_rows_of db cat t Ok Pn Nx A), (LD t Ht).
  - exists st', ts, l. split; [exact E|]. split; [|split; [|split; [exact F|exact S]]].
    + eapply Permutation_NoDup; [apply Permutation_sym, P|]. apply NoDup_filter, NoDup_filter. apply (NoDup_map_inv table_key), (ok_tables db Ok).
    + intros t. split.
      * intros Ht. apply (Permutation_in _ P) in Ht. apply filter_In in Ht. destruct Ht as [Ht W]. apply filter_In in Ht. destruct Ht as [Ht Lt]. apply pg_listed_iff in Lt. tauto.
      * intros (Ht & U & T & W). apply (Permutation_in _ (Permutation_sym P)). apply filter_In. split; [|exact W]. apply filter_In. split; [exact Ht|]. apply pg_listed_iff. tauto.
Qed.
Lemma ms_list db cat st schemas tables : ms_ok db -> plain_names db -> (forall t n, In t db -> In n (col_names t) -> no_markup n) -> (forall t, In t db -> at_props t = []) -> ms_answers db cat ->
  exists st' ts l, list_tables cat st schemas tables = (st', ROk ts) /\
    NoDup l /\ (forall t, In t l <-> In t db /\ at_kind t <> TView /\ at_shipped t = false /\ wanted schemas tables (at_schema t) (at_name t) = true) /\
    Forall2 (fun t x => shows (B "USER_TABLE") a_type (at_idx t) st' t x) l ts /\ StronglySorted (fun a b => bltb (t_fqn a) (t_fqn b) = true) ts.
Proof.
  intros Mo Pn Nm Np A. pose proof (mo_db db Mo) as Ok. set (p := fun t => is_mstable t && negb (at_shipped t)). assert (PK : forall t, p t = true <-> at_kind t <> TView /\ at_shipped t = false) by (intros t; unfold p, is_mstable; rewrite andb_true_iff, negb_true_iff; destruct (at_kind t); intuition (try discriminate; congruence)).
  destruct (listing cat (filter p db) (fun _ => B "USER_TABLE") a_type at_idx schemas tables st) as (st' & ts & l & E & P & F & S).
  - apply nodup_keys_filter, (ok_tables db Ok).
  - intros t Ht. apply filter_In in Ht. destruct Ht as [Hd _]. destruct (pn_tables db Pn t Hd) as (N1 & N2 & _). split; [apply (ok_cols db Ok t Hd)|]. split; [exact N1|]. split; [exact N2|apply (ok_width db Ok t Hd)].
  - intros t a b Ht. apply filter_In in Ht. apply (ok_pk db Ok t), Ht.
  - intros t Ht. apply filter_In in Ht. apply (NoDup_map_inv ai_name), (ok_idx_names db Ok t), Ht.
  - unfold p. rewrite <- ms_q_tables_ok by exact Np. apply (ma_tables db cat A).
  - intros t Ht. apply filter_In in Ht. destruct Ht as [Hd _]. destruct (pn_tables db Pn t Hd) as (_ & _ & U1 & U2). rewrite <- (ms_q_columns_ok db t (ok_tables db Ok) Hd). apply (ma_columns db cat A _ _ U1 U2).
  - intros t Ht. apply filter_In in Ht. destruct Ht as [Hd Pt]. unfold p in Pt. apply andb_true_iff in Pt. destruct Pt as [P1 P2]. apply negb_true_iff in P2. apply (ms_index_rows_of db cat t Mo Pn (fun n => Nm t n Hd) A Hd P1 P2).
  - exists st', ts, l. split; [exact E|]. split; [|split; [|split; [exact F|exact S]]].
    + eapply Permutation_NoDup; [apply Permutation_sym, P|]. apply NoDup_filter, NoDup_filter. apply (NoDup_map_inv table_key), (ok_tables db Ok).
    + intros t. split.
      * intros Ht. apply (Permutation_in _ P) in Ht. apply filter_In in Ht. destruct Ht as [Ht W]. apply filter_In in Ht. destruct Ht as [Ht Lt]. apply PK in Lt. tauto.
      * intros (Ht & U & T & W). apply (Permutation_in _ (Permutation_sym P)). apply filter_In. split; [|exact W]. apply filter_In. split; [exact Ht|]. apply PK. tauto.
Qed.
