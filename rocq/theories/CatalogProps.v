(** C152-C157: what listing says of a whole database. *)
From Verif Require Import GoBase GoBaseFacts TypeModel ParamModel SchemaModel SchemaSpec SchemaProofs SchemaMore CatalogModel CatalogSpec CatalogProofs CatalogListing CatalogQueries CatalogMore.
From Coq Require Import Permutation Sorted Lia.
Open Scope Z_scope.

(** ** Servers that answer in catalog order, for the examples *)
Definition all_rows {R} (l : list R) : rowsrc R + Z := inl (mkSrc (map SRow l) None).
Definition pg_server (db : database) : catalog :=
  mkCat (all_rows (pg_q_tables db)) (inl (mkSrc (map (scan_view 7) (pg_q_views db)) None)) (fun s n => all_rows (pg_q_columns db s n))
        (fun s n => all_rows (map (fun g => mkIR (fst (fst (fst g))) (snd (fst (fst g))) (snd (fst g)) (join (B ",") (snd g))) (pg_q_indexes db s n))) (all_rows (pg_q_fks db)).
Definition ms_server (db : database) : catalog :=
  mkCat (all_rows (ms_q_tables db)) (all_rows (ms_q_views db)) (fun s n => all_rows (ms_q_columns db s n)) (fun s n => all_rows (ms_q_indexes db s n)) (all_rows (ms_q_fks db)).
Lemma in_order {R} (l : list R) : some_order (all_rows l) l. Proof. exists l. split; [apply Permutation_refl|reflexivity]. Qed.
Lemma pg_server_answers db : pg_answers db (pg_server db).
Proof.
  constructor; cbn [pg_server cat_tables cat_views cat_columns cat_indexes cat_fks]; intros; try apply in_order.
  - exists 7, (pg_q_views db). split; [apply Permutation_refl|reflexivity].
  - eexists. split; [|apply in_order]. induction (pg_q_indexes db s n) as [|g l IH]; cbn [map]; constructor; [|exact IH]. exists (snd g). split; [apply Permutation_refl|reflexivity].
Qed.
Lemma ms_server_answers db : ms_answers db (ms_server db). Proof. constructor; cbn [ms_server cat_tables cat_views cat_columns cat_indexes cat_fks]; intros; apply in_order. Qed.
Definition ac (n t : string) : acol := mkAC (B n) (B t) (B t) false None.
Definition pk_ix (n c : string) : aindex := mkAI (B n) true true [Some (B c)] [].
Definition tab (s n : string) (k : tkind) (cols : list acol) (idx : list aindex) (fks : list afk) : atable := mkAT (B s) (B n) k cols idx fks [] [] [] false.

(** A decision of db_ok and plain_names for concrete databases *)
Fixpoint nodupb {A} (eqb : A -> A -> bool) (l : list A) : bool := match l with [] => true | x :: r => negb (existsb (eqb x) r) && nodupb eqb r end.
Lemma nodupb_ok {A} (eqb : A -> A -> bool) l : (forall a, eqb a a = true) -> nodupb eqb l = true -> NoDup l.
Proof.
  intros R. induction l as [|x l IH]; intros H; [constructor|]. cbn [nodupb] in H. apply andb_true_iff in H. destruct H as [H1 H2]. constructor; [|apply IH, H2]. intros Hin. apply negb_true_iff in H1. assert (existsb (eqb x) l = true) by (apply existsb_exists; exists x; split; [exact Hin|apply R]). congruence.
Qed.
Definition pair_eqb (a b : bytes * bytes) : bool := beqb (fst a) (fst b) && beqb (snd a) (snd b).
Lemma pair_eqb_refl a : pair_eqb a a = true. Proof. unfold pair_eqb. rewrite !beqb_refl. reflexivity. Qed.
Definition check_fk (db : database) (t : atable) (f : afk) : bool :=
  (length (af_cols f) =? length (af_rcols f))%nat && negb (length (af_cols f) =? 0)%nat && nodupb beqb (af_cols f) && nodupb beqb (af_rcols f) && forallb (fun c => memb c (col_names t)) (af_cols f)
  && existsb (fun u => pair_eqb (table_key u) (af_rschema f, af_rtable f) && forallb (fun c => memb c (col_names u)) (af_rcols f)) db.
Definition check_db (db : database) : bool :=
  nodupb pair_eqb (map table_key db) &&
  forallb (fun t => nodupb beqb (col_names t) && (Z.of_nat (length (at_cols t)) <? 2 ^ 32) && nodupb beqb (map ai_name (at_idx t)) && forallb (fun x => forallb (fun n => memb n (col_names t)) (used_columns x)) (at_idx t)
    && (length (filter ai_primary (at_idx t)) <=? 1)%nat && forallb (check_fk db t) (at_fks t)) db.
Lemma check_db_ok db : check_db db = true -> db_ok db.
Proof.
  unfold check_db. rewrite andb_true_iff, forallb_forall. intros [H1 H2].
  assert (S : forall t, In t db -> nodupb beqb (col_names t) = true /\ (Z.of_nat (length (at_cols t)) <? 2 ^ 32) = true /\ nodupb beqb (map ai_name (at_idx t)) = true /\ forallb (fun x => forallb (fun n => memb n (col_names t)) (used_columns x)) (at_idx t) = true /\ (length (filter ai_primary (at_idx t)) <=? 1)%nat = true /\ forallb (check_fk db t) (at_fks t) = true).
  { intros t Ht. specialize (H2 t Ht). rewrite !andb_true_iff in H2. tauto. }
  clear H2. constructor.
  - apply (nodupb_ok pair_eqb); [apply pair_eqb_refl|exact H1].
  - intros t Ht. apply (nodupb_ok beqb); [apply beqb_refl|apply (S t Ht)].
  - intros t Ht. apply Z.ltb_lt. apply (S t Ht).
  - intros t Ht. apply (nodupb_ok beqb); [apply beqb_refl|apply (S t Ht)].
  - intros t x n Ht Hx Hn. destruct (S t Ht) as (_ & _ & _ & Q & _). rewrite forallb_forall in Q. specialize (Q x Hx). rewrite forallb_forall in Q. apply memb_in, Q, Hn.
  - intros t x y Ht Hx Hy Px Py. destruct (S t Ht) as (_ & _ & _ & _ & Q & _). apply Nat.leb_le in Q. assert (Fx : In x (filter ai_primary (at_idx t))) by (apply filter_In; auto). assert (Fy : In y (filter ai_primary (at_idx t))) by (apply filter_In; auto).
    destruct (filter ai_primary (at_idx t)) as [|a [|b l]]; [destruct Fx| |cbn in Q; lia]. destruct Fx as [<-|[]], Fy as [<-|[]]. reflexivity.
  - intros t f Ht Hf. destruct (S t Ht) as (_ & _ & _ & _ & _ & Q). rewrite forallb_forall in Q. specialize (Q f Hf). unfold check_fk in Q. rewrite !andb_true_iff in Q. destruct Q as [[[[[Q1 Q2] Q3] Q4] Q5] Q6].
    split; [apply Nat.eqb_eq, Q1|]. split; [intros E; rewrite E in Q2; discriminate|]. split; [apply (nodupb_ok beqb); [apply beqb_refl|exact Q3]|]. split; [apply (nodupb_ok beqb); [apply beqb_refl|exact Q4]|]. split; [intros c Hc; rewrite forallb_forall in Q5; apply memb_in, Q5, Hc|].
    apply existsb_exists in Q6. destruct Q6 as (u & Hu & Q). apply andb_true_iff in Q. destruct Q as [Qa Qb]. exists u. split; [exact Hu|]. split; [|intros c Hc; rewrite forallb_forall in Qb; apply memb_in, Qb, Hc].
    unfold pair_eqb, table_key in *. cbn [fst snd] in Qa. apply andb_true_iff in Qa. destruct Qa as [Qx Qy]. destruct (beqb_spec (at_schema u) (af_rschema f)); [|discriminate]. destruct (beqb_spec (at_name u) (af_rtable f)); [congruence|discriminate].
Qed.
Definition lacks (c : nat) (s : bytes) : bool := negb (existsb (Ascii.eqb (ch c)) s).
Lemma lacks_ok c s : lacks c s = true -> ~ In (ch c) s.
Proof. unfold lacks. rewrite negb_true_iff. intros H Hin. assert (existsb (Ascii.eqb (ch c)) s = true) by (apply existsb_exists; exists (ch c); split; [exact Hin|apply Ascii.eqb_refl]). congruence. Qed.
Definition check_names (db : database) : bool :=
  forallb (fun t => lacks 46 (at_schema t) && lacks 46 (at_name t) && lacks 39 (at_schema t) && lacks 39 (at_name t) && forallb (lacks 44) (col_names t)) db.
Lemma check_names_ok db : check_names db = true -> plain_names db.
Proof.
  unfold check_names. rewrite forallb_forall. intros H. constructor.
  - intros t Ht. specialize (H t Ht). rewrite !andb_true_iff in H. destruct H as [[[[H1 H2] H3] H4] _]. repeat split; apply lacks_ok; assumption.
  - intros t n Ht Hn. specialize (H t Ht). rewrite !andb_true_iff in H. destruct H as [_ H]. rewrite forallb_forall in H. apply lacks_ok, H, Hn.
Qed.

(** ** C152: ListTables describes the tables of a Postgres database *)
(** Exactly the wanted tables outside the system schemas, each with its columns in
    order, its indexes and its one-column primary key, sorted by name; for index names
    that are unique in the database, and the indexes of ordinary tables that have a column. *)
Theorem C152_tables_partial : forall db cat st schemas tables, db_ok db -> plain_names db -> index_names_once db -> pg_answers db cat ->
  exists st' ts l, list_tables cat st schemas tables = (st', ROk ts) /\
    NoDup l /\ (forall t, In t l <-> In t db /\ is_user t /\ (exists ty, pg_table_type t = Some ty) /\ wanted schemas tables (at_schema t) (at_name t) = true) /\
    Forall2 (fun t x => exists ty, pg_table_type t = Some ty /\ shows ty a_udt (pg_shown t) st' t x) l ts /\ StronglySorted (fun a b => bltb (t_fqn a) (t_fqn b) = true) ts.
Proof.
  intros db cat st schemas tables Ok Pn Nx A. destruct (pg_list db cat st schemas tables Ok Pn Nx A) as (st' & ts & l & E & ND & I & F & S). exists st', ts, l. split; [exact E|]. split; [exact ND|]. split; [exact I|]. split; [|exact S].
  assert (T : forall t, In t l -> exists ty, pg_table_type t = Some ty) by (intros t Ht; apply I in Ht; tauto). clear - F T. induction F as [|t x l ts H F IH]; constructor; [|apply IH; intros u Hu; apply T; right; exact Hu].
  destruct (T t (or_introl eq_refl)) as (ty & Et). exists ty. split; [exact Et|]. unfold pg_ty in H. rewrite Et in H. exact H.
Qed.
Definition ex_db : database :=
  [tab "public" "orders" TTable [ac "id" "bigint"; ac "user_id" "bigint"; ac "note" "text"] [pk_ix "orders_pkey" "id"; mkAI (B "orders_user") false false [Some (B "user_id"); Some (B "id")] [B "note"]] [mkAF (B "orders_user_fkey") [B "user_id"] (B "public") (B "users") [B "id"]];
   tab "public" "users" TTable [ac "id" "bigint"; ac "name" "text"] [pk_ix "users_pkey" "id"; mkAI (B "users_lower") false true [None] []] [];
   tab "public" "events" TPartitioned [ac "id" "bigint"] [pk_ix "events_pkey" "id"] [];
   tab "public" "names" TView [ac "name" "text"; ac "id" "bigint"] [] [];
   tab "pg_catalog" "pg_class" TTable [ac "oid" "oid"] [pk_ix "pg_class_oid" "oid"] []].
Example C152_tables_partial_ex : db_ok ex_db /\ plain_names ex_db /\ index_names_once ex_db /\ pg_answers ex_db (pg_server ex_db) /\
  exists st' ts, list_tables (pg_server ex_db) new_prov [] [] = (st', ROk ts) /\ map t_fqn ts = [B "public.events"; B "public.orders"; B "public.users"] /\ map (fun x => map ix_cols (t_idx x)) ts = [[]; [[B "id"]; [B "id"; B "user_id"; B "note"]]; [[B "id"]]].
Proof.
  split; [apply check_db_ok; vm_compute; reflexivity|]. split; [apply check_names_ok; vm_compute; reflexivity|]. split; [apply (nodupb_ok beqb); [apply beqb_refl|vm_compute; reflexivity]|]. split; [apply pg_server_answers|].
  eexists. eexists. split; [vm_compute; reflexivity|]. split; vm_compute; reflexivity.
Qed.
(** Refuted for partitioned tables: they are listed without their indexes and without
    their primary key. *)
Theorem C152_partitioned_refuted : forall db cat st schemas tables t, db_ok db -> plain_names db -> index_names_once db -> pg_answers db cat -> In t db -> is_user t -> at_kind t = TPartitioned -> wanted schemas tables (at_schema t) (at_name t) = true ->
  exists st' ts x, list_tables cat st schemas tables = (st', ROk ts) /\ In x ts /\ t_schema x = at_schema t /\ t_name x = at_name t /\ t_idx x = [] /\ t_pk x = None.
Proof.
  intros db cat st schemas tables t Ok Pn Nx A Ht U K W. destruct (pg_list db cat st schemas tables Ok Pn Nx A) as (st' & ts & l & E & ND & I & F & S).
  assert (Hl : In t l) by (apply I; split; [exact Ht|]; split; [exact U|]; split; [unfold pg_table_type; rewrite K; eexists; reflexivity|exact W]). destruct (f2_in_l _ _ _ t F Hl) as (x & Hx & Sh). unfold pg_shown in Sh. rewrite K in Sh. destruct Sh as [(N1 & N2 & _) _ (l' & P & F2) Pk].
  exists st', ts, x. apply Permutation_sym, Permutation_nil in P. subst l'. inversion F2 as [E2|]. destruct (t_pk x); [destruct Pk as (k & a & _ & _ & [] & _)|]. auto 8.
Qed.
Example C152_partitioned_refuted_ex : exists t, In t ex_db /\ at_kind t = TPartitioned /\ is_user t /\ at_idx t <> [] /\ exists x, In x (at_idx t) /\ ai_primary x = true.
Proof. eexists. split; [right; right; left; reflexivity|]. split; [reflexivity|]. split; [split; discriminate|]. split; [discriminate|]. eexists. split; [left; reflexivity|reflexivity]. Qed.
(** Refuted for indexes over expressions only: they are not listed. *)
Theorem C152_expression_refuted : forall db cat st schemas tables t a, db_ok db -> plain_names db -> index_names_once db -> pg_answers db cat -> In t db -> is_user t -> at_kind t = TTable -> wanted schemas tables (at_schema t) (at_name t) = true ->
  In a (at_idx t) -> index_columns t a = [] ->
  exists st' ts x, list_tables cat st schemas tables = (st', ROk ts) /\ In x ts /\ t_schema x = at_schema t /\ t_name x = at_name t /\ ~ In (ai_name a) (map ix_name (t_idx x)).
Proof.
  intros db cat st schemas tables t a Ok Pn Nx A Ht U K W Ha Ia. destruct (pg_list db cat st schemas tables Ok Pn Nx A) as (st' & ts & l & E & ND & I & F & S).
  assert (Hl : In t l) by (apply I; split; [exact Ht|]; split; [exact U|]; split; [unfold pg_table_type; rewrite K; eexists; reflexivity|exact W]). destruct (f2_in_l _ _ _ t F Hl) as (x & Hx & Sh). unfold pg_shown in Sh. rewrite K in Sh. destruct Sh as [(N1 & N2 & _) _ (l' & P & F2) Pk].
  exists st', ts, x. split; [exact E|]. split; [exact Hx|]. split; [exact N1|]. split; [exact N2|]. intros H. apply in_map_iff in H. destruct H as (i & Ei & Hi). destruct (f2_in_r _ _ _ i F2 Hi) as (b & Hb & Eb & _). apply (Permutation_in _ P) in Hb. apply filter_In in Hb. destruct Hb as [Hb Nb].
  assert (a = b); [|subst; rewrite Ia in Nb; discriminate]. assert (En : ai_name a = ai_name b) by congruence. pose proof (ok_idx_names db Ok t Ht) as NDn. clear - Ha Hb En NDn. induction (at_idx t) as [|c l IH]; [destruct Ha|]. cbn [map] in NDn. inversion NDn as [|? ? N ND E]; subst. destruct Ha as [->|Ha], Hb as [->|Hb]; auto.
  - exfalso. apply N. rewrite En. apply in_map, Hb.
  - exfalso. apply N. rewrite <- En. apply in_map, Ha.
Qed.
Example C152_expression_refuted_ex : exists t a, In t ex_db /\ at_kind t = TTable /\ is_user t /\ In a (at_idx t) /\ ai_unique a = true /\ index_columns t a = [].
Proof. exists (tab "public" "users" TTable [ac "id" "bigint"; ac "name" "text"] [pk_ix "users_pkey" "id"; mkAI (B "users_lower") false true [None] []] []), (mkAI (B "users_lower") false true [None] []). split; [right; left; reflexivity|]. split; [reflexivity|]. split; [split; discriminate|]. split; [right; left; reflexivity|]. split; reflexivity. Qed.
(** Refuted when two tables (of two schemas) have an index of the same name: if one is on
    a column the other table does not have, listing panics; *)
Theorem C152_same_index_name_refuted : forall db cat schemas tables t u x y d, db_ok db -> plain_names db -> pg_answers db cat ->
  In t db -> In u db -> is_user t -> at_kind t = TTable -> at_kind u = TTable -> wanted schemas tables (at_schema t) (at_name t) = true ->
  In x (at_idx t) -> In y (at_idx u) -> ai_name x = ai_name y -> In d (index_columns u y) -> ~ In d (col_names t) ->
  snd (list_tables cat new_prov schemas tables) = RPanic.
Proof. exact pg_shared_panics. Qed.
Definition ex_tenants : database :=
  [tab "a" "users" TTable [ac "id" "bigint"; ac "email" "text"] [pk_ix "users_pkey" "id"; mkAI (B "users_key") false true [Some (B "email")] []] [];
   tab "b" "users" TTable [ac "id" "bigint"; ac "login" "text"] [pk_ix "users_pkey" "id"; mkAI (B "users_key") false true [Some (B "login")] []] []].
Example C152_same_index_name_refuted_ex : db_ok ex_tenants /\ plain_names ex_tenants /\ snd (list_tables (pg_server ex_tenants) new_prov [B "a"] []) = RPanic.
Proof. split; [apply check_db_ok; vm_compute; reflexivity|]. split; [apply check_names_ok; vm_compute; reflexivity|]. vm_compute. reflexivity. Qed.
(** and if the columns have the same names (the same table in two schemas), both lose their
    primary key. *)
Definition ex_copies : database :=
  [tab "a" "users" TTable [ac "id" "bigint"; ac "email" "text"] [pk_ix "users_pkey" "id"] [];
   tab "b" "users" TTable [ac "id" "bigint"; ac "email" "text"] [pk_ix "users_pkey" "id"] []].
Theorem C152_same_index_name_key_refuted : db_ok ex_copies /\ plain_names ex_copies /\ pg_answers ex_copies (pg_server ex_copies) /\
  exists st' ts, list_tables (pg_server ex_copies) new_prov [] [] = (st', ROk ts) /\ map t_fqn ts = [B "a.users"; B "b.users"] /\ map t_pk ts = [None; None] /\ map (fun x => map ix_cols (t_idx x)) ts = [[[B "id"; B "id"]]; [[B "id"; B "id"]]].
Proof.
  split; [apply check_db_ok; vm_compute; reflexivity|]. split; [apply check_names_ok; vm_compute; reflexivity|]. split; [apply pg_server_answers|]. eexists. eexists. split; [vm_compute; reflexivity|]. split; [vm_compute; reflexivity|]. split; vm_compute; reflexivity.
Qed.

(** ** C153: ListForeignKeys returns the foreign keys of a Postgres database *)
(** One-column keys, constraint names unique in the database: the keys, each once. *)
Theorem C153_fks_partial : forall db cat st schemas tables, constraint_names_once db -> (forall t f, In t db -> In f (at_fks t) -> length (af_cols f) = 1%nat /\ length (af_rcols f) = 1%nat) -> pg_answers db cat ->
  exists st' ks, list_fks cat st schemas tables = (st', ROk ks) /\ Permutation ks (filter (fun k => wanted schemas tables (k_schema k) (k_table k)) (fk_pairs db)).
Proof. intros db cat st schemas tables N One A. rewrite <- (single_pairs db One), <- (pg_q_fks_ok db N). apply fk_listing, (pa_fks db cat A). Qed.
Example C153_fks_partial_ex : constraint_names_once ex_db /\ exists st' ks, list_fks (pg_server ex_db) new_prov [] [B "Orders"] = (st', ROk ks) /\ ks = [mkFK (B "orders_user_fkey") (B "public") (B "orders") (B "user_id") (B "public") (B "users") (B "id")].
Proof. split; [apply (nodupb_ok beqb); [apply beqb_refl|vm_compute; reflexivity]|]. eexists. eexists. split; [vm_compute; reflexivity|reflexivity]. Qed.
(** Refuted for every key of two or more columns: its first column is also said to refer to
    the second referenced column. *)
Theorem C153_composite_refuted : forall db cat st schemas tables t f c1 c2 cs r1 r2 rs, db_ok db -> constraint_names_once db -> pg_answers db cat -> In t db -> In f (at_fks t) -> af_cols f = c1 :: c2 :: cs -> af_rcols f = r1 :: r2 :: rs ->
  wanted schemas tables (at_schema t) (at_name t) = true ->
  exists st' ks k, list_fks cat st schemas tables = (st', ROk ks) /\ In k ks /\ k = mkFK (af_name f) (at_schema t) (at_name t) c1 (af_rschema f) (af_rtable f) r2 /\ ~ In k (fk_pairs db).
Proof.
  intros db cat st schemas tables t f c1 c2 cs r1 r2 rs Ok N A Ht Hf Ec Er W. destruct (fk_listing cat st schemas tables _ (pa_fks db cat A)) as (st' & ks & E & P). eexists. exists ks. eexists. split; [exact E|]. split; [|split; [reflexivity|]].
  - apply (Permutation_in _ (Permutation_sym P)). apply filter_In. split; [|exact W]. apply (pg_fk_cross db t f t f c1 r2); auto; [rewrite Ec; left; reflexivity|rewrite Er; right; left; reflexivity].
  - intros H. unfold fk_pairs in H. apply in_flat_map in H. destruct H as (u & Hu & H). apply in_flat_map in H. destruct H as (g & Hg & H). apply in_map_iff in H. destruct H as ([c rc] & Q & H). injection Q as Q1 Q2 Q3 Q4 Q5 Q6 Q7.
    assert (g = f).
    { unfold constraint_names_once in N. rewrite <- cons_names in N. assert (K : forall t f, In t db -> In f (at_fks t) -> In (mkCon t (af_name f) (af_cols f) (map (fun c => (af_rschema f, af_rtable f, c)) (af_rcols f)) true) (flat_map cons_of db)).
      { intros t' f' Ht' Hf'. apply in_flat_map. exists t'. split; [exact Ht'|]. unfold cons_of. apply in_app_iff. right. apply in_app_iff. right. apply (in_map (fun f => mkCon t' (af_name f) (af_cols f) (map (fun c => (af_rschema f, af_rtable f, c)) (af_rcols f)) true)), Hf'. }
      assert (S : forall a b, In a (flat_map cons_of db) -> In b (flat_map cons_of db) -> k_cname a = k_cname b -> a = b).
      { clear - N. induction (flat_map cons_of db) as [|z l IH]; [intros ? ? []|]. cbn [map] in N. inversion N as [|? ? Nz ND E]; subst. intros a b [->|Ha] [->|Hb] Q; auto; exfalso; apply Nz; [rewrite Q|rewrite <- Q]; apply in_map; assumption. }
      pose proof (S _ _ (K u g Hu Hg) (K t f Ht Hf) Q1) as X. injection X as _ X1 X2 X3. destruct f as [fn fc fs ft fr], g as [gn gc gs gt gr]. cbn [af_name af_cols af_rschema af_rtable af_rcols] in *. subst gn gc gs gt. f_equal.
      apply (f_equal (map snd)) in X3. rewrite !map_map in X3. cbn [snd] in X3. rewrite !map_id in X3. exact X3. }
    subst g. rewrite Ec, Er in H. cbn [combine In] in H. destruct (ok_fk db Ok t f Ht Hf) as (_ & _ & Nc & Nr & _). rewrite Ec in Nc. rewrite Er in Nr. inversion Nc as [|? ? N1 Nc']; subst. inversion Nr as [|? ? N2 Nr']; subst.
    destruct H as [H|[H|H]]; [apply (f_equal snd) in H; cbn [snd] in H; apply N2; left; congruence|apply (f_equal fst) in H; cbn [fst] in H; apply N1; left; congruence|]. apply in_combine_l in H. apply N1. right. congruence.
Qed.
Definition ex_composite : database :=
  [tab "s" "items" TTable [ac "shop" "text"; ac "no" "int"] [mkAI (B "items_pkey") true true [Some (B "shop"); Some (B "no")] []] [];
   tab "s" "lines" TTable [ac "shop" "text"; ac "item" "int"] [] [mkAF (B "lines_item_fkey") [B "shop"; B "item"] (B "s") (B "items") [B "shop"; B "no"]]].
Example C153_composite_refuted_ex : db_ok ex_composite /\ constraint_names_once ex_composite /\ length (pg_q_fks ex_composite) = 4%nat /\ length (fk_pairs ex_composite) = 2%nat.
Proof. split; [apply check_db_ok; vm_compute; reflexivity|]. split; [apply (nodupb_ok beqb); [apply beqb_refl|vm_compute; reflexivity]|]. split; vm_compute; reflexivity. Qed.
(** Refuted when two foreign keys have the same name: each is said to refer to the table of
    the other too. *)
Theorem C153_same_name_refuted : forall db cat st schemas tables t f u g c rc, pg_answers db cat -> In t db -> In f (at_fks t) -> In u db -> In g (at_fks u) -> af_name g = af_name f -> In c (af_cols f) -> In rc (af_rcols g) ->
  wanted schemas tables (at_schema t) (at_name t) = true ->
  exists st' ks, list_fks cat st schemas tables = (st', ROk ks) /\ In (mkFK (af_name f) (at_schema t) (at_name t) c (af_rschema g) (af_rtable g) rc) ks.
Proof.
  intros db cat st schemas tables t f u g c rc A Ht Hf Hu Hg E Hc Hr W. destruct (fk_listing cat st schemas tables _ (pa_fks db cat A)) as (st' & ks & El & P). exists st', ks. split; [exact El|]. apply (Permutation_in _ (Permutation_sym P)). apply filter_In. split; [|exact W]. apply (pg_fk_cross db t f u g c rc); assumption.
Qed.
Definition ex_two_fks : database :=
  [tab "a" "users" TTable [ac "id" "bigint"] [] []; tab "a" "orders" TTable [ac "user_id" "bigint"] [] [mkAF (B "orders_user_id_fkey") [B "user_id"] (B "a") (B "users") [B "id"]];
   tab "b" "users" TTable [ac "id" "bigint"] [] []; tab "b" "orders" TTable [ac "user_id" "bigint"] [] [mkAF (B "orders_user_id_fkey") [B "user_id"] (B "b") (B "users") [B "id"]]].
Example C153_same_name_refuted_ex : db_ok ex_two_fks /\ In (mkFK (B "orders_user_id_fkey") (B "a") (B "orders") (B "user_id") (B "b") (B "users") (B "id")) (pg_q_fks ex_two_fks) /\ length (fk_pairs ex_two_fks) = 2%nat /\ length (pg_q_fks ex_two_fks) = 4%nat.
Proof. split; [apply check_db_ok; vm_compute; reflexivity|]. split; [vm_compute; tauto|]. split; vm_compute; reflexivity. Qed.

(** ** C154: ListViews describes the views of a Postgres database *)
Theorem C154_views_partial : forall db cat st schemas tables vord, db_ok db -> (forall t, In t db -> no_dot (at_schema t)) -> (forall t, In t db -> at_kind t = TView -> at_cols t <> []) -> pg_answers db cat ->
  NoDup vord -> (forall n, In n vord <-> exists t, In t db /\ is_user t /\ at_kind t = TView /\ wanted schemas tables (at_schema t) (at_name t) = true /\ n = fqn2 (at_schema t) (at_name t)) ->
  exists st' ts, list_views cat st schemas tables vord = (st', ROk ts) /\
    (forall x, In x ts -> exists t, In t db /\ is_user t /\ at_kind t = TView /\ wanted schemas tables (at_schema t) (at_name t) = true /\ shows_view a_udt st' t x) /\
    (forall t, In t db -> is_user t -> at_kind t = TView -> wanted schemas tables (at_schema t) (at_name t) = true -> exists x, In x ts /\ shows_view a_udt st' t x) /\
    StronglySorted (fun a b => bltb (t_fqn a) (t_fqn b) = true) ts.
Proof. exact pg_views. Qed.
Example C154_views_partial_ex : exists st' x, list_views (pg_server ex_db) new_prov [] [] [B "public.names"] = (st', ROk [x]) /\ t_name x = B "names" /\ map (option_map c_name) (seen_columns st' x) = [Some (B "name"); Some (B "id")].
Proof. eexists. eexists. split; [vm_compute; reflexivity|]. split; vm_compute; reflexivity. Qed.
(** Refuted: one view without columns (Postgres allows it), and no view is listed. *)
Theorem C154_no_columns_refuted : forall db cat st schemas tables vord t, db_ok db -> pg_answers db cat -> In t db -> is_user t -> at_kind t = TView -> at_cols t = [] -> exists e, snd (list_views cat st schemas tables vord) = RErr e.
Proof. exact pg_views_fail. Qed.
Example C154_no_columns_refuted_ex : db_ok (tab "public" "empty" TView [] [] [] :: ex_db) /\ snd (list_views (pg_server (tab "public" "empty" TView [] [] [] :: ex_db)) new_prov [] [B "names"] [B "public.names"]) = RErr 7.
Proof. split; [apply check_db_ok; vm_compute; reflexivity|]. vm_compute. reflexivity. Qed.

(** ** C155: ListTables describes the tables of a SQL Server database *)
Theorem C155_tables_partial : forall db cat st schemas tables, ms_ok db -> plain_names db -> (forall t n, In t db -> In n (col_names t) -> no_markup n) -> (forall t, In t db -> at_props t = []) -> ms_answers db cat ->
  exists st' ts l, list_tables cat st schemas tables = (st', ROk ts) /\
    NoDup l /\ (forall t, In t l <-> In t db /\ at_kind t <> TView /\ at_shipped t = false /\ wanted schemas tables (at_schema t) (at_name t) = true) /\
    Forall2 (fun t x => shows (B "USER_TABLE") a_type (at_idx t) st' t x) l ts /\ StronglySorted (fun a b => bltb (t_fqn a) (t_fqn b) = true) ts.
Proof. exact ms_list. Qed.
Definition ex_ms : database :=
  [tab "dbo" "orders" TTable [ac "a" "int"; ac "b" "int"; ac "c" "int"] [pk_ix "PK_orders" "b"; mkAI (B "IX_orders") false false [Some (B "c"); Some (B "a")] [B "b"]] [mkAF (B "FK_orders") [B "c"; B "a"] (B "dbo") (B "parts") [B "y"; B "x"]];
   tab "dbo" "parts" TTable [ac "x" "int"; ac "y" "int"] [mkAI (B "PK_parts") true true [Some (B "y"); Some (B "x")] []] [];
   tab "dbo" "open" TView [ac "a" "int"] [] []].
Lemma ex_ms_ok : ms_ok ex_ms.
Proof.
  constructor.
  - apply check_db_ok. vm_compute. reflexivity.
  - intros t x Ht Hx. repeat (destruct Ht as [<-|Ht]; [repeat (destruct Hx as [<-|Hx]; [vm_compute; discriminate|]); destruct Hx|]). destruct Ht.
  - intros t f u Ht Hf Hu E. repeat (destruct Ht as [<-|Ht]; [|]); try destruct Ht; cbn in Hf; try destruct Hf as [<-|[]]; try destruct Hf. repeat (destruct Hu as [<-|Hu]; [split; [discriminate|]; try discriminate; vm_compute in E; discriminate|]). destruct Hu.
Qed.
Example C155_tables_partial_ex : ms_ok ex_ms /\ plain_names ex_ms /\ exists st' ts, list_tables (ms_server ex_ms) new_prov [] [] = (st', ROk ts) /\ map t_fqn ts = [B "dbo.orders"; B "dbo.parts"].
Proof. split; [exact ex_ms_ok|]. split; [apply check_names_ok; vm_compute; reflexivity|]. eexists. eexists. split; [vm_compute; reflexivity|vm_compute; reflexivity]. Qed.
(** Refuted: a table with a description (an extended property of it or of a column), and
    no property of another class, is not listed. *)
Theorem C155_description_refuted : forall db cat st schemas tables t st' ts, db_ok db -> ms_answers db cat -> In t db -> at_props t <> [] -> (forall p, In p (at_props t) -> fst p = B "OBJECT_OR_COLUMN") ->
  list_tables cat st schemas tables = (st', ROk ts) -> forall x, In x ts -> ~ (t_schema x = at_schema t /\ t_name x = at_name t).
Proof.
  intros db cat st schemas tables t st' ts Ok A Ht Ne Cl E x Hx [E1 E2]. destruct (some_order_rows _ _ (ma_tables db cat A)) as [PT DT]. destruct (listed_from cat schemas tables st _ st' ts DT E x Hx) as (r & Hr & R1 & R2). apply (Permutation_in _ (Permutation_sym PT)) in Hr.
  unfold ms_q_tables in Hr. apply in_flat_map in Hr. destruct Hr as (u & Hu & Hr). apply filter_In in Hu. destruct Hu as [Hu _]. apply in_flat_map in Hr. destruct Hr as ([[] ep] & Hep & Hr).
  assert (u = t). { destruct (negb (at_shipped u) && _); [|destruct Hr]. destruct Hr as [<-|[]]. apply (same_table db u t (ok_tables db Ok) Hu Ht). unfold table_key. cbn [tr_schema tr_name] in *. congruence. }
  subst u. unfold left_join in Hep. cbn [flat_map] in Hep. rewrite app_nil_r in Hep. assert (FA : filter (fun _ : bytes * bytes => true) (at_props t) = at_props t) by (clear; induction (at_props t) as [|p l IH]; [reflexivity|]; cbn [filter]; rewrite IH; reflexivity). rewrite FA in Hep. destruct (at_props t) as [|p ps] eqn:Ep; [congruence|]. apply in_map_iff in Hep. destruct Hep as ([cls nm] & [= <-] & Hp).
  specialize (Cl (cls, nm) Hp). cbn [fst] in Cl. rewrite Cl in Hr. rewrite beqb_refl in Hr. cbn [negb andb] in Hr. rewrite andb_false_r in Hr. destruct Hr.
Qed.
Definition described_table (props : list (bytes * bytes)) : atable := mkAT (B "dbo") (B "t") TTable [ac "id" "int"] [] [] [] [] props false.
Example C155_description_refuted_ex : exists st' ts, list_tables (ms_server (described_table [(B "OBJECT_OR_COLUMN", B "MS_Description")] :: ex_ms)) new_prov [] [] = (st', ROk ts) /\ map t_fqn ts = [B "dbo.orders"; B "dbo.parts"].
Proof. eexists. eexists. split; vm_compute; reflexivity. Qed.
(** Refuted: a table is listed once for each described index. *)
Theorem C155_index_descriptions_refuted : exists db st' ts, ms_ok db /\ ms_answers db (ms_server db) /\ list_tables (ms_server db) new_prov [] [] = (st', ROk ts) /\ length db = 1%nat /\ map t_fqn ts = [B "dbo.t"; B "dbo.t"].
Proof.
  exists [described_table [(B "INDEX", B "MS_Description"); (B "INDEX", B "MS_Description")]]. eexists. eexists. split; [|split; [apply ms_server_answers|split; [vm_compute; reflexivity|split; vm_compute; reflexivity]]].
  constructor; [apply check_db_ok; vm_compute; reflexivity| |]; intros t x; [intros [<-|[]] []|intros u [<-|[]] []].
Qed.
(** Exactly: how often each table is listed. A table without extended properties is listed
    once; a table with them, once for each property that is neither of the table or its
    columns nor named microsoft_database_tools_support. *)
Definition ms_times_listed (schemas tables : list bytes) (t : atable) : nat :=
  match at_kind t with
  | TView => 0
  | _ => if at_shipped t then 0 else if negb (wanted schemas tables (at_schema t) (at_name t)) then 0 else
         match at_props t with
         | [] => 1
         | ps => length (filter (fun p => negb (beqb (fst p) (B "OBJECT_OR_COLUMN")) && negb (beqb (snd p) (B "microsoft_database_tools_support"))) ps)
         end
  end.
Lemma rows_listed cat schemas tables : forall l st acc st' acc',
  each_row (table_row cat schemas tables) (st, acc) (map SRow l) = ((st', acc'), ROk tt) ->
  map (fun x => (t_schema x, t_name x)) acc' = map (fun x => (t_schema x, t_name x)) acc ++ map (fun r => (tr_schema r, tr_name r)) (filter (fun r => wanted schemas tables (tr_schema r) (tr_name r)) l).
Proof.
  induction l as [|r l IH]; intros s acc s' acc' E; cbn [map each_row] in E; [injection E as <- <-; cbn [filter map]; rewrite app_nil_r; reflexivity|].
  destruct (table_row cat schemas tables (s, acc) r) as [[s1 acc1] o] eqn:T. destruct o as [[]|e|]; [|discriminate|discriminate].
  rewrite (IH s1 acc1 s' acc' E). unfold table_row in T. cbn [filter]. destruct (wanted schemas tables (tr_schema r) (tr_name r)) eqn:W; cbn [negb] in T; [|injection T as <- <-; reflexivity].
  destruct (read_columns cat s (tr_schema r) (tr_name r)) as [s2 [cc|e|]]; [|discriminate|discriminate]. destruct (read_indexes cat (tr_schema r) (tr_name r)) as [ii|e|]; [|discriminate|discriminate]. destruct (attach s2 _ ii None) as [s3 [pk|e|]]; [|discriminate|discriminate].
  injection T as <- <-. rewrite map_app, <- app_assoc. reflexivity.
Qed.
Lemma perm_filter {A} (f : A -> bool) l l' : Permutation l l' -> Permutation (filter f l) (filter f l').
Proof.
  induction 1 as [|x l l' P IH|x y l|a b c P1 IH1 P2 IH2]; cbn [filter].
  - apply Permutation_refl.
  - destruct (f x); [apply perm_skip|]; exact IH.
  - destruct (f x), (f y); try apply Permutation_refl. apply perm_swap.
  - eapply Permutation_trans; eassumption.
Qed.
Lemma where_false {A C X} (x : list X) (L : list (A * C)) : flat_map (fun '(_, _) => where_ false x) L = [].
Proof. induction L as [|[? ?] L IH]; [reflexivity|exact IH]. Qed.
Lemma one_table_rows schemas tables t :
  map (fun r => (tr_schema r, tr_name r)) (filter (fun r => wanted schemas tables (tr_schema r) (tr_name r))
    (if is_mstable t then flat_map (fun '(_, ep) =>
      where_ (negb (at_shipped t) && match ep with None => true | Some (cls, name) => negb (beqb cls (B "OBJECT_OR_COLUMN")) && negb (beqb name (B "microsoft_database_tools_support")) end)
             [mkTR (at_schema t) (at_name t) (B "USER_TABLE")]) (left_join [tt] (at_props t) (fun _ _ => true)) else [])) = repeat (at_schema t, at_name t) (ms_times_listed schemas tables t).
Proof.
  assert (FA : filter (fun _ : bytes * bytes => true) (at_props t) = at_props t) by (induction (at_props t) as [|p l IH]; [reflexivity|]; cbn [filter]; rewrite IH; reflexivity).
  assert (G : forall w : bool, w = wanted schemas tables (at_schema t) (at_name t) -> forall l,
    map (fun r => (tr_schema r, tr_name r)) (filter (fun r => wanted schemas tables (tr_schema r) (tr_name r))
     (flat_map (fun '(_, ep) =>
      where_ (match ep with None => true | Some (cls, name) => negb (beqb cls (B "OBJECT_OR_COLUMN")) && negb (beqb name (B "microsoft_database_tools_support")) end)
             [mkTR (at_schema t) (at_name t) (B "USER_TABLE")]) (map (fun b : bytes * bytes => (tt, Some b)) l)))
    = repeat (at_schema t, at_name t) (if w then length (filter (fun p => negb (beqb (fst p) (B "OBJECT_OR_COLUMN")) && negb (beqb (snd p) (B "microsoft_database_tools_support"))) l) else 0)).
  { intros w Ew. induction l as [|[cls nm] l IH]; [destruct w; reflexivity|]. cbn [map flat_map filter fst snd]. rewrite filter_app, map_app, IH. unfold where_. destruct (negb (beqb cls (B "OBJECT_OR_COLUMN")) && negb (beqb nm (B "microsoft_database_tools_support"))); cbn [filter map app tr_schema tr_name]; [|reflexivity]. rewrite <- Ew. destruct w; reflexivity. }
  unfold ms_times_listed, is_mstable, left_join. cbn [flat_map]. rewrite app_nil_r, FA.
  destruct (at_kind t); try reflexivity.
  all: destruct (at_shipped t); cbn [negb andb]; [rewrite where_false; reflexivity|].
  all: destruct (at_props t) as [|p ps]; [cbn [flat_map where_ app filter tr_schema tr_name]; destruct (wanted schemas tables (at_schema t) (at_name t)); reflexivity|].
  all: pose proof (G _ eq_refl (p :: ps)) as H; etransitivity; [exact H|]; destruct (wanted schemas tables (at_schema t) (at_name t)); reflexivity.
Qed.
Theorem C155_listed_partial : forall db cat st schemas tables st' ts, ms_answers db cat -> list_tables cat st schemas tables = (st', ROk ts) ->
  Permutation (flat_map (fun t => repeat (at_schema t, at_name t) (ms_times_listed schemas tables t)) db) (map (fun x => (t_schema x, t_name x)) ts).
Proof.
  intros db cat st schemas tables st' ts A E. destruct (some_order_rows _ _ (ma_tables db cat A)) as [PT DT]. unfold list_tables, list_tables_only, run_query in E. rewrite DT in E. cbn [src_rows src_err] in E.
  destruct (each_row (table_row cat schemas tables) (st, []) (map SRow (rows_of (cat_tables cat)))) as [[s1 acc] [[]|e|]] eqn:Er; [|discriminate|discriminate]. cbn [sorted_tables] in E. injection E as <- <-.
  eapply Permutation_trans; [|apply Permutation_map, sort_perm_by]. rewrite (rows_listed _ _ _ _ _ _ _ _ Er). cbn [map app].
  eapply Permutation_trans; [|apply Permutation_map, perm_filter, PT]. unfold ms_q_tables.
  clear. induction db as [|t db IH]; [apply Permutation_refl|]. cbn [flat_map filter]. rewrite <- (one_table_rows schemas tables t). destruct (is_mstable t); [|exact IH]. cbn [flat_map]. rewrite filter_app, map_app. apply Permutation_app_head, IH.
Qed.
Example C155_listed_ex : map (ms_times_listed [] []) [described_table []; described_table [(B "OBJECT_OR_COLUMN", B "MS_Description")]; described_table [(B "INDEX", B "a"); (B "SCHEMA", B "b")]] = [1; 0; 2]%nat.
Proof. vm_compute. reflexivity. Qed.
(** Refuted: an indexed column with markup in its name panics. *)
Theorem C155_markup_refuted : forall db cat schemas tables t x n, ms_ok db -> plain_names db -> (forall t, In t db -> at_props t = []) -> ms_answers db cat ->
  In t db -> at_kind t <> TView -> at_shipped t = false -> wanted schemas tables (at_schema t) (at_name t) = true -> In x (at_idx t) -> In n (index_columns t x) -> ~ In (xml_text n) (col_names t) ->
  snd (list_tables cat new_prov schemas tables) = RPanic.
Proof. exact ms_markup_panics. Qed.
Example C155_markup_refuted_ex : snd (list_tables (ms_server [tab "dbo" "t" TTable [ac "R&D" "money"] [mkAI (B "IX") false false [Some (B "R&D")] []] []]) new_prov [] []) = RPanic.
Proof. vm_compute. reflexivity. Qed.
(** The text of FOR XML PATH: each of & < > is written as its entity. *)
Inductive written_xml : bytes -> bytes -> Prop :=
| wx_nil : written_xml [] []
| wx_amp s t : written_xml s t -> written_xml (B "&" ++ s) (B "&amp;" ++ t)
| wx_lt s t : written_xml s t -> written_xml (B "<" ++ s) (B "&lt;" ++ t)
| wx_gt s t : written_xml s t -> written_xml (B ">" ++ s) (B "&gt;" ++ t)
| wx_plain c s t : ~ In c (B "&<>") -> written_xml s t -> written_xml (c :: s) (c :: t).
Theorem C155_markup_partial : forall s t, written_xml s t <-> xml_text s = t.
Proof.
  assert (G : forall s, written_xml s (xml_text s)).
  { induction s as [|c s IH]; [constructor|]. unfold xml_text in *. cbn [flat_map]. unfold xml_char at 1.
    destruct (ascii_dec c (ch 38)) as [->|N1]; [exact (wx_amp _ _ IH)|]. destruct (ascii_dec c (ch 60)) as [->|N2]; [exact (wx_lt _ _ IH)|]. destruct (ascii_dec c (ch 62)) as [->|N3]; [exact (wx_gt _ _ IH)|].
    apply wx_plain; [|exact IH]. intros [<-|[<-|[<-|[]]]]; [exact (N1 eq_refl)|exact (N2 eq_refl)|exact (N3 eq_refl)]. }
  intros s t. split; [|intros <-; apply G]. induction 1 as [|s t _ IH|s t _ IH|s t _ IH|c s t N _ IH]; [reflexivity|..]; unfold xml_text in *; cbn [B list_ascii_of_string app flat_map]; rewrite IH; [reflexivity..|].
  unfold xml_char. destruct (ascii_dec c (ch 38)) as [->|N1]; [destruct N; left; reflexivity|]. destruct (ascii_dec c (ch 60)) as [->|N2]; [destruct N; right; left; reflexivity|]. destruct (ascii_dec c (ch 62)) as [->|N3]; [destruct N; right; right; left; reflexivity|]. reflexivity.
Qed.
Example C155_markup_ex : xml_text (B "R&D <x>") = B "R&amp;D &lt;x&gt;". Proof. vm_compute. reflexivity. Qed.
(** Refuted: the columns of an index are not in key order and include the others. *)
Theorem C155_key_order_refuted : exists st' ts, ms_ok ex_ms /\ ms_answers ex_ms (ms_server ex_ms) /\ list_tables (ms_server ex_ms) new_prov [] [B "orders"] = (st', ROk ts) /\
  map (fun x => map ix_cols (t_idx x)) ts = [[[B "b"]; [B "a"; B "b"; B "c"]]] /\ exists t a, In t ex_ms /\ In a (at_idx t) /\ ai_keys a = [Some (B "c"); Some (B "a")].
Proof.
  eexists. eexists. split; [exact ex_ms_ok|]. split; [apply ms_server_answers|]. split; [vm_compute; reflexivity|]. split; [vm_compute; reflexivity|]. eexists. exists (mkAI (B "IX_orders") false false [Some (B "c"); Some (B "a")] [B "b"]). split; [left; reflexivity|]. split; [right; left; reflexivity|reflexivity].
Qed.

(** ** C156: ListViews describes the views of a SQL Server database *)
(** When no table has the name of a view. *)
Theorem C156_views_partial : forall db cat st schemas tables vord, db_ok db -> (forall t, In t db -> no_dot (at_schema t)) -> (forall t, In t db -> at_kind t = TView -> at_cols t <> []) ->
  (forall t u, In t db -> In u db -> at_kind u = TView -> at_name t = at_name u -> t = u) -> ms_answers db cat ->
  NoDup vord -> (forall n, In n vord <-> exists t, In t db /\ at_kind t = TView /\ wanted schemas tables (at_schema t) (at_name t) = true /\ n = fqn2 (at_schema t) (at_name t)) ->
  exists st' ts, list_views cat st schemas tables vord = (st', ROk ts) /\
    (forall x, In x ts -> exists t, In t db /\ at_kind t = TView /\ wanted schemas tables (at_schema t) (at_name t) = true /\ shows_view a_type st' t x) /\
    (forall t, In t db -> at_kind t = TView -> wanted schemas tables (at_schema t) (at_name t) = true -> exists x, In x ts /\ shows_view a_type st' t x) /\
    StronglySorted (fun a b => bltb (t_fqn a) (t_fqn b) = true) ts.
Proof. exact ms_views. Qed.
Example C156_views_partial_ex : exists st' x, list_views (ms_server ex_ms) new_prov [] [] [B "dbo.open"] = (st', ROk [x]) /\ t_view x = true /\ map (option_map c_name) (seen_columns st' x) = [Some (B "a")].
Proof. eexists. eexists. split; [vm_compute; reflexivity|]. split; vm_compute; reflexivity. Qed.
(** Refuted: a table of another schema with the name of a view is listed as a view, *)
Theorem C156_table_refuted : exists db st' ts x t, db_ok db /\ ms_answers db (ms_server db) /\ list_views (ms_server db) new_prov [] [] [B "dbo.open"; B "old.open"] = (st', ROk ts) /\ In x ts /\
  In t db /\ at_kind t = TTable /\ t_schema x = at_schema t /\ t_name x = at_name t /\ t_view x = true.
Proof.
  exists [tab "dbo" "open" TView [ac "a" "int"] [] []; tab "old" "open" TTable [ac "b" "int"] [] []]. eexists. eexists. eexists. exists (tab "old" "open" TTable [ac "b" "int"] [] []). split; [apply check_db_ok; vm_compute; reflexivity|]. split; [apply ms_server_answers|]. split; [vm_compute; reflexivity|]. split; [right; left; reflexivity|]. split; [right; left; reflexivity|]. repeat split.
Qed.
(** and two views of the same name have every column twice. *)
Theorem C156_columns_refuted : exists db st' ts, db_ok db /\ ms_answers db (ms_server db) /\ list_views (ms_server db) new_prov [] [] [B "dbo.open"; B "old.open"] = (st', ROk ts) /\
  map (fun x => map (option_map c_name) (seen_columns st' x)) ts = [[Some (B "a"); Some (B "a")]; [Some (B "b"); Some (B "b")]] /\ map col_names db = [[B "a"]; [B "b"]].
Proof.
  exists [tab "dbo" "open" TView [ac "a" "int"] [] []; tab "old" "open" TView [ac "b" "int"] [] []]. eexists. eexists. split; [apply check_db_ok; vm_compute; reflexivity|]. split; [apply ms_server_answers|]. split; [vm_compute; reflexivity|]. split; vm_compute; reflexivity.
Qed.

(** ** C157: ListForeignKeys returns the foreign keys of a SQL Server database *)
(** Column by column, composite keys and equal names included. *)
Theorem C157_fks : forall db cat st schemas tables, ms_ok db -> ms_answers db cat ->
  exists st' ks, list_fks cat st schemas tables = (st', ROk ks) /\ Permutation ks (filter (fun k => wanted schemas tables (k_schema k) (k_table k)) (fk_pairs db)).
Proof. intros db cat st schemas tables Mo A. rewrite <- (ms_q_fks_ok db Mo). apply fk_listing, (ma_fks db cat A). Qed.
Example C157_fks_ex : ms_ok ex_ms /\ exists st' ks, list_fks (ms_server ex_ms) new_prov [] [] = (st', ROk ks) /\ map (fun k => (k_column k, k_rcolumn k)) ks = [(B "c", B "y"); (B "a", B "x")].
Proof. split; [exact ex_ms_ok|]. eexists. eexists. split; vm_compute; reflexivity. Qed.

(** Constraint names used once: every column of a key with every column it refers to. *)
Theorem C153_products_partial : forall db cat st schemas tables, constraint_names_once db -> pg_answers db cat ->
  exists st' ks, list_fks cat st schemas tables = (st', ROk ks) /\
    Permutation ks (filter (fun k => wanted schemas tables (k_schema k) (k_table k))
      (flat_map (fun t => flat_map (fun f => map (fun p => mkFK (af_name f) (at_schema t) (at_name t) (fst p) (af_rschema f) (af_rtable f) (snd p)) (list_prod (af_cols f) (af_rcols f))) (at_fks t)) db)).
Proof.
  intros db cat st schemas tables N A. destruct (fk_listing cat st schemas tables _ (pa_fks db cat A)) as (st' & ks & E & P). exists st', ks. split; [exact E|]. rewrite (pg_q_fks_ok db N) in P.
  replace (flat_map _ db) with (fk_products db); [exact P|]. unfold fk_products. apply flat_map_in_ext. intros t _. apply flat_map_in_ext. intros f _.
  induction (af_cols f) as [|c l IH]; [reflexivity|]. cbn [flat_map list_prod]. rewrite map_app, map_map, IH. reflexivity.
Qed.
(** Any database: a pair is listed for a foreign key of a wanted table iff its column is one
    of a key or foreign key of that name in that schema, and the column referred to is used
    by a constraint of that name in any schema. *)
Theorem C153_exact_partial : forall db cat st schemas tables, pg_answers db cat ->
  exists st' ks, list_fks cat st schemas tables = (st', ROk ks) /\ forall k, In k ks <->
    wanted schemas tables (k_schema k) (k_table k) = true /\
    (exists t f, In t db /\ In f (at_fks t) /\ af_name f = k_name k /\ at_schema t = k_schema k /\ at_name t = k_table k) /\
    (exists u, In u db /\ at_schema u = k_schema k /\
      ((exists x, In x (at_keys u) /\ fst x = k_name k /\ In (k_column k) (snd x)) \/ (exists g, In g (at_fks u) /\ af_name g = k_name k /\ In (k_column k) (af_cols g)))) /\
    (exists v, In v db /\
      ((exists x, In x (at_keys v ++ at_checks v) /\ fst x = k_name k /\ In (k_rcolumn k) (snd x) /\ at_schema v = k_rschema k /\ at_name v = k_rtable k) \/
       (exists h, In h (at_fks v) /\ af_name h = k_name k /\ In (k_rcolumn k) (af_rcols h) /\ af_rschema h = k_rschema k /\ af_rtable h = k_rtable k))).
Proof.
  intros db cat st schemas tables A. destruct (fk_listing cat st schemas tables _ (pa_fks db cat A)) as (st' & ks & E & P). exists st', ks. split; [exact E|]. intros k.
  assert (IW : forall B (b : bool) (l : list B) x, In x (where_ b l) <-> b = true /\ In x l) by (intros B [|] l x; cbn [where_]; [tauto|split; [intros []|intros [Q _]; discriminate]]).
  assert (BE : forall a b, beqb a b = true <-> a = b) by (intros a b; destruct (beqb_spec a b); split; congruence).
  assert (In k ks <-> wanted schemas tables (k_schema k) (k_table k) = true /\ In k (pg_q_fks db)) as ->.
  { split; [intros H; apply (Permutation_in _ P) in H; apply filter_In in H; tauto|intros H; apply (Permutation_in _ (Permutation_sym P)); apply filter_In; tauto]. }
  apply and_iff_compat_l. unfold pg_q_fks. rewrite in_flat_map. split.
  - intros ([[[n s] t] isfk] & H1 & H2). apply IW in H2 as [-> H2]. apply in_flat_map in H2 as ([[[n2 s2] t2] c] & H3 & H4). apply IW in H4 as [B4 H4]. apply andb_true_iff in B4 as [B4 B5]. apply BE in B4, B5. subst n2 s2.
    apply in_flat_map in H4 as ([[[n3 s3] t3] rc] & H5 & H6). apply IW in H6 as [B6 [<-|[]]]. apply BE in B6. subst n3. cbn [k_name k_schema k_table k_column k_rschema k_rtable k_rcolumn]. split; [|split].
    + unfold pg_constraints in H1. apply in_flat_map in H1 as (u & Hu & H1). apply in_app_iff in H1 as [H1|H1]; apply in_map_iff in H1 as (x & Q & Hx); [discriminate|]. injection Q as Q1 Q2 Q3. exists u, x. auto.
    + unfold pg_kcu in H3. apply in_flat_map in H3 as (u & Hu & H3). exists u. split; [exact Hu|]. apply in_app_iff in H3 as [H3|H3]; apply in_flat_map in H3 as (x & Hx & H3); apply in_map_iff in H3 as (c' & Q & Hc); injection Q as Q1 Q2 Q3 Q4; subst; (split; [reflexivity|]); [left|right]; exists x; auto.
    + unfold pg_ccu in H5. apply in_flat_map in H5 as (u & Hu & H5). exists u. split; [exact Hu|]. apply in_app_iff in H5 as [H5|H5]; apply in_flat_map in H5 as (x & Hx & H5); apply in_map_iff in H5 as (c' & Q & Hc); injection Q as Q1 Q2 Q3 Q4; subst; [left|right]; exists x; auto.
  - intros ((t & f & Ht & Hf & Q1 & Q2 & Q3) & (u & Hu & Q4 & Hc) & (v & Hv & Hr)). exists (k_name k, k_schema k, k_table k, true). split.
    + unfold pg_constraints. apply in_flat_map. exists t. split; [exact Ht|]. apply in_app_iff. right. apply in_map_iff. exists f. rewrite Q1, Q2, Q3. auto.
    + apply IW. split; [reflexivity|]. apply in_flat_map. exists (k_name k, k_schema k, at_name u, k_column k). split.
      * unfold pg_kcu. apply in_flat_map. exists u. split; [exact Hu|]. apply in_app_iff. rewrite <- Q4. destruct Hc as [(x & Hx & Q & Hc)|(g & Hg & Q & Hc)]; [left|right]; apply in_flat_map; eexists; (split; [eassumption|]); apply in_map_iff; exists (k_column k); rewrite Q; auto.
      * apply IW. split; [apply andb_true_iff; split; apply BE; reflexivity|]. apply in_flat_map. exists (k_name k, k_rschema k, k_rtable k, k_rcolumn k). split.
        -- unfold pg_ccu. apply in_flat_map. exists v. split; [exact Hv|]. apply in_app_iff. destruct Hr as [(x & Hx & Q & Hr & Q5 & Q6)|(h & Hh & Q & Hr & Q5 & Q6)]; [left|right]; apply in_flat_map; eexists; (split; [eassumption|]); apply in_map_iff; exists (k_rcolumn k); rewrite Q, Q5, Q6; auto.
        -- apply IW. split; [apply BE; reflexivity|]. left. destruct k; reflexivity.
Qed.
Example C153_products_ex : let db := [tab "a" "t" TTable [ac "x" "bigint"; ac "y" "bigint"] [] [mkAF (B "f") [B "x"; B "y"] (B "a") (B "u") [B "p"; B "q"]]; tab "a" "u" TTable [ac "p" "bigint"; ac "q" "bigint"] [] []] in
  exists st' ks, list_fks (pg_server db) new_prov [] [] = (st', ROk ks) /\ map (fun k => (k_column k, k_rcolumn k)) ks = [(B "x", B "p"); (B "x", B "q"); (B "y", B "p"); (B "y", B "q")].
Proof. eexists. eexists. split; vm_compute; reflexivity. Qed.

(** Exactly: every table or view (with columns) that has the name of a view, in whatever
    schema, is listed; each of its columns as many times as there are views of that name. *)
Definition views_named (db : database) (n : bytes) : nat := length (filter (fun u => match at_kind u with TView => beqb (at_name u) n | _ => false end) db).
Lemma ms_q_views_rows db : ms_q_views db = flat_map (fun t => flat_map (fun r => repeat (mkVR (at_schema t) (at_name t) r) (views_named db (at_name t))) (col_rows a_type t)) db.
Proof.
  unfold ms_q_views, ms_is_columns. rewrite flat_map_flat. apply flat_map_in_ext. intros t _. rewrite flat_map_map. apply flat_map_in_ext. intros r _. unfold views_named.
  generalize db as l. induction l as [|u l IH]; [reflexivity|]. cbn [filter]. unfold is_mstable at 1. destruct (at_kind u); cbn [negb flat_map]; try exact IH. destruct (beqb (at_name u) (at_name t)); cbn [where_ app length repeat]; [f_equal|]; exact IH.
Qed.
Theorem C156_exact_partial : forall db cat st schemas tables vord, db_ok db -> (forall t, In t db -> no_dot (at_schema t)) -> ms_answers db cat -> NoDup vord ->
  (forall n, In n vord <-> exists t u, In t db /\ at_cols t <> [] /\ In u db /\ at_kind u = TView /\ at_name u = at_name t /\ wanted schemas tables (at_schema t) (at_name t) = true /\ n = fqn2 (at_schema t) (at_name t)) ->
  exists st' ts, list_views cat st schemas tables vord = (st', ROk ts) /\
    (forall s n, (exists x, In x ts /\ t_schema x = s /\ t_name x = n) <->
       wanted schemas tables s n = true /\ exists t u, In t db /\ at_schema t = s /\ at_name t = n /\ at_cols t <> [] /\ In u db /\ at_kind u = TView /\ at_name u = n) /\
    (forall x t, In x ts -> In t db -> t_schema x = at_schema t -> t_name x = at_name t ->
       t_view x = true /\ Permutation (map (option_map c_name) (seen_columns st' x)) (flat_map (fun c => repeat (Some (a_name c)) (views_named db (at_name t))) (at_cols t))).
Proof.
  intros db cat st schemas tables vord Ok Nd A No Ho. destruct (ma_views db cat A) as (rows & P & D). rewrite ms_q_views_rows in P.
  assert (VN : forall n, views_named db n <> 0%nat <-> exists u, In u db /\ at_kind u = TView /\ at_name u = n).
  { intros n. unfold views_named. split.
    - destruct (filter _ db) as [|u l] eqn:F; [cbn; congruence|]. intros _. exists u. assert (I : In u (filter (fun u => match at_kind u with TView => beqb (at_name u) n | _ => false end) db)) by (rewrite F; left; reflexivity).
      apply filter_In in I as [I K]. split; [exact I|]. destruct (at_kind u); try discriminate. split; [reflexivity|]. destruct (beqb_spec (at_name u) n); [assumption|discriminate].
    - intros (u & Hu & K & Q) Z. apply length_zero_iff_nil in Z. assert (I : In u []) by (rewrite <- Z; apply filter_In; split; [exact Hu|rewrite K, Q; apply beqb_refl]). destruct I. }
  assert (RV : forall r, In r rows <-> exists t c u, In t db /\ In c (col_rows a_type t) /\ In u db /\ at_kind u = TView /\ at_name u = at_name t /\ r = mkVR (at_schema t) (at_name t) c).
  { intros r. transitivity (In r (flat_map (fun t => flat_map (fun r => repeat (mkVR (at_schema t) (at_name t) r) (views_named db (at_name t))) (col_rows a_type t)) db)); [split; apply Permutation_in; [apply Permutation_sym|]; exact P|]. rewrite in_flat_map. split.
    - intros (t & Ht & Hr). apply in_flat_map in Hr as (c & Hc & Hr). destruct (proj1 (VN (at_name t))) as (u & Hu & K & Q); [intros Z; rewrite Z in Hr; destruct Hr|]. exists t, c, u. apply repeat_spec in Hr. auto 8.
    - intros (t & c & u & Ht & Hc & Hu & K & Q & ->). exists t. split; [exact Ht|]. apply in_flat_map. exists c. split; [exact Hc|]. assert (Z : views_named db (at_name t) <> 0%nat) by (apply VN; exists u; auto). destruct (views_named db (at_name t)); [congruence|left; reflexivity]. }
  assert (NE : forall t c, In c (col_rows a_type t) -> at_cols t <> []) by (intros t c Hc Z; rewrite col_rows_map, Z in Hc; destruct Hc).
  destruct (list_views_ok cat rows st schemas tables vord D) as (st' & ts & vs & E & Nv & Iv & M & S).
  { intros r Hr. apply RV in Hr as (t & c & u & Ht & _ & _ & _ & _ & ->). apply Nd, Ht. }
  { exact No. }
  { intros n. rewrite Ho. split.
    - intros (t & u & Ht & Ne & Hu & K & Q & W & ->). destruct (col_rows_nil a_type t Ne) as (c & Hc). exists (mkVR (at_schema t) (at_name t) c). split; [apply RV; exists t, c, u; auto 8|auto].
    - intros (r & Hr & W & ->). apply RV in Hr as (t & c & u & Ht & Hc & Hu & K & Q & ->). exists t, u. pose proof (NE t c Hc). auto 10. }
  assert (PM : Permutation (map (view_of rows) vs) (map (see st') ts)) by (rewrite M; apply sort_perm_by).
  assert (SV : forall x, In x ts -> exists a, In a vs /\ see st' x = view_of rows a).
  { intros x Hx. assert (Hs : In (see st' x) (map (view_of rows) vs)) by (apply (Permutation_in _ (Permutation_sym PM)), in_map, Hx). apply in_map_iff in Hs as (a & Ea & Ha). exists a. auto. }
  exists st', ts. split; [exact E|]. split.
  - intros s n. split.
    + intros (x & Hx & <- & <-). destruct (SV x Hx) as (a & Ha & Ea). injection Ea as E1 E2 _ _ _ _ _ _. rewrite E1, E2. apply Iv in Ha as (r & Hr & W & ->). cbn [fst snd]. split; [exact W|].
      apply RV in Hr as (t & c & u & Ht & Hc & Hu & K & Q & ->). exists t, u. pose proof (NE t c Hc). auto 10.
    + intros (W & t & u & Ht & <- & <- & Ne & Hu & K & Q). destruct (col_rows_nil a_type t Ne) as (c & Hc).
      assert (Ha : In (view_of rows (at_schema t, at_name t)) (map (see st') ts)).
      { apply (Permutation_in _ PM), in_map, Iv. exists (mkVR (at_schema t) (at_name t) c). split; [apply RV; exists t, c, u; auto 8|auto]. }
      apply in_map_iff in Ha as (x & Ex & Hx). injection Ex as E1 E2 _ _ _ _ _ _. exists x. auto.
  - intros x t Hx Ht E1 E2. destruct (SV x Hx) as (a & Ha & Ea). unfold see, view_of in Ea. injection Ea as F1 F2 _ F4 _ F6 _ _. split; [exact F4|]. rewrite F6.
    assert (Eq : a = (at_schema t, at_name t)) by (destruct a; cbn [fst snd] in *; congruence). subst a. cbn [fst snd]. rewrite map_map. cbn [option_map].
    eapply Permutation_trans; [apply Permutation_map, Permutation_sym, sort_perm_by|]. rewrite map_map. cbn [make_column c_name].
    eapply Permutation_trans; [apply Permutation_map, perm_filter, Permutation_sym, P|]. rewrite <- filter_flat, flat_map_flat.
    rewrite (flat_map_in_ext _ (fun u => where_ (at_key (at_schema t) (at_name t) u) (flat_map (fun r => repeat (mkVR (at_schema u) (at_name u) r) (views_named db (at_name u))) (col_rows a_type u)))).
    + rewrite (one_table (fun u => flat_map (fun r => repeat (mkVR (at_schema u) (at_name u) r) (views_named db (at_name u))) (col_rows a_type u)) db t (ok_tables db Ok) Ht).
      rewrite map_flat_map, col_rows_map, flat_map_map.
      assert (G : forall l k, flat_map (fun x0 : nat * acol => map (fun x : viewrow => Some (cr_name (vr_col x))) (repeat (mkVR (at_schema t) (at_name t) (col_row a_type x0)) k)) (combine l (at_cols t)) = flat_map (fun c => repeat (Some (a_name c)) k) (map snd (combine l (at_cols t)))).
      { intros l k. rewrite flat_map_map. apply flat_map_in_ext. intros [i c] _. cbn [snd]. clear. induction k as [|k IH]; [reflexivity|]. cbn [repeat map]. rewrite IH. reflexivity. }
      unfold enum. rewrite G. change (combine (seq 0 (length (at_cols t))) (at_cols t)) with (enum (at_cols t)). rewrite enum_snd. apply Permutation_refl.
    + intros u _. unfold is_view_row. cbn [fst snd]. rewrite flat_map_flat, <- flat_map_where. apply flat_map_in_ext. intros r _. change (at_key (at_schema t) (at_name t) u) with (beqb (at_schema u) (at_schema t) && beqb (at_name u) (at_name t)).
      induction (views_named db (at_name u)) as [|k IH]; [destruct (beqb _ _ && _); reflexivity|]. cbn [repeat flat_map vr_schema vr_table]. rewrite IH. destruct (beqb (at_schema u) (at_schema t) && beqb (at_name u) (at_name t)); reflexivity.
Qed.
Example C156_exact_ex : let db := [tab "dbo" "open" TView [ac "a" "int"] [] []; tab "old" "open" TTable [ac "b" "int"] [] []; tab "x" "open" TView [] [] []] in
  views_named db (B "open") = 2%nat /\ exists st' ts, list_views (ms_server db) new_prov [] [] [B "dbo.open"; B "old.open"] = (st', ROk ts) /\
  map (fun x => (t_schema x, map (option_map c_name) (seen_columns st' x))) ts = [(B "dbo", [Some (B "a"); Some (B "a")]); (B "old", [Some (B "b"); Some (B "b")])].
Proof. split; [reflexivity|]. eexists. eexists. split; vm_compute; reflexivity. Qed.

(** ** C100: when ListTables panics *)
Lemma attach_cols_panics tfqn ix : forall names st pk, snd (attach_cols st tfqn ix names pk) = RPanic -> exists n, In n names /\ mget (tfqn ++ B "." ++ n) (p_cols st) = None.
Proof.
  induction names as [|n names IH]; intros st pk P; cbn [attach_cols] in P; [discriminate|]. destruct (mget (tfqn ++ B "." ++ n) (p_cols st)) as [id|] eqn:E; [|exists n; split; [left; reflexivity|exact E]].
  destruct (IH _ _ P) as (m & Hm & Em). cbn [set_heap p_cols] in Em. exists m. split; [right; exact Hm|exact Em].
Qed.
Lemma attach_panics tfqn : forall ii st pk, snd (attach st tfqn ii pk) = RPanic -> exists ix n, In ix ii /\ In n (ix_cols ix) /\ mget (tfqn ++ B "." ++ n) (p_cols st) = None.
Proof.
  induction ii as [|ix ii IH]; intros st pk P; cbn [attach] in P; [discriminate|]. pose proof (attach_cols_all tfqn ix (ix_cols ix) st pk) as A. pose proof (attach_cols_panics tfqn ix (ix_cols ix) st pk) as Q.
  destruct (attach_cols st tfqn ix (ix_cols ix) pk) as [st1 [p|e|]]; [|destruct A|].
  - destruct A as [E1 _]. destruct (IH _ _ P) as (i & n & Hi & Hn & En). rewrite E1 in En. exists i, n. split; [right; exact Hi|auto].
  - destruct (Q eq_refl) as (n & Hn & En). exists ix, n. split; [left; reflexivity|auto].
Qed.
Lemma put_cols_keeps s t rows : forall i m k, mget k m <> None -> mget k (put_cols s t rows i m) <> None.
Proof.
  induction rows as [|y b IH]; intros i m k H; cbn [put_cols]; [exact H|]. apply IH. rewrite mget_mput. destruct (beqb (fqn3 s t (cr_name y)) k); [discriminate|exact H].
Qed.
Lemma put_cols_all s t rows : forall i m c, In c rows -> mget (fqn3 s t (cr_name c)) (put_cols s t rows i m) <> None.
Proof.
  induction rows as [|y b IH]; intros i m c Hc; [destruct Hc|]. cbn [put_cols]. destruct Hc as [->|Hc]; [apply put_cols_keeps; rewrite mget_mput, beqb_refl; discriminate|apply IH, Hc].
Qed.
(** Every query of the catalog succeeds, and no schema or table has a dot in its name. *)
Definition answered (cat : catalog) (tabs : list tabrow) (cols : bytes -> bytes -> list colrow) (idxs : bytes -> bytes -> list idxrow) : Prop :=
  delivers (cat_tables cat) tabs /\ (forall s t, delivers (cat_columns cat s t) (cols s t)) /\ (forall s t, delivers (cat_indexes cat s t) (idxs s t)) /\
  forall r, In r tabs -> no_dot (tr_schema r) /\ no_dot (tr_name r).
(** Exactly when ListTables panics: some requested table has an index row whose text, split
    at commas, names something that is not one of its columns. *)
Theorem C100_exact_partial : forall cat tabs cols idxs schemas tables, answered cat tabs cols idxs ->
  (snd (list_tables cat new_prov schemas tables) = RPanic <->
   exists r ix n, In r tabs /\ wanted schemas tables (tr_schema r) (tr_name r) = true /\ In ix (idxs (tr_schema r) (tr_name r)) /\
     In n (split_on (ch 44) (ir_cols ix)) /\ ~ In n (map cr_name (cols (tr_schema r) (tr_name r)))) /\
  (snd (list_tables cat new_prov schemas tables) <> RPanic -> exists ts, snd (list_tables cat new_prov schemas tables) = ROk ts).
Proof.
  intros cat tabs cols idxs schemas tables (D & Dc & Di & Nd).
  assert (Rc : forall s t, rows_of (cat_columns cat s t) = cols s t) by (intros; apply rows_delivered, Dc). assert (Ri : forall s t, rows_of (cat_indexes cat s t) = idxs s t) by (intros; apply rows_delivered, Di).
  assert (R : forall l st acc, match each_row (table_row cat schemas tables) (st, acc) (map SRow l) with
    | (_, ROk _) => True | (_, RErr _) => False
    | (_, RPanic) => exists r ix n, In r l /\ wanted schemas tables (tr_schema r) (tr_name r) = true /\ In ix (idxs (tr_schema r) (tr_name r)) /\ In n (split_on (ch 44) (ir_cols ix)) /\ ~ In n (map cr_name (cols (tr_schema r) (tr_name r))) end).
  { induction l as [|r l IH]; intros st acc; cbn [map each_row]; [exact I|]. destruct (table_row cat schemas tables (st, acc) r) as [[s1 acc1] o] eqn:T. unfold table_row in T. destruct (wanted schemas tables (tr_schema r) (tr_name r)) eqn:W; cbn [negb] in T.
    2:{ injection T as <- <- <-. specialize (IH st acc). destruct (each_row (table_row cat schemas tables) (st, acc) (map SRow l)) as [? [u|e|]]; [exact I|exact IH|]. destruct IH as (q & ix & n & Hq & H). exists q, ix, n. split; [right; exact Hq|exact H]. }
    rewrite (read_columns_ok cat st _ _ _ (Dc _ _)), (read_indexes_ok cat _ _ _ (Di _ _)) in T.
    pose proof (attach_all (fqn2 (tr_schema r) (tr_name r)) (map make_index (idxs (tr_schema r) (tr_name r))) (read_state st (tr_schema r) (tr_name r) (cols (tr_schema r) (tr_name r))) None) as A.
    pose proof (attach_panics (fqn2 (tr_schema r) (tr_name r)) (map make_index (idxs (tr_schema r) (tr_name r))) (read_state st (tr_schema r) (tr_name r) (cols (tr_schema r) (tr_name r))) None) as Q.
    destruct (attach (read_state st _ _ _) _ _ None) as [s2 [p|e|]]; [|destruct A|].
    - injection T as <- <- <-. clear Q A. match goal with |- match each_row _ ?x _ with _ => _ end => destruct x as [sx ax] end. specialize (IH sx ax). destruct (each_row (table_row cat schemas tables) (sx, ax) (map SRow l)) as [? [u|e|]]; [exact I|exact IH|]. destruct IH as (q & ix & n & Hq & H). exists q, ix, n. split; [right; exact Hq|exact H].
    - injection T as <- <- <-. destruct (Q eq_refl) as (ix & n & Hix & Hn & E). apply in_map_iff in Hix. destruct Hix as (x & <- & Hx). exists r, x, n. split; [left; reflexivity|]. split; [exact W|]. split; [exact Hx|]. split; [exact Hn|].
      intros B. apply in_map_iff in B. destruct B as (c & <- & Hc). revert E. rewrite read_state_cols, fqn2_dot. apply put_cols_all, Hc. }
  assert (S : match list_tables cat new_prov schemas tables with (_, ROk _) => True | (_, RErr _) => False
    | (_, RPanic) => exists r ix n, In r tabs /\ wanted schemas tables (tr_schema r) (tr_name r) = true /\ In ix (idxs (tr_schema r) (tr_name r)) /\ In n (split_on (ch 44) (ir_cols ix)) /\ ~ In n (map cr_name (cols (tr_schema r) (tr_name r))) end).
  { unfold list_tables, list_tables_only, run_query. rewrite D. cbn [src_rows src_err]. specialize (R tabs new_prov []). destruct (each_row (table_row cat schemas tables) (new_prov, []) (map SRow tabs)) as [[s1 acc] [[]|e|]]; [exact I|destruct R|exact R]. }
  split; [split|].
  - intros P. destruct (list_tables cat new_prov schemas tables) as [st' [ts|e|]]; [discriminate|discriminate|exact S].
  - intros (r & ix & n & Hr & W & Hix & Hn & Bad). apply (list_panics cat tabs schemas tables r ix n D); [|exact Hr|exact W|rewrite Ri; exact Hix|exact Hn|rewrite Rc; exact Bad].
    intros q Hq. rewrite Rc, Ri. split; [apply Dc|]. split; [apply Di|]. apply Nd, Hq.
  - intros P. destruct (list_tables cat new_prov schemas tables) as [st' [ts|e|]]; [exists ts; reflexivity|destruct S|destruct (P eq_refl)].
Qed.
Example C100_exact_ex : exists cat tabs cols idxs, answered cat tabs cols idxs /\ snd (list_tables cat new_prov [] []) = RPanic /\ exists ts, snd (list_tables cat new_prov [] [B "u"]) = ROk ts /\ length ts = 1%nat.
Proof.
  set (tabs := [mkTR (B "s") (B "t") (B "BASE TABLE"); mkTR (B "s") (B "u") (B "BASE TABLE")]). set (src := fun A (l : list A) => @inl (rowsrc A) Z (mkSrc (map SRow l) None)).
  set (idxs := fun s t : bytes => if beqb t (B "t") then [mkIR (B "i") false false (B "a,b")] else []). set (cols := fun s t : bytes => [mkCR (B "a,b") (B "text") (B "text") (B "no") None 1]).
  exists (mkCat (src _ tabs) (src _ []) (fun s t => src _ (cols s t)) (fun s t => src _ (idxs s t)) (src _ [])), tabs, cols, idxs.
  split; [|split; [vm_compute; reflexivity|eexists; split; vm_compute; reflexivity]]. split; [reflexivity|]. split; [reflexivity|]. split; [reflexivity|]. intros r [<-|[<-|[]]]; split; intros H; vm_compute in H; intuition discriminate.
Qed.

(** ** Assumptions *)
Print Assumptions C152_tables_partial.
Print Assumptions C152_partitioned_refuted.
Print Assumptions C152_expression_refuted.
Print Assumptions C152_same_index_name_refuted.
Print Assumptions C152_same_index_name_key_refuted.
Print Assumptions C153_fks_partial.
Print Assumptions C153_composite_refuted.
Print Assumptions C153_same_name_refuted.
Print Assumptions C154_views_partial.
Print Assumptions C154_no_columns_refuted.
Print Assumptions C155_tables_partial.
Print Assumptions C155_description_refuted.
Print Assumptions C155_index_descriptions_refuted.
Print Assumptions C155_listed_partial.
Print Assumptions C155_markup_refuted.
Print Assumptions C155_markup_partial.
Print Assumptions C155_key_order_refuted.
Print Assumptions C156_views_partial.
Print Assumptions C156_table_refuted.
Print Assumptions C156_columns_refuted.
Print Assumptions C157_fks.
Print Assumptions C153_products_partial.
Print Assumptions C153_exact_partial.
Print Assumptions C156_exact_partial.
Print Assumptions C100_exact_partial.
