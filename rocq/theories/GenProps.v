(** Properties of the code generator (C69, C70, C105-C111). *)
From Verif Require Import GoBase GoBaseFacts IdModel TypeModel TypeSpec TypeProofs TimeModel ParamModel SchemaModel SchemaSpec SchemaProofs SchemaGraph SchemaDeps SchemaMore GenModel GenSpec GenTypes GenProofs GenMore.
From Verif Require SchemaProps.
From Coq Require Import Permutation.
Open Scope Z_scope.

(** ** C69: the Go type of a column *)
(** Every known type maps to the Go type of its family. *)
Theorem C69_known_types : forall types c f, no_override types c -> c_type c <> B "ARRAY" -> has_family (type_of c) f ->
  (id_column (c_name c) -> to_go_type types c = ROk (go_type true (c_null c) f)) /\
  (~ id_column (c_name c) -> to_go_type types c = ROk (go_type false (c_null c) f)).
Proof.
  intros types c f N A F. rewrite (to_go_plain _ _ N A). split; intro H.
  - apply is_id_iff in H. rewrite H. pose proof (first_type_ok _ _ true (c_null c) F) as E. cbv beta iota in E. rewrite E. reflexivity.
  - rewrite <- is_id_iff in H. apply Bool.not_true_is_false in H. rewrite H. pose proof (first_type_ok _ _ false (c_null c) F) as E. cbv beta iota in E. rewrite E. reflexivity.
Qed.
(** Any other type name is refused, never guessed. *)
Theorem C69_unknown_types : forall types c, no_override types c -> c_type c <> B "ARRAY" -> ~ In (ch 32) (type_of c) -> (forall f, ~ has_family (type_of c) f) -> to_go_type types c = RPanic.
Proof. intros types c N A S F. rewrite (to_go_plain _ _ N A). rewrite first_type_none by assumption. reflexivity. Qed.
(** Array columns. *)
Theorem C69_arrays : forall types c, no_override types c -> c_type c = B "ARRAY" ->
  to_go_type types c =
    (if beqb (c_udt c) (B "_int8") then ROk (if has_suffix (B "_ids") (c_name c) then B "xdb.IDArray" else B "pq.Int64Array")
     else if beqb (c_udt c) (B "_text") || beqb (c_udt c) (B "_varchar") then ROk (B "pq.StringArray") else RPanic).
Proof.
  intros types c (H1 & H2 & H3) A. unfold to_go_type. rewrite H1, H2, H3, A.
  replace (if beqb (c_udt c) (B "int4") && negb (c_null c) && has_suffix (B "_count") (c_name c) then None else None) with (@None bytes) by (destruct (_ && _ && _); reflexivity).
  rewrite beqb_refl. reflexivity.
Qed.
(** A definition for the column's name wins, then one for its full name. *)
Theorem C69_overrides : forall types c r, (mget (c_name c) types = Some r -> to_go_type types c = ROk r) /\
  (mget (c_name c) types = None -> mget (c_fqn c) types = Some r -> to_go_type types c = ROk r).
Proof. intros types c r. unfold to_go_type. split; [intros -> | intros -> ->]; reflexivity. Qed.

Definition ok_names : list bytes := [B "xdb.ID"; B "xdb.ID32"; B "xdb.Int64"; B "xdb.Int32"; B "xdb.Float"; B "xdb.Bool"; B "xdb.NULLString"; B "xdb.UUID"; B "xdb.Time"; B "xdb.IDArray"; B "[]byte"; B "pq.Int64Array"; B "pq.StringArray"].
Lemma ok_names_ok ty : In ty ok_names -> null_ok ty.
Proof. unfold ok_names. intro H. repeat (destruct H as [<-|H]; [constructor; reflexivity|]). destruct H. Qed.
Lemma table_null_safe k v : mget k type_by_column = Some v -> In v ok_names \/ mget (k ++ B " NULL") type_by_column <> None.
Proof.
  intro H. apply mget_in in H.
  assert (K : forallb (fun kv => existsb (beqb (snd kv)) ok_names || match mget (fst kv ++ B " NULL") type_by_column with Some _ => true | None => false end) type_by_column = true) by (vm_compute; reflexivity).
  rewrite forallb_forall in K. specialize (K _ H). cbn [fst snd] in K. apply Bool.orb_true_iff in K as [K|K].
  - left. apply existsb_exists in K as (x & Hx & E). apply beqb_eq in E. rewrite E. exact Hx.
  - right. destruct (mget (k ++ B " NULL") type_by_column); congruence.
Qed.
Lemma null_variant_safe k v : mget (k ++ B " NULL") type_by_column = Some v -> In v ok_names.
Proof.
  intro H. apply mget_in in H.
  assert (K : forallb (fun kv => negb (has_suffix (B " NULL") (fst kv)) || existsb (beqb (snd kv)) ok_names) type_by_column = true) by (vm_compute; reflexivity).
  rewrite forallb_forall in K. specialize (K _ H). cbn [fst snd] in K. rewrite (proj2 (has_suffix_spec _ _) (ex_intro _ k eq_refl)) in K. cbn [negb orb] in K.
  apply existsb_exists in K as (x & Hx & E). apply beqb_eq in E. rewrite E. exact Hx.
Qed.
Lemma first_type_null l v : first_type true l = Some v -> In v ok_names.
Proof.
  induction l as [|t l IH]; cbn [first_type]; [discriminate|]. destruct (mget (t ++ B " NULL") type_by_column) as [x|] eqn:E.
  - intro H. injection H as <-. exact (null_variant_safe _ _ E).
  - destruct (mget t type_by_column) as [x|] eqn:E2; [|exact IH]. intro H. injection H as <-. destruct (table_null_safe _ _ E2) as [H|H]; [exact H | congruence].
Qed.
(** A nullable column gets a type that can hold NULL: for every type name,
    known or not. *)
Theorem C69_null_safe : forall types c ty, no_override types c -> c_null c = true -> to_go_type types c = ROk ty -> null_ok ty.
Proof.
  intros types c ty N Hn E. apply ok_names_ok. destruct (beqb_spec (c_type c) (B "ARRAY")) as [A|A].
  - rewrite (C69_arrays _ _ N A) in E. destruct (beqb _ _).
    + injection E as <-. destruct (has_suffix _ _); vm_compute; tauto.
    + destruct (_ || _); [|discriminate]. injection E as <-. vm_compute. tauto.
  - rewrite (to_go_plain _ _ N A), Hn in E. destruct (first_type true _) as [v|] eqn:F; [|discriminate]. injection E as <-. exact (first_type_null _ _ F).
Qed.
Definition ex_c (n ty udt : string) (null : bool) : column := mkCol (B n) (B ty) (B udt) null 0 1 (B "public.t." ++ B n) None [].
Example C69_null_safe_ex : to_go_type [] (ex_c "user_id" "bigint" "int8" true) = ROk (B "xdb.ID") /\ to_go_type [] (ex_c "note" "character varying" "varchar" true) = ROk (B "xdb.NULLString") /\
  to_go_type [] (ex_c "note" "character varying" "varchar" false) = ROk (B "string") /\ to_go_type [] (ex_c "price" "money" "" true) = RPanic /\ no_override [] (ex_c "user_id" "bigint" "int8" true).
Proof. vm_compute. repeat split; reflexivity. Qed.
(** The type holds every value of the column, except for tinyint; identifiers
    are not negative. *)
Theorem C69_range_partial : forall types c f ty z, no_override types c -> c_type c <> B "ARRAY" -> has_family (type_of c) f -> to_go_type types c = ROk ty ->
  sql_holds f z -> (id_column (c_name c) -> 0 <= z) -> (f = FTiny -> c_null c = true) -> go_holds ty z.
Proof.
  intros types c f ty z N A F E Hz Hid Ht. destruct (C69_known_types types c f N A F) as [P1 P2]. destruct (is_id c) eqn:I.
  - apply is_id_iff in I. rewrite (P1 I) in E. injection E as <-. specialize (Hid I).
    destruct f; cbn [sql_holds] in Hz; try tauto; [| | |specialize (Ht eq_refl); rewrite Ht]; try destruct (c_null c); cbn [go_type]; unfold go_holds;
      [right; right; right; right; left | right; right; right; right; left | right; right; right; right; right | right; right; right; right; right | right; left | right; right; left | right; left | right; left]; (split; [auto|lia]).
  - assert (I' : ~ id_column (c_name c)) by (rewrite <- is_id_iff, I; discriminate). rewrite (P2 I') in E. injection E as <-.
    destruct f; cbn [sql_holds] in Hz; try tauto; [| | |specialize (Ht eq_refl); rewrite Ht]; try destruct (c_null c); cbn [go_type]; unfold go_holds;
      [left | left | right; left | right; left | right; left | right; right; left | right; left | right; left]; (split; [auto|lia]).
Qed.
Example C69_range_partial_ex : has_family (B "int4") FInt32 /\ sql_holds FInt32 (- 2 ^ 31) /\ to_go_type [] (ex_c "delta" "integer" "int4" false) = ROk (B "int32").
Proof. split; [|split; [cbn [sql_holds]; lia | vm_compute; reflexivity]]. exists [B "int"; B "int4"]. split; cbn [families In]; tauto. Qed.
(** A tinyint NOT NULL column holds 200 in SQL Server, int8 does not. *)
Theorem C69_tinyint_refuted : exists c ty z, no_override [] c /\ to_go_type [] c = ROk ty /\ has_family (type_of c) FTiny /\ sql_holds FTiny z /\ ~ go_holds ty z.
Proof.
  exists (ex_c "level" "tinyint" "tinyint" false), (B "int8"), 200. split; [repeat split|]. split; [vm_compute; reflexivity|]. split; [exists [B "tinyint"]; split; cbn [families In]; tauto|]. split; [cbn [sql_holds]; lia|].
  unfold go_holds. intros [[[H|H] _]|[[[H|H] _]|[[H _]|[[_ H]|[[H _]|[H _]]]]]]; try discriminate H. lia.
Qed.

(** ** C70: struct, ScanRow and TableInfo list the same columns *)
(** A successful run writes, for every schema, one struct per table of it in
    order; struct fields, Scan destinations, TableInfo.Columns and column
    definitions of a table list the kept columns in the order of the table. *)
Theorem C70_generated : forall nm fok a ts ord m w m' w', schema_order ord ts -> generate nm fok a ts ord m w = ((m', w'), ROk tt) ->
  forall s, In s (map g_schema ts) -> exists mf sf dia ss older gi mv en gc0 gc,
    named ts s model_base mf /\ named ts s schema_base sf /\
    emitted (ga_outm a) mf w w' (GModel (model_pkg a) dia ss) /\
    emitted (ga_outs a) sf w w' (GSchema (schema_pkg a) (older ++ gi) mv en (gc0 ++ gc)) /\
    for_tables (of_table (gm_types m') (run_drop a) (if beqb (model_pkg a) (schema_pkg a) then [] else schema_pkg a ++ B ".")) (tables_of s ts) ss gi gc /\
    en = map (fun g => (ti_name (gi_info g), gi_var g)) (older ++ gi) /\
    (~ several ts -> older = [] /\ gc0 = []).
Proof.
  intros nm fok a ts ord m w m' w' HO H s Hs. destruct (generate_ok _ _ _ _ _ _ _ _ _ H) as (Em & E). pose proof (order_multi _ _ HO) as HM. destruct HO as [ND HO].
  destruct (each_schema_ok _ _ _ _ _ _ _ _ _ _ _ _ HM ND E) as (_ & P). apply HO in Hs. destruct (in_split _ _ Hs) as (o1 & o2 & Eo).
  destruct (P _ _ _ Eo) as (od & (ss & older & gi & mv & gc0 & gc & P1 & P2 & P3 & P4 & _ & P5 & _) & Q). cbn [app] in P3, P4. rewrite by_schema_get in P5.
  eexists _, _, _, ss, older, gi, mv, _, gc0, gc. split; [apply named_file|]. split; [apply named_file|]. split; [exact P1|]. split; [exact P2|]. split; [exact P5|]. split; [reflexivity|].
  intro NS. destruct HM as [HM|HM]; [apply multi_several in HM; contradiction|]. rewrite Eo, app_length in HM. cbn [length] in HM. destruct o1; [|cbn [length] in HM; lia].
  cbn [flat_map] in P3, Q. inversion P3; subst. inversion Q; subst. inversion P4; subst. split; reflexivity.
Qed.
(** The text xdb puts between SELECT and FROM lists the columns in the order in
    which ScanRow reads them. *)
Theorem C70_select_order : forall types drop spkg t s i g, of_table types drop spkg t s i g -> ti_all (gi_info i) = [] ->
  snd (all_columns (gi_info i)) = join (B ", ") (map (fun f => c_name (gf_col f)) (gs_fields s)) /\ length (gs_scan s) = length (ti_columns (gi_info i)).
Proof.
  intros types drop spkg t s i g O E. unfold all_columns. rewrite E. cbn [is_empty snd]. rewrite (o_names _ _ _ _ _ _ _ O), (o_scan _ _ _ _ _ _ _ O). split; [reflexivity|]. rewrite !map_length. reflexivity.
Qed.
Definition ex_nm : naming := mkNm (fun s => s) (fun s => s).
Definition ex_fok (_ : gfile) : bool := true.
Definition ex_t (s n : string) (cols : list column) (pk : option column) : gtab := mkGT (B s) (B n) (B s ++ B "." ++ B n) cols [] pk.
Definition ex_idc : column := ex_c "id" "bigint" "int8" false.
Definition ex_users : gtab := ex_t "public" "user" [ex_idc; ex_c "name" "text" "text" true; ex_c "old" "text" "text" true] (Some ex_idc).
Definition ex_orders : gtab := ex_t "shop" "order" [ex_c "id" "bigint" "int8" false] None.
Definition ex_args (drop : list bytes) : gargs := mkGA (B "db") (B "out/model") (B "out/schema") [] [] [] true (Some (ROk (mkOv [] [] [] [] drop))).
Definition ex_world : world := mkW [] [].
Example C70_generated_ex : exists m' w', generate ex_nm ex_fok (ex_args [B "old"]) [ex_users] [B "public"] no_maps ex_world = ((m', w'), ROk tt) /\
  schema_order [B "public"] [ex_users] /\
  (exists s, fget (B "out/model", model_base) (w_fs w') = Some (GModel (B "model") true [s]) /\ gs_scan s = [B "id"; B "name"] /\ gs_info s = B "schema.userTableInfo" /\ map gf_type (gs_fields s) = [B "xdb.ID"; B "xdb.NULLString"]) /\
  (exists i mv en gc, fget (B "out/schema", schema_base) (w_fs w') = Some (GSchema (B "schema") [i] mv en gc) /\ ti_columns (gi_info i) = [B "id"; B "name"] /\ gi_var i = B "userTableInfo").
Proof.
  eexists _, _. split; [vm_compute; reflexivity|]. split.
  { split; [constructor; [intros []|constructor]|]. intro s. reflexivity. }
  split; [eexists; split; [vm_compute; reflexivity|]; vm_compute; repeat split; reflexivity | eexists _, _, _, _; split; [vm_compute; reflexivity|]; vm_compute; repeat split; reflexivity].
Qed.

(** ** C105: the primary key of a TableInfo is one of its columns *)
Theorem C105_kept_pk_partial : forall types drop spkg t s i g c, of_table types drop spkg t s i g -> g_pk t = Some c -> In c (g_cols t) -> ~ In (c_name c) drop -> In (ti_pk (gi_info i)) (ti_columns (gi_info i)).
Proof.
  intros types drop spkg t s i g c O Hpk Hc Hd. rewrite (o_pk _ _ _ _ _ _ _ O), Hpk, (o_names _ _ _ _ _ _ _ O). rewrite <- map_map. apply in_map. pose proof (o_cols _ _ _ _ _ _ _ O) as K. clear - K Hc Hd.
  induction K as [|x l r Hx _ IH|x l r Hx _ IH]; [exact Hc | |].
  - destruct Hc as [->|Hc]; [contradiction | exact (IH Hc)].
  - destruct Hc as [->|Hc]; [left; reflexivity | right; exact (IH Hc)].
Qed.
Theorem C105_dropped_pk_refuted : exists t w' i mv en gc, g_pk t <> None /\ generate ex_nm ex_fok (ex_args [B "id"]) [t] [B "public"] no_maps ex_world = ((no_maps, w'), ROk tt) /\
  fget (B "out/schema", schema_base) (w_fs w') = Some (GSchema (B "schema") [i] mv en gc) /\ ti_pk (gi_info i) = B "id" /\ ~ In (ti_pk (gi_info i)) (ti_columns (gi_info i)).
Proof.
  exists ex_users. eexists _, _, _, _, _. split; [discriminate|]. split; [vm_compute; reflexivity|]. split; [vm_compute; reflexivity|]. split; [reflexivity|].
  vm_compute. intros [H|[H|[]]]; discriminate.
Qed.

(** ** C106: a generated package declares every name once *)
(** With one schema and tables whose variables have different names, the
    TableInfo variables are distinct. *)
Lemma for_tables_vars P ts ss gi gc : for_tables P ts ss gi gc -> length gi = length ts /\ length ss = length ts /\ length gc = length ts.
Proof. induction 1 as [|? ? ? ? ? ? ? ? _ _ (I1 & I2 & I3)]; cbn [length]; auto. Qed.
(** With several schemas the second schema file declares again what the first
    one declares, whatever the tables are. *)
Theorem C106_several_schemas_refuted : forall nm fok a ts s1 s2 ord m w m' w', schema_order (s1 :: s2 :: ord) ts -> ga_outs a <> [] ->
  generate nm fok a ts (s1 :: s2 :: ord) m w = ((m', w'), ROk tt) ->
  exists f1 f2 v, s1 <> s2 /\ fget (ga_outs a, s1 ++ B "_" ++ schema_base) (w_fs w') = Some f1 /\ fget (ga_outs a, s2 ++ B "_" ++ schema_base) (w_fs w') = Some f2 /\
    In v (declares f1) /\ In v (declares f2) /\ v <> B "Dialect".
Proof.
  intros nm fok a ts s1 s2 ord m w m' w' HO Hne H. destruct (generate_ok _ _ _ _ _ _ _ _ _ H) as (Em & E). pose proof (order_multi _ _ HO) as HM. destruct HO as [ND HO].
  destruct HM as [HM|HM]; [|cbn [length] in HM; lia]. rewrite HM in E.
  destruct (each_schema_ok _ _ _ _ _ _ _ _ _ _ _ _ (or_introl eq_refl) ND E) as (_ & P).
  destruct (P [] s1 (s2 :: ord) eq_refl) as (od1 & (ss1 & ol1 & gi1 & mv1 & gc01 & gc1 & A1 & A2 & A3 & A4 & A5 & A6 & A7 & A8) & Q1).
  destruct (P [s1] s2 ord eq_refl) as (od2 & (ss2 & ol2 & gi2 & mv2 & gc02 & gc2 & B1 & B2 & B3 & B4 & B5 & B6 & B7 & B8) & Q2).
  cbn [flat_map app] in A3, B3. rewrite app_nil_r in B3. inversion A3; subst ol1. cbn [file_name] in A2, B2.
  assert (EQ : gi1 = ol2) by (eapply Forall2_fun; eassumption). subst ol2.
  assert (NE : gi1 <> []).
  { intros ->. inversion A7 as [X|]. symmetry in X. apply map_eq_nil in X. rewrite by_schema_get in X. apply (proj2 (tables_of_in ts s1)) in X; [exact X|]. apply HO. left. reflexivity. }
  destruct A2 as [(X & _)|(_ & A2)]; [contradiction|]. destruct B2 as [(X & _)|(_ & B2)]; [contradiction|].
  destruct gi1 as [|i gi1]; [congruence|]. eexists _, _, (gi_var i). split; [inversion ND as [|? ? N _]; subst; intros ->; apply N; left; reflexivity|].
  split; [exact A2|]. split; [exact B2|]. cbn [declares app map]. split; [right; left; reflexivity|]. split; [right; left; reflexivity|].
  inversion A7 as [|x y l l' Hy Hl X]; subst. clear - Hy. unfold render_info in Hy. apply obind_ok in Hy as (v & Hv & Ei). injection Ei as <-. cbn [gi_var].
  unfold table_info_struct_name, struct_name_of in Hv. assert (S : exists p, v = p ++ B "TableInfo").
  { destruct (mget _ _) as [r|]; [injection Hv as <-; exists r; reflexivity|]. apply obind_ok in Hv as (n & _ & Hv). injection Hv as <-. exists n. reflexivity. }
  destruct S as (p & ->). intro Z. apply (f_equal (@rev ascii)) in Z. rewrite rev_app_distr in Z. discriminate Z.
Qed.
Example C106_several_schemas_ex : exists m' w', generate ex_nm ex_fok (ex_args []) [ex_users; ex_orders] [B "shop"; B "public"] no_maps ex_world = ((m', w'), ROk tt) /\
  schema_order [B "shop"; B "public"] [ex_users; ex_orders] /\
  (exists f1 f2, fget (B "out/schema", B "shop_schema.gen.go") (w_fs w') = Some f1 /\ fget (B "out/schema", B "public_schema.gen.go") (w_fs w') = Some f2 /\ declares f1 = [B "Dialect"; B "orderTableInfo"; B "dbTables"; B "shoporder"] /\
     declares f2 = [B "Dialect"; B "orderTableInfo"; B "userTableInfo"; B "dbTables"; B "shoporder"; B "user"]).
Proof.
  eexists _, _. split; [vm_compute; reflexivity|]. split.
  { split; [constructor; [intros [X|[]]; discriminate X|constructor; [intros []|constructor]]|]. intro s. cbn [map In g_schema ex_users ex_orders ex_t]. tauto. }
  eexists _, _. repeat split; vm_compute; reflexivity.
Qed.
(** Model and schema files in one directory both declare the name of the
    struct, for every table. *)
Theorem C106_same_directory_refuted : forall types drop spkg t s i g pkg dia ss pkg' gi mv en gc, of_table types drop spkg t s i g -> In s ss -> In g gc ->
  In (gs_name s) (declares (GModel pkg dia ss)) /\ In (gs_name s) (declares (GSchema pkg' gi mv en gc)).
Proof.
  intros types drop spkg t s i g pkg dia ss pkg' gi mv en gc O Hs Hg. cbn [declares]. split.
  - apply in_or_app. right. apply in_flat_map. exists s. split; [exact Hs | left; reflexivity].
  - right. apply in_or_app. right. right. destruct (o_def _ _ _ _ _ _ _ O) as (<- & _). apply in_map. exact Hg.
Qed.
(** With one schema, TableInfo variables are distinct when the names they are
    made from are. *)
Theorem C106_infos_partial : forall nm fok a ts ord m w m' w' s, schema_order ord ts -> ~ several ts -> In s (map g_schema ts) -> generate nm fok a ts ord m w = ((m', w'), ROk tt) ->
  (forall t u v, In t ts -> In u ts -> struct_name_of nm (gm_tables m') (B "TableInfo") (g_name t) (g_fqn t) = ROk v -> struct_name_of nm (gm_tables m') (B "TableInfo") (g_name u) (g_fqn u) = ROk v -> t = u) -> NoDup ts ->
  exists gi mv en gc, emitted (ga_outs a) schema_base w w' (GSchema (schema_pkg a) gi mv en gc) /\ NoDup (map gi_var gi) /\ length gi = length ts.
Proof.
  intros nm fok a ts ord m w m' w' s HO NS Hs H Inj NDt. destruct (generate_ok _ _ _ _ _ _ _ _ _ H) as (Em & E). pose proof (order_multi _ _ HO) as HM. destruct HO as [ND HO].
  destruct HM as [HM|HM]; [apply multi_several in HM; contradiction|]. assert (MF : (1 <? length (by_schema ts))%nat = false) by (apply Bool.not_true_is_false; rewrite multi_several; exact NS).
  destruct (each_schema_ok _ _ _ _ _ _ _ _ _ _ _ _ (or_intror HM) ND E) as (_ & P). apply HO in Hs. destruct (in_split _ _ Hs) as (o1 & o2 & Eo).
  assert (o1 = []) by (destruct o1; [reflexivity|]; rewrite Eo, app_length in HM; cbn [length] in HM; lia). subst o1.
  destruct (P _ _ _ Eo) as (od & (ss & older & gi & mv & gc0 & gc & P1 & P2 & P3 & P4 & _ & P5 & P6 & _) & Q). cbn [flat_map app] in P3. inversion P3; subst older. cbn [app] in P2. rewrite MF in P2. cbn [file_name] in P2.
  rewrite by_schema_get in P5, P6. assert (T : tables_of s ts = ts).
  { unfold tables_of. clear - NS Hs HO. assert (K : forall t, In t ts -> g_schema t = s).
    { intros t Ht. apply HO in Hs. apply in_map_iff in Hs as (u & Eu & Hu). destruct (beqb_spec (g_schema t) s) as [X|X]; [exact X|]. exfalso. apply NS. exists t, u. rewrite Eu. auto. }
    clear - K. induction ts as [|t ts IH]; [reflexivity|]. cbn [filter]. rewrite (K t (or_introl eq_refl)), beqb_refl. f_equal. apply IH. intros u Hu. apply K. right. exact Hu. }
  rewrite T in *. exists gi, mv, (map (fun g => (ti_name (gi_info g), gi_var g)) gi), (gc0 ++ gc). split; [exact P2|]. split; [|exact (proj1 (for_tables_vars _ _ _ _ _ P5))].
  clear - P6 Inj NDt. remember (map (make_info (run_drop a)) ts) as l eqn:El. revert ts El Inj NDt. induction P6 as [|i g l gi Hg HF IH]; intros ts El Inj NDt; cbn [map]; [constructor|].
  destruct ts as [|t ts]; [discriminate|]. cbn [map] in El. injection El as -> ->. inversion NDt as [|? ? Nt NDt']; subst. constructor.
  - intro X. apply in_map_iff in X as (g' & Ev & Hg'). assert (Z : exists u, In u ts /\ render_info nm m' (make_info (run_drop a) u) = ROk g').
    { clear - HF Hg'. remember (map (make_info (run_drop a)) ts) as l. revert ts Heql. induction HF as [|i x l gi Hx _ IH]; intros ts El; [destruct Hg'|]. destruct ts as [|u ts]; [discriminate|]. injection El as -> ->.
      destruct Hg' as [->|Hg']; [exists u; split; [left; reflexivity|exact Hx]|]. destruct (IH Hg' ts eq_refl) as (u' & Hu & Eu). exists u'. split; [right; exact Hu|exact Eu]. }
    destruct Z as (u & Hu & Eu). unfold render_info, table_info_struct_name in Hg, Eu. cbn [make_info ti_name ti_fqn] in Hg, Eu.
    apply obind_ok in Hg as (v & Hv & Eg). injection Eg as <-. apply obind_ok in Eu as (v' & Hv' & Eg). injection Eg as <-. cbn [gi_var] in Ev. subst v'.
    assert (t = u) by (apply (Inj t u v); [left; reflexivity | right; exact Hu | exact Hv | exact Hv']). subst u. contradiction.
  - apply (IH ts eq_refl); [|exact NDt']. intros t' u v Ht Hu. apply Inj; right; assumption.
Qed.
Example C106_infos_partial_ex : ~ several [ex_users] /\ schema_order [B "public"] [ex_users] /\ NoDup [ex_users].
Proof.
  split; [|split; [split; [constructor; [intros []|constructor]|intro s; reflexivity]|constructor; [intros []|constructor]]].
  intros (x & y & [<-|[]] & [<-|[]] & H). apply H. reflexivity.
Qed.

(** ** C107: what a failing run leaves behind *)
(** No run, successful or not, writes a file other than the model and schema
    files of the schemas it was given. *)
Theorem C107_other_files : forall nm fok a ts ord m w m' w' r dir fn, schema_order ord ts -> generate nm fok a ts ord m w = ((m', w'), r) ->
  (forall s base f, In s (map g_schema ts) -> base = model_base \/ base = schema_base -> named ts s base f -> fn <> f) -> fget (dir, fn) (w_fs w') = fget (dir, fn) (w_fs w).
Proof.
  intros nm fok a ts ord m w m' w' r dir fn HO H N.
  assert (D : (exists e, ga_def a = Some (RErr e)) \/ ga_def a = Some RPanic \/ ((forall e, ga_def a <> Some (RErr e)) /\ ga_def a <> Some RPanic)).
  { destruct (ga_def a) as [[o|e|]|]; [right; right; split; congruence | left; exists e; reflexivity | right; left; reflexivity | right; right; split; congruence]. }
  destruct D as [[e D]|[D|[D1 D2]]]; [unfold generate in H; rewrite D in H; injection H as _ <- _; reflexivity | unfold generate in H; rewrite D in H; injection H as _ <- _; reflexivity|].
  rewrite (generate_unfold _ _ _ _ _ _ _ D1 D2) in H. destruct (each_schema _ _ _ _ _ _ _ _ _ _ _) as [w1 r1] eqn:E. cbn [fst snd] in H. injection H as _ <- _.
  apply each_schema_touches in E. apply (proj2 E). intro I. apply in_flat_map in I as (s & Hs & I). apply (proj2 HO) in Hs.
  destruct I as [I|[I|[]]]; apply (f_equal snd) in I; cbn [snd] in I; symmetry in I; revert I; eapply N; try exact Hs; try apply named_file; auto.
Qed.
(** A definition file that cannot be loaded stops the run before anything is
    written. *)
Theorem C107_bad_definition : forall nm fok a ts ord m w e, ga_def a = Some (RErr e) -> generate nm fok a ts ord m w = ((m, w), RErr e).
Proof. intros nm fok a ts ord m w e H. unfold generate. rewrite H. reflexivity. Qed.
(** A column of an unknown type stops the run after the existing model file was
    truncated: whatever it held is lost. *)
Theorem C107_truncated_refuted : forall nm fok a ts s ord m w t c, ga_def a = None -> ga_outm a <> [] -> In t ts -> g_schema t = s -> In c (g_cols t) -> to_go_type (gm_types m) c = RPanic ->
  exists mf w' r, named ts s model_base mf /\ generate nm fok a ts (s :: ord) m w = ((m, w'), r) /\ r <> ROk tt /\ fget (ga_outm a, mf) (w_fs w') = Some GEmpty.
Proof.
  intros nm fok a ts s ord m w t c D Hne Ht Es Hc Hp. exists (file_name (1 <? length (by_schema ts))%nat s model_base).
  assert (Hc' : In c (filter_columns [] (g_cols t))). { unfold filter_columns. apply filter_In. split; [exact Hc|reflexivity]. }
  assert (Ht' : In t (tables_of s ts)). { apply filter_In. split; [exact Ht|]. rewrite Es. apply beqb_refl. }
  destruct (gen_schema_fails nm fok a m [] (1 <? length (by_schema ts))%nat s (tables_of s ts) w [] [] t c Ht' Hc' Hp Hne) as (w' & [i1 d1] & r & E & Hr & F).
  exists w', r. split; [apply named_file|]. split; [|split; [exact Hr|exact F]].
  unfold generate. rewrite D. cbv zeta. cbn [each_schema]. rewrite by_schema_get, E. destruct r as [[]| |]; [congruence| |]; reflexivity.
Qed.
Definition ex_money : gtab := ex_t "public" "bill" [ex_c "total" "money" "money" false] None.
Definition ex_old_world : world := mkW [((B "out/model", model_base), GModel (B "model") true [mkGS (B "user") [] [] [] false])] [].
Example C107_truncated_ex : exists w', generate ex_nm ex_fok (mkGA (B "db") (B "out/model") [] [] [] [] false None) [ex_money] [B "public"] no_maps ex_old_world = ((no_maps, w'), RErr template_error) /\
  fget (B "out/model", model_base) (w_fs ex_old_world) <> Some GEmpty /\ fget (B "out/model", model_base) (w_fs w') = Some GEmpty.
Proof. eexists. split; [vm_compute; reflexivity|]. split; [vm_compute; discriminate | vm_compute; reflexivity]. Qed.
Example C107_other_files_ex : fget (B "out/model", B "other.go") (w_fs (snd (fst (generate ex_nm ex_fok (ex_args []) [ex_users; ex_orders] [B "shop"; B "public"] no_maps (mkW [((B "out/model", B "other.go"), GModel [] true [])] []))))) = Some (GModel [] true []).
Proof. vm_compute. reflexivity. Qed.

(** ** C108: definitions *)
(** A definition file is a map: the order of its entries does not matter. *)
Theorem C108_definition_order : forall m o o', Permutation (ov_types o) (ov_types o') -> Permutation (ov_fields o) (ov_fields o') -> Permutation (ov_tables o) (ov_tables o') ->
  NoDup (map fst (ov_types o)) -> NoDup (map fst (ov_fields o)) -> NoDup (map fst (ov_tables o)) ->
  forall k, mget k (gm_types (load m o)) = mget k (gm_types (load m o')) /\ mget k (gm_fields (load m o)) = mget k (gm_fields (load m o')) /\ mget k (gm_tables (load m o)) = mget k (gm_tables (load m o')).
Proof.
  intros m o o' P1 P2 P3 N1 N2 N3 k. cbn [load gm_types gm_fields gm_tables].
  assert (G : forall l l' mm, Permutation l l' -> NoDup (map fst l) -> mget k (merge_map l mm) = mget k (merge_map l' mm)).
  { intros l l' mm P N. rewrite !merge_map_get; [rewrite (mget_perm l l' k P N); reflexivity | eapply Permutation_NoDup; [apply Permutation_map, P | exact N] | exact N]. }
  repeat split; apply G; assumption.
Qed.
Example C108_definition_order_ex : mget (B "a") (gm_types (load no_maps (mkOv [(B "a", B "x"); (B "b", B "y")] [] [] [] []))) = Some (B "x") /\ mget (B "a") (gm_types (load no_maps (mkOv [(B "b", B "y"); (B "a", B "x")] [] [] [] []))) = Some (B "x").
Proof. split; reflexivity. Qed.
(** The definitions of a run say what its columns become. *)
Theorem C108_definitions_used : forall m o c ty, NoDup (map fst (ov_types o)) -> mget (c_name c) (ov_types o) = Some ty -> to_go_type (gm_types (load m o)) c = ROk ty.
Proof. intros m o c ty N E. apply (proj1 (C69_overrides _ _ _)). cbn [load gm_types]. rewrite merge_map_get by exact N. rewrite E. reflexivity. Qed.
(** Definitions accumulate: those of this run win, the others stay in force. *)
Theorem C108_accumulated : forall m o, NoDup (map fst (ov_types o)) -> NoDup (map fst (ov_fields o)) -> NoDup (map fst (ov_tables o)) ->
  (forall k, mget k (gm_types (load m o)) = match mget k (ov_types o) with Some v => Some v | None => mget k (gm_types m) end) /\
  (forall k, mget k (gm_fields (load m o)) = match mget k (ov_fields o) with Some v => Some v | None => mget k (gm_fields m) end) /\
  (forall k, mget k (gm_tables (load m o)) = match mget k (ov_tables o) with Some v => Some v | None => mget k (gm_tables m) end) /\
  (forall k, In k (gm_cache (load m o)) <-> In k (gm_cache m) \/ In k (ov_cache o)).
Proof.
  intros m o N1 N2 N3. cbn [load gm_types gm_fields gm_tables gm_cache]. split; [intro k; apply merge_map_get, N1|]. split; [intro k; apply merge_map_get, N2|]. split; [intro k; apply merge_map_get, N3|].
  intro k. apply in_app_iff.
Qed.
Example C108_accumulated_ex : mget (B "a") (gm_types (load (load no_maps (mkOv [(B "a", B "x"); (B "b", B "y")] [] [] [] [])) (mkOv [(B "b", B "z")] [] [] [] []))) = Some (B "x") /\
  mget (B "b") (gm_types (load (load no_maps (mkOv [(B "a", B "x"); (B "b", B "y")] [] [] [] [])) (mkOv [(B "b", B "z")] [] [] [] []))) = Some (B "z").
Proof. split; reflexivity. Qed.
(** They also say what later runs of the process produce: a run without
    definitions depends on what was generated before. *)
Theorem C108_leftover_refuted : exists a1 a2 ts w m1 w1 s1 s2, ga_def a2 = None /\ generate ex_nm ex_fok a1 ts [B "public"] no_maps w = ((m1, w1), ROk tt) /\
  emitted (ga_outm a2) model_base w (snd (fst (generate ex_nm ex_fok a2 ts [B "public"] no_maps w))) (GModel (B "model") true [s1]) /\
  emitted (ga_outm a2) model_base w (snd (fst (generate ex_nm ex_fok a2 ts [B "public"] m1 w))) (GModel (B "model") true [s2]) /\
  map gf_type (gs_fields s1) = [B "xdb.ID"; B "xdb.NULLString"; B "xdb.NULLString"] /\ map gf_type (gs_fields s2) = [B "xdb.ID"; B "Title"; B "xdb.NULLString"].
Proof.
  exists (mkGA (B "db") (B "out/model") (B "out/schema") [] [] [] false (Some (ROk (mkOv [(B "name", B "Title")] [] [] [] [])))), (mkGA (B "db") (B "out/model") (B "out/schema") [] [] [] false None), [ex_users], ex_world.
  eexists _, _, _, _. split; [reflexivity|]. split; [vm_compute; reflexivity|]. split; [right; split; [discriminate|vm_compute; reflexivity]|]. split; [right; split; [discriminate|vm_compute; reflexivity]|]. split; vm_compute; reflexivity.
Qed.
(** Without a definition file in this and in earlier runs there are none. *)
Theorem C108_none_partial : forall nm fok a ts ord w m' w' r, ga_def a = None -> generate nm fok a ts ord no_maps w = ((m', w'), r) -> m' = no_maps.
Proof. intros nm fok a ts ord w m' w' r D. unfold generate. rewrite D. cbv zeta. destruct (each_schema _ _ _ _ _ _ _ _ _ _ _). intro H. injection H as <- _ _. reflexivity. Qed.

(** ** C109: the same input gives the same files *)
(** Model files do not depend on the order in which the schemas are met. *)
Theorem C109_model_files : forall nm fok a ts o1 o2 m w1 w2 m1 m2 w1' w2' s, schema_order o1 ts -> schema_order o2 ts -> ga_outm a <> [] -> In s (map g_schema ts) ->
  generate nm fok a ts o1 m w1 = ((m1, w1'), ROk tt) -> generate nm fok a ts o2 m w2 = ((m2, w2'), ROk tt) ->
  exists mf, named ts s model_base mf /\ fget (ga_outm a, mf) (w_fs w1') = fget (ga_outm a, mf) (w_fs w2') /\ fget (ga_outm a, mf) (w_fs w1') <> None.
Proof.
  intros nm fok a ts o1 o2 m w1 w2 m1 m2 w1' w2' s HO1 HO2 Hne Hs H1 H2. exists (file_name (1 <? length (by_schema ts))%nat s model_base). split; [apply named_file|].
  assert (G : forall o wa ma wb, schema_order o ts -> generate nm fok a ts o m wa = ((ma, wb), ROk tt) -> exists ds ss, Forall2 (fun t d => make_def nm a (run_maps a m) (run_drop a) s t = ROk d) (tables_of s ts) ds /\ Forall2 (fun d x => render_struct nm (run_maps a m) d = ROk x) ds ss /\
     fget (ga_outm a, file_name (1 <? length (by_schema ts))%nat s model_base) (w_fs wb) = Some (GModel (model_pkg a) (negb (beqb (model_pkg a) (schema_pkg a))) ss)).
  { intros o wa ma wb HO H. destruct (generate_ok _ _ _ _ _ _ _ _ _ H) as (-> & E). pose proof (order_multi _ _ HO) as HM. destruct HO as [ND HO]. destruct (each_schema_ok _ _ _ _ _ _ _ _ _ _ _ _ HM ND E) as (_ & P).
    apply HO in Hs. destruct (in_split _ _ Hs) as (q1 & q2 & Eo). destruct (P _ _ _ Eo) as (od & (ss & older & gi & mv & gc0 & gc & P1 & P2 & P3 & P4 & _ & P5 & _ & ds & D1 & D2) & Q). rewrite by_schema_get in D1.
    exists ds, ss. split; [exact D1|]. split; [exact D2|]. destruct P1 as [(X & _)|(_ & P1)]; [contradiction|exact P1]. }
  destruct (G _ _ _ _ HO1 H1) as (ds1 & ss1 & A1 & A2 & A3). destruct (G _ _ _ _ HO2 H2) as (ds2 & ss2 & B1 & B2 & B3).
  assert (ds1 = ds2) by (eapply Forall2_fun; eassumption). subst ds2. assert (ss1 = ss2) by (eapply Forall2_fun; eassumption). subst ss2. rewrite A3, B3. split; [reflexivity|discriminate].
Qed.
(** Schema files do. *)
Theorem C109_schema_files_refuted : exists ts o1 o2 w1 w2 m1 m2, schema_order o1 ts /\ schema_order o2 ts /\
  generate ex_nm ex_fok (ex_args []) ts o1 no_maps ex_world = ((m1, w1), ROk tt) /\ generate ex_nm ex_fok (ex_args []) ts o2 no_maps ex_world = ((m2, w2), ROk tt) /\
  fget (B "out/schema", B "public_schema.gen.go") (w_fs w1) <> fget (B "out/schema", B "public_schema.gen.go") (w_fs w2).
Proof.
  exists [ex_users; ex_orders], [B "shop"; B "public"], [B "public"; B "shop"]. eexists _, _, _, _.
  split. { split; [constructor; [intros [X|[]]; discriminate X|constructor; [intros []|constructor]]|]. intro s. cbn [map In g_schema ex_users ex_orders ex_t]. tauto. }
  split. { split; [constructor; [intros [X|[]]; discriminate X|constructor; [intros []|constructor]]|]. intro s. cbn [map In g_schema ex_users ex_orders ex_t]. tauto. }
  split; [vm_compute; reflexivity|]. split; [vm_compute; reflexivity|]. vm_compute. discriminate.
Qed.

(** ** C110: generated results and cursors *)
Theorem C110_next_page : forall {R} (p : gresult R) rows x cursor, gr_rows (g_set_result_cursor p (rows ++ [x]) true cursor) = rows ++ [x] /\ gr_has (g_set_result_cursor p (rows ++ [x]) true cursor) = true /\ gr_cursor (g_set_result_cursor p (rows ++ [x]) true cursor) = cursor x.
Proof. intros R p rows x cursor. unfold g_set_result_cursor. rewrite rev_app_distr. cbn [rev app]. repeat split. Qed.
(** A fresh result has a cursor only if there is a next page. *)
(** SetResult: exactly what was given, and the old cursor. *)
Theorem C110_offset : forall {R} (p : gresult R) rows has next, gr_rows (g_set_result p rows has next) = rows /\ gr_has (g_set_result p rows has next) = has /\ gr_next (g_set_result p rows has next) = next /\ gr_cursor (g_set_result p rows has next) = gr_cursor p /\
  forall cursor, gr_next (g_set_result_cursor p rows has cursor) = gr_next p.
Proof. intros R p rows has next. repeat split. intro cursor. unfold g_set_result_cursor. destruct (rev rows); [reflexivity|]. destruct has; reflexivity. Qed.
Theorem C110_last_page_partial : forall {R} (p : gresult R) rows has cursor, gr_cursor p = [] -> (has = false \/ rows = []) -> gr_cursor (g_set_result_cursor p rows has cursor) = [] /\ gr_rows (g_set_result_cursor p rows has cursor) = rows /\ gr_has (g_set_result_cursor p rows has cursor) = has.
Proof.
  intros R p rows has cursor E H. unfold g_set_result_cursor. destruct (rev rows) as [|l r] eqn:Er; [repeat split; assumption|].
  destruct H as [->|Hr]; [repeat split; assumption|]. rewrite Hr in Er. discriminate.
Qed.
(** A result that is used again keeps the cursor of an earlier page on the last
    page, and keeps it as well when filled by offset. *)
Theorem C110_stale_cursor_refuted : exists (p : gresult nat) rows cursor, gr_cursor (g_set_result_cursor (g_set_result_cursor (mkGR [] 0 false []) [1%nat] true cursor) rows false cursor) <> [] /\
  gr_cursor (g_set_result (g_set_result_cursor p [1%nat] true cursor) rows false 0) <> [].
Proof. exists (mkGR [] 0 false []), [2%nat], (fun _ => B "c"). split; discriminate. Qed.
Example C110_ex : gr_cursor (g_set_result_cursor (mkGR [] 0 false []) [1%nat; 2%nat] true (fun n => match n with 2%nat => B "two" | _ => B "other" end)) = B "two".
Proof. reflexivity. Qed.

(** ** C111: from the catalog to ScanRow *)
(** For a described catalog, a successful run writes for every wanted table a
    struct whose Scan reads the table's columns, except the dropped ones, in the
    order of their positions. *)
Theorem C111_end_to_end : forall nm fok a cat tabs cols idxs fks st schemas tables vord ord m w st' m' w', described cat tabs cols idxs fks ->
  let sel := filter (fun r => wanted schemas tables (tr_schema r) (tr_name r)) tabs in
  NoDup ord -> (forall s, In s ord <-> In s (map tr_schema sel)) ->
  run_generate nm fok a cat st schemas tables [] None vord ord m w = Some ((st', (m', w')), ROk tt) ->
  forall r, In r sel -> exists mf dia ss s i, emitted (ga_outm a) mf w w' (GModel (model_pkg a) dia ss) /\ In s ss /\
    keeps (run_drop a) (sort_by col_by_pos (map (column_of (tr_schema r) (tr_name r) (map make_index (idxs (tr_schema r) (tr_name r)))) (cols (tr_schema r) (tr_name r)))) (map gf_col (gs_fields s)) /\
    gs_scan s = map gf_name (gs_fields s) /\ ti_name (gi_info i) = tr_name r /\ ti_schema (gi_info i) = tr_schema r /\ ti_columns (gi_info i) = map (fun f => c_name (gf_col f)) (gs_fields s).
Proof.
  intros nm fok a cat tabs cols idxs fks st schemas tables vord ord m w st' m' w' D sel ND HO H r Hr. unfold run_generate in H.
  destruct (list_tables_ok cat tabs cols idxs fks st schemas tables D) as (st1 & ts & E & M). rewrite E in H. cbv beta iota in H. rewrite app_nil_r in H.
  set (gts := map (resolve (p_heap st1)) ts) in *. destruct (generate nm fok a gts ord m w) as [[m1 w1] r1] eqn:G. injection H as <- <- <- ->. fold sel in M.
  assert (RT : forall x, In x ts -> exists q, In q sel /\ see st1 x = expected cols idxs q).
  { intros x Hx. assert (I : In (see st1 x) (map (see st1) ts)) by (apply in_map; exact Hx). rewrite M in I. apply (Permutation_in _ (Permutation_sym (sort_perm_by _ _))) in I. apply in_map_iff in I as (q & Eq & Hq). exists q. auto. }
  assert (TR : forall q, In q sel -> exists x, In x ts /\ see st1 x = expected cols idxs q).
  { intros q Hq. assert (I : In (expected cols idxs q) (map (see st1) ts)). { rewrite M. eapply Permutation_in; [apply sort_perm_by|]. apply in_map. exact Hq. } apply in_map_iff in I as (x & Ex & Hx). exists x. auto. }
  assert (SO : schema_order ord gts).
  { split; [exact ND|]. intro s. rewrite HO. unfold gts. rewrite map_map. split; intro I; apply in_map_iff in I as (z & Ez & Hz); apply in_map_iff.
    - destruct (TR _ Hz) as (x & Hx & Ex). exists x. split; [|exact Hx]. unfold expected in Ex. cbv zeta in Ex. destruct (resolve_expected _ _ _ _ _ _ _ _ _ _ Ex eq_refl) as (R1 & _). rewrite R1. exact Ez.
    - destruct (RT _ Hz) as (q & Hq & Ex). exists q. split; [|exact Hq]. unfold expected in Ex. cbv zeta in Ex. destruct (resolve_expected _ _ _ _ _ _ _ _ _ _ Ex eq_refl) as (R1 & _). rewrite <- R1. exact Ez. }
  destruct (TR _ Hr) as (x & Hx & Ex). unfold expected in Ex. cbv zeta in Ex. destruct (resolve_expected _ _ _ _ _ _ _ _ _ _ Ex eq_refl) as (R1 & R2 & R3 & R4 & R5).
  assert (Hg : In (resolve (p_heap st1) x) gts) by (apply in_map; exact Hx).
  destruct (C70_generated _ _ _ _ _ _ _ _ _ SO G (tr_schema r) ltac:(rewrite <- R1; apply in_map; exact Hg)) as (mf & sf & dia & ss & older & gi & mv & en & gc0 & gc & N1 & N2 & E1 & E2 & FT & _).
  assert (In (resolve (p_heap st1) x) (tables_of (tr_schema r) gts)) as It by (apply filter_In; split; [exact Hg | rewrite R1; apply beqb_refl]).
  assert (Z : exists s i g, In s ss /\ of_table (gm_types m1) (run_drop a) (if beqb (model_pkg a) (schema_pkg a) then [] else schema_pkg a ++ B ".") (resolve (p_heap st1) x) s i g).
  { clear - FT It. induction FT as [|t l s ss i ii g gg P _ IH]; [destruct It|]. destruct It as [->|It]; [exists s, i, g; split; [left; reflexivity|exact P]|]. destruct (IH It) as (s' & i' & g' & I & O). exists s', i', g'. split; [right; exact I|exact O]. }
  destruct Z as (s & i & g & Is & O). exists mf, dia, ss, s, i. split; [exact E1|]. split; [exact Is|]. pose proof (o_cols _ _ _ _ _ _ _ O) as K. rewrite R3 in K. split; [exact K|].
  split; [exact (o_scan _ _ _ _ _ _ _ O)|]. destruct (o_table _ _ _ _ _ _ _ O) as (T1 & T2 & _). rewrite R2 in T2. rewrite R1 in T1. split; [exact T2|]. split; [exact T1|]. exact (o_names _ _ _ _ _ _ _ O).
Qed.
Example C111_end_to_end_ex : exists st' w' s, described SchemaProps.ex_c SchemaProps.ex_tabs SchemaProps.ex_cols SchemaProps.ex_idxs SchemaProps.ex_fks /\
  run_generate ex_nm ex_fok (ex_args [B "bid"]) SchemaProps.ex_c new_prov [] [B "A"; B "d"] [] None [] [B "public"] no_maps ex_world = Some ((st', (no_maps, w')), ROk tt) /\
  fget (B "out/model", model_base) (w_fs w') = Some (GModel (B "model") true s) /\ map gs_scan s = [[B "id"]; [B "id"]] /\ map gs_name s = [B "a"; B "d"].
Proof. eexists _, _, _. split; [exact SchemaProps.ex_described|]. split; [vm_compute; reflexivity|]. split; [vm_compute; reflexivity|]. split; vm_compute; reflexivity. Qed.

(** ... and a TableInfo, in the schema file, with the table's name, indexes and
    primary key: the column of its (last) one-column primary index. *)
Theorem C111_table_info : forall nm fok a cat tabs cols idxs fks st schemas tables vord ord m w st' m' w', described cat tabs cols idxs fks ->
  let sel := filter (fun r => wanted schemas tables (tr_schema r) (tr_name r)) tabs in
  NoDup ord -> (forall s, In s ord <-> In s (map tr_schema sel)) ->
  run_generate nm fok a cat st schemas tables [] None vord ord m w = Some ((st', (m', w')), ROk tt) ->
  forall r, In r sel -> exists mf sf dia ss older gi mv en gc s i,
    emitted (ga_outm a) mf w w' (GModel (model_pkg a) dia ss) /\ In s ss /\
    emitted (ga_outs a) sf w w' (GSchema (schema_pkg a) (older ++ gi) mv en gc) /\ In i gi /\
    gs_info s = (if beqb (model_pkg a) (schema_pkg a) then [] else schema_pkg a ++ B ".") ++ gi_var i /\
    let n := tr_name r in let sc := tr_schema r in
    ti_schema (gi_info i) = sc /\ ti_name (gi_info i) = n /\ ti_fqn (gi_info i) = fqn2 sc n /\
    ti_indexes (gi_info i) = map (fun x => ix_name (make_index x)) (idxs sc n) /\
    ti_columns (gi_info i) = map (fun f => c_name (gf_col f)) (gs_fields s) /\
    ti_pk (gi_info i) = match pk_of (map make_index (idxs sc n)) with
                        | Some p => if existsb (fun c => beqb (cr_name c) p) (cols sc n) then p else []
                        | None => [] end.
Proof.
  intros nm fok a cat tabs cols idxs fks st schemas tables vord ord m w st' m' w' D sel ND HO H r Hr. unfold run_generate in H.
  destruct (list_tables_ok cat tabs cols idxs fks st schemas tables D) as (st1 & ts & E & M). rewrite E in H. cbv beta iota in H. rewrite app_nil_r in H.
  set (gts := map (resolve (p_heap st1)) ts) in *. destruct (generate nm fok a gts ord m w) as [[m1 w1] r1] eqn:G. injection H as <- <- <- ->. fold sel in M.
  assert (RT : forall x, In x ts -> exists q, In q sel /\ see st1 x = expected cols idxs q).
  { intros x Hx. assert (I : In (see st1 x) (map (see st1) ts)) by (apply in_map; exact Hx). rewrite M in I. apply (Permutation_in _ (Permutation_sym (sort_perm_by _ _))) in I. apply in_map_iff in I as (q & Eq & Hq). exists q. auto. }
  assert (TR : forall q, In q sel -> exists x, In x ts /\ see st1 x = expected cols idxs q).
  { intros q Hq. assert (I : In (expected cols idxs q) (map (see st1) ts)). { rewrite M. eapply Permutation_in; [apply sort_perm_by|]. apply in_map. exact Hq. } apply in_map_iff in I as (x & Ex & Hx). exists x. auto. }
  assert (SO : schema_order ord gts).
  { split; [exact ND|]. intro s. rewrite HO. unfold gts. rewrite map_map. split; intro I; apply in_map_iff in I as (z & Ez & Hz); apply in_map_iff.
    - destruct (TR _ Hz) as (x & Hx & Ex). exists x. split; [|exact Hx]. unfold expected in Ex. cbv zeta in Ex. destruct (resolve_expected _ _ _ _ _ _ _ _ _ _ Ex eq_refl) as (R1 & _). rewrite R1. exact Ez.
    - destruct (RT _ Hz) as (q & Hq & Ex). exists q. split; [|exact Hq]. unfold expected in Ex. cbv zeta in Ex. destruct (resolve_expected _ _ _ _ _ _ _ _ _ _ Ex eq_refl) as (R1 & _). rewrite <- R1. exact Ez. }
  destruct (TR _ Hr) as (x & Hx & Ex). unfold expected in Ex. cbv zeta in Ex. destruct (resolve_expected _ _ _ _ _ _ _ _ _ _ Ex eq_refl) as (R1 & R2 & R3 & R4 & R5).
  assert (R6 : g_pk (resolve (p_heap st1) x) = match pk_of (map make_index (idxs (tr_schema r) (tr_name r))) with None => None | Some p => find (fun c => beqb (c_name c) p) (sort_by col_by_pos (map (column_of (tr_schema r) (tr_name r) (map make_index (idxs (tr_schema r) (tr_name r)))) (cols (tr_schema r) (tr_name r)))) end).
  { apply (f_equal v_pk) in Ex. unfold see in Ex. cbn [v_pk] in Ex. cbn [resolve g_pk]. destruct (t_pk x), (pk_of _); try discriminate; [injection Ex as Ex; exact Ex|reflexivity]. }
  assert (Hg : In (resolve (p_heap st1) x) gts) by (apply in_map; exact Hx).
  destruct (C70_generated _ _ _ _ _ _ _ _ _ SO G (tr_schema r) ltac:(rewrite <- R1; apply in_map; exact Hg)) as (mf & sf & dia & ss & older & gi & mv & en & gc0 & gc & N1 & N2 & E1 & E2 & FT & _).
  assert (In (resolve (p_heap st1) x) (tables_of (tr_schema r) gts)) as It by (apply filter_In; split; [exact Hg | rewrite R1; apply beqb_refl]).
  assert (Z : exists s i g, In s ss /\ In i gi /\ of_table (gm_types m1) (run_drop a) (if beqb (model_pkg a) (schema_pkg a) then [] else schema_pkg a ++ B ".") (resolve (p_heap st1) x) s i g).
  { clear - FT It. induction FT as [|t l s ss i ii g gg P _ IH]; [destruct It|]. destruct It as [->|It]; [exists s, i, g; split; [left; reflexivity|]; split; [left; reflexivity|exact P]|]. destruct (IH It) as (s' & i' & g' & I & J & O). exists s', i', g'. split; [right; exact I|]. split; [right; exact J|exact O]. }
  destruct Z as (s & i & g & Is & Ii & O). exists mf, sf, dia, ss, older, gi, mv, en, (gc0 ++ gc), s, i. split; [exact E1|]. split; [exact Is|]. split; [exact E2|]. split; [exact Ii|].
  split; [exact (o_info _ _ _ _ _ _ _ O)|]. cbv zeta. destruct (o_table _ _ _ _ _ _ _ O) as (T1 & T2 & T3).
  split; [rewrite T1; exact R1|]. split; [rewrite T2; exact R2|]. split; [rewrite T3; exact R5|].
  split; [rewrite (o_idx _ _ _ _ _ _ _ O), R4, map_map; reflexivity|]. split; [exact (o_names _ _ _ _ _ _ _ O)|].
  rewrite (o_pk _ _ _ _ _ _ _ O), R6. destruct (pk_of _) as [p|]; [|reflexivity].
  match goal with |- context [find ?f (sort_by ?lt ?l)] => set (f0 := f); set (l0 := l); pose proof (sort_perm_by lt l) as SP; fold l0 in SP end.
  destruct (find f0 (sort_by col_by_pos l0)) as [c|] eqn:Ef.
  - apply find_some in Ef as [Ic Ec]. unfold f0 in Ec. apply beqb_eq in Ec. apply (Permutation_in _ (Permutation_sym SP)) in Ic. apply in_map_iff in Ic as (y & Ey & Iy).
    replace (existsb _ _) with true; [exact Ec|]. symmetry. apply existsb_exists. exists y. split; [exact Iy|]. rewrite <- Ec, <- Ey. cbn. apply beqb_refl.
  - replace (existsb _ _) with false; [reflexivity|]. symmetry. apply not_true_iff_false. intros X. apply existsb_exists in X as (y & Iy & Ey).
    assert (In (column_of (tr_schema r) (tr_name r) (map make_index (idxs (tr_schema r) (tr_name r))) y) (sort_by col_by_pos l0)) as J by (eapply Permutation_in; [exact SP|]; apply in_map; exact Iy).
    pose proof (find_none _ _ Ef _ J) as Q. unfold f0 in Q. cbn in Q. congruence.
Qed.
Example C111_table_info_ex : exists st' w' i mv en gc,
  run_generate ex_nm ex_fok (ex_args [B "bid"]) SchemaProps.ex_c new_prov [] [B "A"; B "d"] [] None [] [B "public"] no_maps ex_world = Some ((st', (no_maps, w')), ROk tt) /\
  fget (B "out/schema", schema_base) (w_fs w') = Some (GSchema (B "schema") i mv en gc) /\ map (fun x => ti_fqn (gi_info x)) i = [B "public.a"; B "public.d"].
Proof. eexists _, _, _, _, _, _. split; [vm_compute; reflexivity|]. split; [vm_compute; reflexivity|]. vm_compute; reflexivity. Qed.

(** ** Exact statement of what holds of a refuted property *)
(** C105: the primary key is listed exactly when it is not among the dropped columns. *)
Theorem C105_exact_partial : forall types drop spkg t s i g c, of_table types drop spkg t s i g -> g_pk t = Some c -> In c (g_cols t) ->
  (In (ti_pk (gi_info i)) (ti_columns (gi_info i)) <-> ~ In (c_name c) drop).
Proof.
  intros types drop spkg t s i g c O Hpk Hc. split; [|apply (C105_kept_pk_partial types drop spkg t s i g c O Hpk Hc)].
  rewrite (o_pk _ _ _ _ _ _ _ O), Hpk, (o_names _ _ _ _ _ _ _ O). rewrite <- map_map. pose proof (o_cols _ _ _ _ _ _ _ O) as K. clear - K. intros I D. apply in_map_iff in I as (x & E & I). rewrite <- E in D. clear E.
  induction K as [|y l r Hy _ IH|y l r Hy _ IH]; [destruct I|exact (IH I)|]. destruct I as [->|I]; [exact (Hy D)|exact (IH I)].
Qed.


(** Exactly: the cursor changes only when there is a next page and a row. *)
Theorem C110_exact_partial : forall {R} (p : gresult R) rows has cursor,
  (forall x before, has = true -> rows = before ++ [x] -> gr_cursor (g_set_result_cursor p rows has cursor) = cursor x) /\
  ((has = false \/ rows = []) -> gr_cursor (g_set_result_cursor p rows has cursor) = gr_cursor p) /\
  gr_rows (g_set_result_cursor p rows has cursor) = rows /\ gr_has (g_set_result_cursor p rows has cursor) = has /\ gr_next (g_set_result_cursor p rows has cursor) = gr_next p.
Proof.
  intros R p rows has cursor. unfold g_set_result_cursor. split; [|split; [|split; [|split]]].
  - intros x before -> ->. rewrite rev_app_distr. reflexivity.
  - intros [->| ->]; [destruct (rev rows); reflexivity|reflexivity].
  - destruct (rev rows); [reflexivity|destruct has; reflexivity].
  - destruct (rev rows); [reflexivity|destruct has; reflexivity].
  - destruct (rev rows); [reflexivity|destruct has; reflexivity].
Qed.

(** ** Assumptions *)
Print Assumptions C69_known_types.
Print Assumptions C69_unknown_types.
Print Assumptions C69_arrays.
Print Assumptions C69_overrides.
Print Assumptions C69_null_safe.
Print Assumptions C69_range_partial.
Print Assumptions C69_tinyint_refuted.
Print Assumptions C70_generated.
Print Assumptions C70_select_order.
Print Assumptions C105_kept_pk_partial.
Print Assumptions C105_dropped_pk_refuted.
Print Assumptions C106_several_schemas_refuted.
Print Assumptions C106_same_directory_refuted.
Print Assumptions C106_infos_partial.
Print Assumptions C107_other_files.
Print Assumptions C107_bad_definition.
Print Assumptions C107_truncated_refuted.
Print Assumptions C108_definition_order.
Print Assumptions C108_definitions_used.
Print Assumptions C108_accumulated.
Print Assumptions C108_leftover_refuted.
Print Assumptions C108_none_partial.
Print Assumptions C109_model_files.
Print Assumptions C109_schema_files_refuted.
Print Assumptions C110_next_page.
Print Assumptions C110_offset.
Print Assumptions C110_last_page_partial.
Print Assumptions C110_stale_cursor_refuted.
Print Assumptions C111_end_to_end.
Print Assumptions C111_table_info.
Print Assumptions C105_exact_partial.
Print Assumptions C110_exact_partial.
