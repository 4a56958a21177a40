(** C133-C140: the printing commands of the command line tool. *)
From Coq Require Import Sorted Permutation.
From Verif Require SchemaProps.
From Verif Require Import GoBase GoBaseFacts IdModel TypeModel ParamModel SchemaModel SchemaSpec SchemaProofs SchemaGraph SchemaDeps JsonModel JsonSpec JsonProofs CliModel CliSpec CliProofs.
Open Scope Z_scope.

Definition ex_layout (h : list bytes) (rows : list (list bytes)) : bytes := flat_map (fun r => join (B "|") r ++ [ch 10]) (h :: rows).
Definition ex_libs : libs := mkLibs ex_layout (fun v => match v with VOther _ => RErr 9 | _ => ROk (B "yaml") end).
Definition ex_pk : pcolumn := mkPC (B "id") (B "bigint") (B "int8") false 0 1 None [mkPI (B "a_pk") true true (Some [B "id"])].
Definition ex_ref : pcolumn := mkPC (B "bid") (B "bigint") (B "int8") true 20 2 (Some (mkFK (B "fk") (B "dbo") (B "a") (B "bid") (B "dbo") (B "b") (B "id"))) [].
Definition ex_ta : ptable := mkPT (B "dbo") (B "a") (B "BASE TABLE") false (Some [ex_pk; ex_ref]) (Some [mkPI (B "a_pk") true true (Some [B "id"])]) (Some ex_pk).
Definition ex_tb : ptable := mkPT (B "dbo") (B "b") [] false (Some []) None None.
Definition ex_v : ptable := mkPT (B "dbo") (B "v") [] true (Some [ex_ref]) None None.
Definition ex_lister : lister := mkL (fun _ _ d => ROk (if d then [ex_ta; ex_tb] else [ex_ta])) (fun _ _ => ROk [ex_v]) (fun _ _ => ROk [mkFK (B "fk") (B "dbo") (B "a") (B "bid") (B "dbo") (B "b") (B "id")]).
Definition ex_broken : lister := mkL (fun _ _ _ => ROk [ex_tb]) (fun _ _ => RErr 7) (fun _ _ => RErr 8).

(** ** C133: one line per listed table *)
(** Every format that is not json or yaml: the names of the tables, then those of the
    views if they were asked for, one line each, in the order of the listing. *)
Theorem C133_tables : forall lb format r schemas tables views ts vs, format <> B "json" -> format <> B "yaml" ->
  l_tables r schemas tables true = ROk ts -> (views = true -> l_views r schemas tables = ROk vs) ->
  output lb format (ROk r) (KTables schemas tables views) None = (concat (map (fun t => pt_schema t ++ B "." ++ pt_name t ++ [ch 10]) (ts ++ if views then vs else [])), ROk tt).
Proof.
  intros lb format r schemas tables views ts vs N1 N2 H V. unfold output, run, cmd_tables, with_provider, lift. rewrite H.
  unfold structured. rewrite !(proj2 (beqb_neq _ _)) by assumption. cbn [orb]. destruct views.
  - rewrite (V eq_refl), (prints_names _ _). unfold write, empty_sink. cbn [k_room k_out app]. rewrite flat_map_concat_map. reflexivity.
  - rewrite (prints_names _ _). unfold write, empty_sink. cbn [k_room k_out app]. rewrite flat_map_concat_map, app_nil_r. reflexivity.
Qed.
Theorem C133_views : forall lb format r schemas views vs, format <> B "json" -> format <> B "yaml" -> l_views r schemas views = ROk vs ->
  output lb format (ROk r) (KViews schemas views) None = (concat (map (fun t => pt_schema t ++ B "." ++ pt_name t ++ [ch 10]) vs), ROk tt).
Proof.
  intros lb format r schemas views vs N1 N2 H. unfold output, run, cmd_views, with_provider, lift. rewrite H.
  unfold structured. rewrite !(proj2 (beqb_neq _ _)) by assumption. cbn [orb]. rewrite (prints_names _ _). unfold write, empty_sink. cbn [k_room k_out app]. rewrite flat_map_concat_map. reflexivity.
Qed.
Lemma requested_dec tabs schemas tables a : requested tabs schemas tables a \/ ~ requested tabs schemas tables a.
Proof.
  destruct (existsb (fun r => wanted schemas tables (tr_schema r) (tr_name r) && beqb (tr_schema r) (fst a) && beqb (tr_name r) (snd a)) tabs) eqn:E.
  - left. apply existsb_exists in E. destruct E as (r & Hr & E). rewrite !andb_true_iff in E. destruct E as [[W E1] E2]. apply beqb_eq in E1, E2. exists r. split; [exact Hr|]. split; [exact W|]. destruct a; cbn [fst snd] in *; subst; reflexivity.
  - right. intros (r & Hr & W & ->). cbn [fst snd] in E. assert (X : existsb (fun r0 => wanted schemas tables (tr_schema r0) (tr_name r0) && beqb (tr_schema r0) (tr_schema r) && beqb (tr_name r0) (tr_name r)) tabs = true).
    { apply existsb_exists. exists r. split; [exact Hr|]. rewrite W, !beqb_refl. reflexivity. } congruence.
Qed.
(** Over a whole catalog: `schema tables` prints the tables that were asked for and
    every table reachable from them over foreign keys, each once and sorted.
    No column may be in two foreign keys (see C65). *)
Theorem C133_catalog : forall lb format nilx cat tabs cols idxs fks schemas tables fuel ord tord vord st' o,
  described cat tabs cols idxs fks -> one_fk_per_column fks -> format <> B "json" -> format <> B "yaml" ->
  (forall a r, requested tabs schemas tables a -> In r (cols (fst a) (snd a)) -> In (fqn3 (fst a) (snd a) (cr_name r)) ord) ->
  list_tables_deps fuel cat new_prov schemas tables ord tord = Some (st', o) -> Permutation tord (map fst (p_tabs st')) ->
  exists l, output lb format (ROk (new_lister nilx cat fuel ord tord vord)) (KTables schemas tables false) None = (concat (map (fun a => fst a ++ B "." ++ snd a ++ [ch 10]) l), ROk tt) /\
    (forall a, In a l <-> exists b, requested tabs schemas tables b /\ reachable fks b a) /\
    StronglySorted (fun a b => bltb (fqn2 (fst a) (snd a)) (fqn2 (fst b) (snd b)) = true) l.
Proof.
  intros lb format nilx cat tabs cols idxs fks schemas tables fuel ord tord vord st' o D O1 N1 N2 HO E P.
  destruct (deps_ok cat tabs cols idxs fks schemas tables fuel ord tord st' o D O1 HO E P) as (ts & ds & -> & ND & Hds & M & S).
  exists (map (fun v => (v_schema v, v_name v)) (map (see st') ts)). split; [|split].
  - rewrite (C133_tables lb format (new_lister nilx cat fuel ord tord vord) schemas tables false (map (shown nilx (p_heap st')) ts) [] N1 N2); [|cbn [new_lister l_tables]; rewrite E; reflexivity|discriminate].
    rewrite app_nil_r, !map_map. reflexivity.
  - intros a. rewrite M, in_map_iff.
    assert (Q : forall v, In v (sort_by seen_by_name (map (with_refs fks) (map (expected cols idxs) (filter (fun r => wanted schemas tables (tr_schema r) (tr_name r)) tabs) ++ map (dependency cols) ds))) <->
                In v (map (with_refs fks) (map (expected cols idxs) (filter (fun r => wanted schemas tables (tr_schema r) (tr_name r)) tabs) ++ map (dependency cols) ds))).
    { intros v. split; apply Permutation_in; [apply Permutation_sym|]; apply sort_perm_by. }
    split.
    + intros (v & <- & Hv). apply Q in Hv. apply in_map_iff in Hv. destruct Hv as (w & <- & Hw). cbn [with_refs v_schema v_name]. apply in_app_or in Hw. destruct Hw as [Hw|Hw]; apply in_map_iff in Hw; destruct Hw as (x & <- & Hx).
      * apply filter_In in Hx. exists (tr_schema x, tr_name x). split; [|constructor]. exists x. split; [apply Hx|]. split; [apply Hx|reflexivity].
      * destruct x as [s t]. apply Hds in Hx. exact (proj2 Hx).
    + intros Ha. assert (C : requested tabs schemas tables a \/ In a ds).
      { destruct (requested_dec tabs schemas tables a) as [R|R]; [left; exact R|right; apply Hds; auto]. }
      destruct C as [(r & Hr & W & ->)|C].
      * exists (with_refs fks (expected cols idxs r)). split; [reflexivity|]. apply Q, in_map, in_or_app. left. apply in_map, filter_In. auto.
      * exists (with_refs fks (dependency cols a)). split; [destruct a; reflexivity|]. apply Q, in_map, in_or_app. right. apply in_map, C.
  - assert (F : Forall (fun v => v_fqn v = fqn2 (v_schema v) (v_name v)) (map (see st') ts)).
    { rewrite M. apply Forall_forall. intros v Hv. apply (Permutation_in _ (Permutation_sym (sort_perm_by _ _))) in Hv. apply in_map_iff in Hv. destruct Hv as (w & <- & Hw). apply in_app_or in Hw.
      destruct Hw as [Hw|Hw]; apply in_map_iff in Hw; destruct Hw as (x & <- & _); [reflexivity|destruct x; reflexivity]. }
    revert S F. clear. generalize (map (see st') ts). intros l S. induction S as [|v l S IH H]; intros F; cbn [map]; constructor; inversion F as [|? ? Fv Fl]; subst; [apply IH; assumption|].
    apply Forall_map. rewrite Forall_forall in *. intros w Hw. cbn [fst snd]. rewrite <- Fv, <- (Fl w Hw). apply H, Hw.
Qed.
Example ex_C133 : output ex_libs (B "table") (ROk ex_lister) (KTables [] [] true) None = (B "dbo.a" ++ [ch 10] ++ B "dbo.b" ++ [ch 10] ++ B "dbo.v" ++ [ch 10], ROk tt).
Proof. vm_compute. reflexivity. Qed.
Example ex_C133_catalog : exists st' ts, list_tables_deps 5 SchemaProps.ex_c new_prov [] [B "A"] SchemaProps.ex_ord [B "public.c"; B "public.a"; B "public.b"] = Some (st', ROk ts) /\
  Permutation [B "public.c"; B "public.a"; B "public.b"] (map fst (p_tabs st')) /\
  fst (output ex_libs (B "table") (ROk (new_lister (fun _ => false) SchemaProps.ex_c 5 SchemaProps.ex_ord [B "public.c"; B "public.a"; B "public.b"] [])) (KTables [] [B "A"] false) None)
  = B "public.a" ++ [ch 10] ++ B "public.b" ++ [ch 10] ++ B "public.c" ++ [ch 10].
Proof.
  eexists. eexists. split; [vm_compute; reflexivity|]. split; [|vm_compute; reflexivity].
  cbn [map p_tabs fst]. vm_compute. match goal with |- Permutation [?x; ?y; ?z] _ => try apply Permutation_refl; try apply (perm_trans (perm_swap _ _ _)); try (apply perm_skip, perm_swap); try apply Permutation_refl end.
  all: try solve [repeat first [apply Permutation_refl | apply perm_skip | (eapply perm_trans; [apply perm_swap|])]].
Qed.

(** ** C134: the lines tell which tables were listed *)
(** Refuted: a dot or a line end may be part of a name. *)
Theorem C134_ambiguous_refuted : exists r r', l_tables r [] [] true <> l_tables r' [] [] true /\
  output ex_libs (B "table") (ROk r) (KTables [] [] false) None = output ex_libs (B "table") (ROk r') (KTables [] [] false) None.
Proof.
  exists (mkL (fun _ _ _ => ROk [mkPT (B "a.b") (B "c") [] false None None None]) (fun _ _ => ROk []) (fun _ _ => ROk [])),
         (mkL (fun _ _ _ => ROk [mkPT (B "a") (B "b.c") [] false None None None]) (fun _ _ => ROk []) (fun _ _ => ROk [])). split; [discriminate|reflexivity].
Qed.
(** Names without dots and line ends: reading the lines gives them back. *)
Theorem C134_lines_partial : forall lb format r schemas tables ts, format <> B "json" -> format <> B "yaml" -> l_tables r schemas tables true = ROk ts ->
  Forall (fun t => plain_name (pt_schema t) /\ plain_name (pt_name t)) ts ->
  read_lines (fst (output lb format (ROk r) (KTables schemas tables false) None)) = map (fun t => [pt_schema t; pt_name t]) ts.
Proof.
  intros lb format r schemas tables ts N1 N2 H F. rewrite (C133_tables lb format r schemas tables false ts [] N1 N2 H) by discriminate. cbn [fst]. rewrite app_nil_r, <- flat_map_concat_map. apply lines_read, F.
Qed.
Example ex_C134 : read_lines (fst (output ex_libs (B "table") (ROk ex_lister) (KTables [] [] false) None)) = [[B "dbo"; B "a"]; [B "dbo"; B "b"]].
Proof. vm_compute. reflexivity. Qed.

(** ** C135: JSON output is one document with the listing in it *)
Lemma json_output lb v : print_object lb (empty_sink None) (B "json") v = (mkSink (indent 0 (doc v) ++ [ch 10]) None, ROk tt).
Proof. rewrite prints_object. reflexivity. Qed.
Theorem C135_tables : forall lb r schemas tables views ts vs, l_tables r schemas tables true = ROk ts -> (views = true -> l_views r schemas tables = ROk vs) -> Forall table_utf8 (ts ++ if views then vs else []) ->
  read_doc rd_table (fst (output lb (B "json") (ROk r) (KTables schemas tables views) None)) = Some (Some (map plain_table (ts ++ if views then vs else []))).
Proof.
  intros lb r schemas tables views ts vs H V U. unfold output, run, cmd_tables, with_provider, lift. rewrite H. change (structured (B "json")) with true. cbv iota. destruct views.
  - rewrite (V eq_refl), json_output. apply read_tables, U.
  - rewrite app_nil_r in *. rewrite json_output. apply read_tables, U.
Qed.
Theorem C135_views : forall lb r schemas views vs, l_views r schemas views = ROk vs -> Forall table_utf8 vs ->
  read_doc rd_table (fst (output lb (B "json") (ROk r) (KViews schemas views) None)) = Some (Some (map plain_table vs)).
Proof. intros lb r schemas views vs H U. unfold output, run, cmd_views, with_provider, lift. rewrite H. change (structured (B "json")) with true. cbv iota. rewrite json_output. apply read_tables, U. Qed.
Theorem C135_fks : forall lb r schemas tables ks, l_fks r schemas tables = ROk ks -> Forall fk_utf8 ks ->
  read_doc rd_fk (fst (output lb (B "json") (ROk r) (KFks schemas tables) None)) = Some (Some ks).
Proof. intros lb r schemas tables ks H U. unfold output, run, cmd_fks, with_provider, lift. rewrite H, json_output. apply read_fks, U. Qed.
(** YAML output is what the YAML library makes of the same listing, once, or its error. *)
Definition yaml_of (lb : libs) (v : pval) : bytes * outcome unit :=
  match lb_yaml lb v with ROk y => (y, ROk tt) | RErr e => ([], RErr e) | RPanic => ([], RPanic) end.
Lemma yaml_output lb v : (let '(s, o) := print_object lb (empty_sink None) (B "yaml") v in (k_out s, o)) = yaml_of lb v.
Proof. unfold print_object, print_yaml, yaml_of. change (beqb (B "yaml") (B "yaml")) with true. cbv iota. destruct (lb_yaml lb v); reflexivity. Qed.
Theorem C135_yaml_tables : forall lb r schemas tables views ts vs, l_tables r schemas tables true = ROk ts -> (views = true -> l_views r schemas tables = ROk vs) ->
  output lb (B "yaml") (ROk r) (KTables schemas tables views) None = yaml_of lb (VTables (Some (ts ++ if views then vs else []))).
Proof.
  intros lb r schemas tables views ts vs H V. unfold output, run, cmd_tables, with_provider, lift. rewrite H. change (structured (B "yaml")) with true. cbv iota. destruct views.
  - rewrite (V eq_refl). apply yaml_output.
  - rewrite app_nil_r. apply yaml_output.
Qed.
Theorem C135_yaml_views : forall lb r schemas views vs, l_views r schemas views = ROk vs -> output lb (B "yaml") (ROk r) (KViews schemas views) None = yaml_of lb (VTables (Some vs)).
Proof. intros lb r schemas views vs H. unfold output, run, cmd_views, with_provider, lift. rewrite H. change (structured (B "yaml")) with true. cbv iota. apply yaml_output. Qed.
Theorem C135_yaml_fks : forall lb r schemas tables ks, l_fks r schemas tables = ROk ks -> output lb (B "yaml") (ROk r) (KFks schemas tables) None = yaml_of lb (VFks (Some ks)).
Proof. intros lb r schemas tables ks H. unfold output, run, cmd_fks, with_provider, lift. rewrite H. apply yaml_output. Qed.
(** Refuted: `schema columns --views` with a view prints two documents, whatever the
    listing; no JSON reader takes them for one. *)
Theorem C135_columns_refuted : forall lb r schemas tables deps ts v vs, l_tables r schemas tables deps = ROk ts -> l_views r schemas tables = ROk (v :: vs) ->
  parse_json (fst (output lb (B "json") (ROk r) (KColumns schemas tables deps true) None)) = None.
Proof.
  intros lb r schemas tables deps ts v vs H V. unfold output, run, cmd_columns, with_provider, lift. rewrite H, V. cbn [length Nat.ltb Nat.leb]. rewrite json_output. cbn [fst]. rewrite prints_object. cbn [fst]. unfold write. cbn [k_room k_out].
  apply parse_two; apply doc_ok; exact I.
Qed.
(** Otherwise it is one document. *)
Theorem C135_columns_partial : forall lb r schemas tables deps views ts, l_tables r schemas tables deps = ROk ts -> (views = true -> l_views r schemas tables = ROk []) -> Forall table_utf8 ts ->
  read_doc rd_table (fst (output lb (B "json") (ROk r) (KColumns schemas tables deps views) None)) = Some (Some (map plain_table ts)).
Proof.
  intros lb r schemas tables deps views ts H V U. unfold output, run, cmd_columns, with_provider, lift. rewrite H. rewrite json_output. cbn [fst]. destruct views; [rewrite (V eq_refl)|]; apply read_tables, U.
Qed.
Example ex_C135 : Forall table_utf8 [ex_ta; ex_tb; ex_v] /\ map plain_table [ex_tb] = [ex_tb] /\
  fst (output ex_libs (B "json") (ROk ex_broken) (KTables [] [] false) None) =
  join [ch 10] (map (fun s => list_ascii_of_string s) ["["; "  {"; "    ""Schema"": ""dbo"","; "    ""Name"": ""b"","; "    ""Type"": """","; "    ""IsView"": false,"; "    ""Columns"": [],"; "    ""Indexes"": null,"; "    ""PrimaryKey"": null"; "  }"; "]"; ""]%string).
Proof.
  assert (A : forall s, plain_key s = true -> utf8_text s) by (intros s Hs; rewrite <- (plain_key_same s Hs); apply repaired_is_text).
  split; [|split; [reflexivity|vm_compute; reflexivity]]. repeat (constructor || apply A; try reflexivity).
Qed.

(** ** C136: success means that everything was written *)
(** Refuted: every command reports success to a writer that takes nothing. *)
Theorem C136_lost_refuted : forall c, In c [KColumns [] [] false false; KTables [] [] false; KViews [] []; KFks [] []] ->
  output ex_libs (B "json") (ROk ex_lister) c (Some 0%nat) = ([], ROk tt) /\ fst (output ex_libs (B "json") (ROk ex_lister) c None) <> [].
Proof. intros c [<-|[<-|[<-|[<-|[]]]]]; split; vm_compute; congruence. Qed.
(** What was written is what fits of the whole output, and the result is the same. *)
Theorem C136_prefix_partial : forall lb format p c n, exists rest,
  fst (output lb format p c None) = fst (output lb format p c (Some n)) ++ rest /\
  ((length (fst (output lb format p c None)) <= n)%nat -> rest = []) /\
  snd (output lb format p c (Some n)) = snd (output lb format p c None).
Proof.
  intros lb format p c n. rewrite output_room. cbn [fst snd]. exists (skipn n (fst (output lb format p c None))). split; [symmetry; apply firstn_skipn|]. split; [apply skipn_all2|reflexivity].
Qed.
Example ex_C136 : output ex_libs (B "table") (ROk ex_lister) (KViews [] []) (Some 3%nat) = (B "dbo", ROk tt).
Proof. reflexivity. Qed.

(** ** C137: a failing listing is reported and nothing is printed *)
(** The first failure is what the command returns. *)
Theorem C137_reported : forall lb format r c room e, steady r -> command_error (ROk r) c = Some e -> snd (output lb format (ROk r) c room) = RErr e.
Proof.
  intros lb format r c room e (S1 & S2 & S3). unfold output. destruct (run_prints lb format (ROk r) c) as (b & res & H). rewrite H. cbn [snd].
  assert (R : snd (run lb format (ROk r) c (empty_sink None)) = res) by (rewrite H; reflexivity). revert R. clear H.
  destruct c as [a b' d w|a b' w|a b'|a b']; unfold command_error, run, cmd_columns, cmd_tables, cmd_views, cmd_fks, with_provider, lift; cbv zeta.
  - specialize (S1 a b' d). destruct (l_tables r a b' d) as [ts|x|]; [|cbn; intros <- X; injection X as ->; reflexivity|destruct (S1 eq_refl)]. cbn [first_failure]. destruct w; [|discriminate 2].
    specialize (S2 a b'). destruct (l_views r a b') as [vs|x|]; [discriminate 2|cbn; intros <- X; injection X as ->; reflexivity|destruct (S2 eq_refl)].
  - specialize (S1 a b' true). destruct (l_tables r a b' true) as [ts|x|]; [|cbn; intros <- X; injection X as ->; reflexivity|destruct (S1 eq_refl)]. cbn [first_failure]. destruct w; [|discriminate 2].
    specialize (S2 a b'). destruct (l_views r a b') as [vs|x|]; [discriminate 2|cbn; intros <- X; injection X as ->; reflexivity|destruct (S2 eq_refl)].
  - specialize (S2 a b'). destruct (l_views r a b') as [vs|x|]; [discriminate 2|cbn; intros <- X; injection X as ->; reflexivity|destruct (S2 eq_refl)].
  - specialize (S3 a b'). destruct (l_fks r a b') as [vs|x|]; [discriminate 2|cbn; intros <- X; injection X as ->; reflexivity|destruct (S3 eq_refl)].
Qed.
(** No connection: the error of connecting, and nothing is printed. *)
Theorem C137_connect : forall lb format c room e, output lb format (RErr e) c room = ([], RErr e).
Proof. intros lb format c room e. destruct c; reflexivity. Qed.
(** Refuted: `schema columns --views` prints the tables before it lists the views; and
    it drops the error of the encoder. *)
Theorem C137_half_printed_refuted : exists out, out <> [] /\ output ex_libs (B "table") (ROk ex_broken) (KColumns [] [] false true) None = (out, RErr 7).
Proof. eexists. split; [|vm_compute; reflexivity]. discriminate. Qed.
Theorem C137_encoder_refuted : forall layout r ts e, l_tables r [] [] false = ROk ts ->
  output (mkLibs layout (fun _ => RErr e)) (B "yaml") (ROk r) (KColumns [] [] false false) None = ([], ROk tt).
Proof. intros layout r ts e H. unfold output, run, cmd_columns, with_provider, lift. rewrite H. reflexivity. Qed.
(** The other commands list everything before they print. *)
Theorem C137_nothing_printed_partial : forall lb format r c room e, steady r -> (forall a b d w, c <> KColumns a b d w) -> command_error (ROk r) c = Some e ->
  output lb format (ROk r) c room = ([], RErr e).
Proof.
  intros lb format r c room e (S1 & S2 & S3) N. destruct c as [a b' d w|a b' w|a b'|a b']; unfold command_error, output, run, cmd_tables, cmd_views, cmd_fks, with_provider, lift; cbv zeta.
  - destruct (N a b' d w eq_refl).
  - specialize (S1 a b' true). destruct (l_tables r a b' true) as [ts|x|]; [|cbn; intros X; injection X as ->; reflexivity|destruct (S1 eq_refl)]. cbn [first_failure]. destruct w; [|discriminate 1].
    specialize (S2 a b'). destruct (l_views r a b') as [vs|x|]; [discriminate 1|cbn; intros X; injection X as ->; reflexivity|destruct (S2 eq_refl)].
  - specialize (S2 a b'). destruct (l_views r a b') as [vs|x|]; [discriminate 1|cbn; intros X; injection X as ->; reflexivity|destruct (S2 eq_refl)].
  - specialize (S3 a b'). destruct (l_fks r a b') as [vs|x|]; [discriminate 1|cbn; intros X; injection X as ->; reflexivity|destruct (S3 eq_refl)].
Qed.
Example ex_C137 : steady ex_broken /\ command_error (ROk ex_broken) (KTables [] [] true) = Some 7 /\ command_error (ROk ex_broken) (KFks [] []) = Some 8.
Proof. repeat split; intros; discriminate. Qed.

(** ** C138: the text tables say what was listed *)
(** Columns, for every table its schema and name, then a row per column, then the
    indexes if there are any. *)
Theorem C138_tables : forall lb format v, format <> B "json" -> format <> B "yaml" ->
  match v with
  | VTable t => exists out, print_object lb (empty_sink None) format v = (mkSink out None, ROk tt) /\ table_text (lb_table lb) t out
  | VTables l => exists outs, print_object lb (empty_sink None) format v = (mkSink (concat outs) None, ROk tt) /\ Forall2 (table_text (lb_table lb)) (elems l) outs
  | VIndexes l => exists rows, print_object lb (empty_sink None) format v = (mkSink (lb_table lb (map B ["Name"; "Primary"; "Unique"; "Columns"]%string) rows ++ [ch 10]) None, ROk tt) /\ Forall2 index_row_says (elems l) rows
  | VFks l => print_object lb (empty_sink None) format v = (mkSink (lb_table lb (map B ["Name"; "Schema"; "Table"; "Column"; "FK Schema"; "FK Table"; "FK Column"]%string)
        (map (fun k => [k_name k; k_schema k; k_table k; k_column k; k_rschema k; k_rtable k; k_rcolumn k]) (elems l)) ++ [ch 10]) None, ROk tt)
  | VOther j => print_object lb (empty_sink None) format v = (mkSink (indent 0 j ++ [ch 10]) None, ROk tt)
  end.
Proof.
  intros lb format v N1 N2. assert (P : print_object lb (empty_sink None) format v = (mkSink (value_out lb v) None, ROk tt)).
  { rewrite prints_object. unfold object_out, object_res. rewrite !(proj2 (beqb_neq _ _)) by assumption. reflexivity. }
  rewrite P. destruct v as [t|l|l|l|j]; cbn [value_out].
  - eexists. split; [reflexivity|apply table_out_text].
  - exists (map (table_out lb) (elems l)). split; [rewrite flat_map_concat_map; reflexivity|]. apply Forall2_map, table_out_text.
  - reflexivity.
  - eexists. split; [reflexivity|]. apply Forall2_map, index_cells_say.
  - reflexivity.
Qed.
(** Nothing is lost: the row of a column determines the column, up to the text of its
    foreign key and the names of its indexes. *)
Theorem C138_row_determines : forall c c' row, 0 <= pc_max c -> 0 <= pc_max c' -> column_row_says c row -> column_row_says c' row ->
  plain_column c = plain_column c' /\ (pc_idx c = [] <-> pc_idx c' = []) /\
  match pc_ref c, pc_ref c' with Some k, Some k' => ref_column k = ref_column k' | None, None => True | _, _ => False end.
Proof.
  intros c c' row M M' (o & nu & mx & ix & rf & -> & HO & HN & HM & HI & HR) (o' & nu' & mx' & ix' & rf' & E & HO' & HN' & HM' & HI' & HR'). injection E as <- En Et Eu <- <- <- <-.
  assert (Ep : pc_pos c = pc_pos c') by congruence.
  assert (Em : pc_max c = pc_max c'). { destruct HM as [[HM X]|[-> X]], HM' as [[HM' X']|[E' X']]; try congruence; try lia; [subst mx; discriminate HM|subst; discriminate HM']. }
  assert (Ez : pc_null c = pc_null c') by (destruct HN as [[-> X]|[-> X]], HN' as [[E' X']|[E' X']]; (congruence || discriminate E')).
  split; [unfold plain_column; congruence|]. split.
  - destruct HI as [[-> X]|[-> X]], HI' as [[E' X']|[E' X']]; try discriminate E'; split; intros; congruence.
  - destruct (pc_ref c) as [k|], (pc_ref c') as [k'|]; subst; cbn [ref_column]; unfold ref_column, fqn3; try tauto; try congruence.
    + symmetry in HR'. revert HR'. destruct (k_rschema k); cbn; discriminate.
    + revert HR'. destruct (k_rschema k'); cbn; discriminate.
Qed.
Example ex_C138 : fst (output ex_libs (B "table") (ROk ex_lister) (KColumns [] [] false false) None) =
  join [ch 10] (map (fun s => list_ascii_of_string s) ["Schema: dbo"; "Table: a"; ""; "Ord|Name|Type|UDT|NULL|Max|Index|Ref"; "1|id|bigint|int8|||YES|"; "2|bid|bigint|int8|YES|20||dbo.b.id"; ""; "Indexes:"; "Name|Primary|Unique|Columns"; "a_pk|YES|YES|id"; ""; ""]%string).
Proof. vm_compute. reflexivity. Qed.

(** ** C139: an unknown output format is rejected *)
(** Refuted: any other word, "JSON" too, selects the text tables. *)
Theorem C139_unknown_format_refuted : forall lb p c room format, format <> B "json" -> format <> B "yaml" -> output lb format p c room = output lb (B "table") p c room.
Proof.
  intros lb p c room format N1 N2. assert (E : forall s v, print_object lb s format v = print_object lb s (B "table") v) by (intros s v; unfold print_object; rewrite !(proj2 (beqb_neq _ _)) by assumption; reflexivity).
  assert (E2 : structured format = structured (B "table")) by (unfold structured; rewrite !(proj2 (beqb_neq _ _)) by assumption; reflexivity).
  unfold output, run. destruct c; unfold cmd_columns, cmd_tables, cmd_views, cmd_fks, with_provider, lift; rewrite ?E2; destruct p as [r|e|]; try reflexivity.
  - destruct (l_tables r schemas tables deps) as [ts|e|]; try reflexivity. rewrite E. destruct views; [|reflexivity]. destruct (l_views r schemas tables) as [vs|e|]; try reflexivity. destruct (0 <? length vs)%nat; [|reflexivity]. rewrite E. reflexivity.
  - destruct (l_fks r schemas tables) as [ks|e|]; try reflexivity. rewrite E. reflexivity.
Qed.
Example ex_C139 : output ex_libs (B "JSON") (ROk ex_lister) (KFks [] []) None = output ex_libs (B "table") (ROk ex_lister) (KFks [] []) None.
Proof. reflexivity. Qed.

(** ** C140: the data source is the flag, else the environment *)
Theorem C140_source : forall flag env, after_apply flag env = match flag, env with [], [] => None | [], e => Some e | f, _ => Some f end.
Proof. intros [|x flag] [|y env]; reflexivity. Qed.
Example ex_C140 : after_apply (B "postgres://a") (B "postgres://b") = Some (B "postgres://a") /\ after_apply [] [] = None.
Proof. split; reflexivity. Qed.

(** ** Exact statement of what holds of a refuted property *)
(** C135: with views asked for, the output is one document exactly when there are none. *)
Theorem C135_exact_partial : forall lb r schemas tables deps ts vs, l_tables r schemas tables deps = ROk ts -> l_views r schemas tables = ROk vs -> Forall table_utf8 ts ->
  (read_doc rd_table (fst (output lb (B "json") (ROk r) (KColumns schemas tables deps true) None)) = Some (Some (map plain_table ts)) <-> vs = []).
Proof.
  intros lb r schemas tables deps ts vs T V U. split; [|intros ->; apply C135_columns_partial; auto]. intros E. destruct vs as [|v vs]; [reflexivity|exfalso]. pose proof (C135_columns_refuted lb r schemas tables deps ts v vs T V) as N. unfold read_doc in E. rewrite N in E. discriminate E.
Qed.

(** ** Assumptions *)
Print Assumptions C133_tables.
Print Assumptions C133_views.
Print Assumptions C133_catalog.
Print Assumptions C134_ambiguous_refuted.
Print Assumptions C134_lines_partial.
Print Assumptions C135_tables.
Print Assumptions C135_views.
Print Assumptions C135_fks.
Print Assumptions C135_yaml_tables.
Print Assumptions C135_yaml_views.
Print Assumptions C135_yaml_fks.
Print Assumptions C135_columns_refuted.
Print Assumptions C135_columns_partial.
Print Assumptions C136_lost_refuted.
Print Assumptions C136_prefix_partial.
Print Assumptions C137_reported.
Print Assumptions C137_connect.
Print Assumptions C137_half_printed_refuted.
Print Assumptions C137_encoder_refuted.
Print Assumptions C137_nothing_printed_partial.
Print Assumptions C138_tables.
Print Assumptions C138_row_determines.
Print Assumptions C139_unknown_format_refuted.
Print Assumptions C140_source.
Print Assumptions C135_exact_partial.
