(** Properties of schema discovery (C65-C68, C98-C104). *)
From Verif Require Import GoBase GoBaseFacts TypeModel TypeSpec TypeProofs ParamModel SchemaModel SchemaSpec SchemaProofs SchemaGraph SchemaDeps SchemaMore.
From Verif Require Import XsqlModel XsqlSpec XsqlUserSpec XsqlPg XsqlRender XsqlStatic XsqlOrder XsqlUser XsqlMore.
From Coq Require Import Relations Permutation Sorted.
Open Scope Z_scope.

(** A small catalog: a -> b -> c -> a by foreign keys, d alone. *)
Definition ex_col (n : string) (p : Z) : colrow := mkCR (B n) (B "integer") (B "int4") (B "no") None p.
Definition ex_cols (s t : bytes) : list colrow :=
  if beqb s (B "public") then
    if beqb t (B "a") then [ex_col "bid" 2; ex_col "id" 1]
    else if beqb t (B "b") then [ex_col "id" 1; ex_col "cid" 2]
    else if beqb t (B "c") then [ex_col "id" 1; ex_col "aid" 2]
    else if beqb t (B "d") then [ex_col "id" 1] else []
  else [].
Definition ex_idxs (s t : bytes) : list idxrow := if is_empty (ex_cols s t) then [] else [mkIR (t ++ B "_pkey") true true (B "id")].
Definition ex_fk (t c r : string) : fkey := mkFK (B "fk") (B "public") (B t) (B c) (B "public") (B r) (B "id").
Definition ex_fks : list fkey := [ex_fk "a" "bid" "b"; ex_fk "b" "cid" "c"; ex_fk "c" "aid" "a"].
Definition ex_tabs : list tabrow := map (fun t => mkTR (B "public") (B t) (B "BASE TABLE")) ["d"; "c"; "b"; "a"]%string.
Definition ex_src {R} (l : list R) : rowsrc R + Z := inl (mkSrc (map SRow l) None).
Definition ex_cat (tabs : list tabrow) (cols : bytes -> bytes -> list colrow) (idxs : bytes -> bytes -> list idxrow) (fks : list fkey) : catalog :=
  mkCat (ex_src tabs) (ex_src []) (fun s t => ex_src (cols s t)) (fun s t => ex_src (idxs s t)) (ex_src fks).
Definition ex_c : catalog := ex_cat ex_tabs ex_cols ex_idxs ex_fks.
Lemma ex_no_dot s : existsb (fun c => if ascii_dec c (ch 46) then true else false) s = false -> no_dot s.
Proof. intros H X. apply not_true_iff_false in H. apply H. apply existsb_exists. exists (ch 46). split; [exact X|]. destruct (ascii_dec (ch 46) (ch 46)); congruence. Qed.
Lemma ex_cols_once s t : NoDup (map cr_name (ex_cols s t)).
Proof.
  unfold ex_cols. destruct (beqb s _); [|constructor]. repeat (match goal with |- context [if ?b then _ else _] => destruct b end; [repeat constructor; cbn; intuition congruence|]). constructor.
Qed.
Lemma ex_described : described ex_c ex_tabs ex_cols ex_idxs ex_fks.
Proof.
  constructor; try reflexivity.
  - cbn. repeat constructor; cbn; intuition congruence.
  - exact ex_cols_once.
  - intros s t i n Hi Hn. unfold ex_idxs in Hi. destruct (is_empty (ex_cols s t)) eqn:E; [contradiction|]. destruct Hi as [<-|[]]. cbn in Hn. destruct Hn as [<-|[]]. unfold ex_cols in *. destruct (beqb s _); [|discriminate].
    repeat (match goal with |- context [if ?b then _ else _] => destruct b end; [cbn; auto|]). discriminate.
  - intros k [<-|[<-|[<-|[]]]]; cbn; auto.
  - intros r Hr. repeat (destruct Hr as [<-|Hr]; [split; apply ex_no_dot; reflexivity|]). contradiction.
  - intros k Hk. repeat (destruct Hk as [<-|Hk]; [repeat split; apply ex_no_dot; reflexivity|]). contradiction.
Qed.

(** ** C65: dependencies *)
(** The search ends, for every catalog (failing or not, cyclic or not), every
    earlier use of the provider and every order in which Go ranges over its
    maps; more stack never changes the result. *)
Theorem C65_deps_terminate : forall cat st schemas tables ord, exists n, forall tord, exists r, forall fuel, (n <= fuel)%nat ->
  list_tables_deps fuel cat st schemas tables ord tord = Some r.
Proof. exact deps_terminate. Qed.
(** On a new provider: the result is the requested tables and exactly the other
    tables reachable over foreign keys, each once, sorted by name, every column
    pointing to its foreign key.  Missing: a column in two foreign keys. *)
Theorem C65_deps_exact_partial : forall cat tabs cols idxs fks schemas tables fuel ord tord st' o,
  described cat tabs cols idxs fks -> one_fk_per_column fks ->
  (forall a r, requested tabs schemas tables a -> In r (cols (fst a) (snd a)) -> In (fqn3 (fst a) (snd a) (cr_name r)) ord) ->
  list_tables_deps fuel cat new_prov schemas tables ord tord = Some (st', o) -> Permutation tord (map fst (p_tabs st')) ->
  exists ts ds, o = ROk ts /\ NoDup ds /\
    (forall a, In a ds <-> ~ requested tabs schemas tables a /\ exists b, requested tabs schemas tables b /\ reachable fks b a) /\
    map (see st') ts = sort_by seen_by_name (map (with_refs fks) (map (expected cols idxs) (filter (fun r => wanted schemas tables (tr_schema r) (tr_name r)) tabs) ++ map (dependency cols) ds)) /\
    StronglySorted (fun a b => bltb (v_fqn a) (v_fqn b) = true) (map (see st') ts).
Proof. exact deps_ok. Qed.
Definition ex_ord : list bytes := [B "public.a.bid"; B "public.a.id"].
Definition ex_deps : option (prov * outcome (list table)) := list_tables_deps 5 ex_c new_prov [] [B "A"] ex_ord [B "public.c"; B "public.a"; B "public.b"].
Example C65_deps_exact_partial_ex : exists st' ts, ex_deps = Some (st', ROk ts) /\ map t_fqn ts = [B "public.a"; B "public.b"; B "public.c"] /\ Permutation [B "public.c"; B "public.a"; B "public.b"] (map fst (p_tabs st')) /\ one_fk_per_column ex_fks.
Proof.
  unfold ex_deps. eexists. eexists. split; [vm_compute; reflexivity|]. split; [vm_compute; reflexivity|]. split.
  - cbn [p_tabs map fst]. apply Permutation_sym. match goal with |- Permutation [?a; ?b; ?c] _ => change (Permutation [B "public.a"; B "public.b"; B "public.c"] [B "public.c"; B "public.a"; B "public.b"]) end. apply (Permutation_app_comm [B "public.a"; B "public.b"] [B "public.c"]).
  - unfold one_fk_per_column. cbn. repeat constructor; cbn; intuition congruence.
Qed.
(** Refuted in general: a column with two foreign keys leads to one of the two
    tables only. *)
Definition ex_two : list fkey := [ex_fk "a" "bid" "b"; ex_fk "a" "bid" "d"].
Theorem C65_two_keys_refuted : exists st' ts, described (ex_cat ex_tabs ex_cols ex_idxs ex_two) ex_tabs ex_cols ex_idxs ex_two /\
  list_tables_deps 5 (ex_cat ex_tabs ex_cols ex_idxs ex_two) new_prov [] [B "a"] ex_ord [B "public.a"; B "public.d"] = Some (st', ROk ts) /\
  Permutation [B "public.a"; B "public.d"] (map fst (p_tabs st')) /\
  reachable ex_two (B "public", B "a") (B "public", B "b") /\ ~ In (B "public.b") (map t_fqn ts).
Proof.
  eexists. eexists. split; [|split; [vm_compute; reflexivity|split; [vm_compute; apply Permutation_refl|split]]].
  - destruct ex_described. constructor; try assumption; try reflexivity.
    + intros k Hk. repeat (destruct Hk as [<-|Hk]; [cbn; auto|]). contradiction.
    + intros k Hk. repeat (destruct Hk as [<-|Hk]; [repeat split; apply ex_no_dot; reflexivity|]). contradiction.
  - econstructor; [|constructor]. exists (ex_fk "a" "bid" "b"). split; [left; reflexivity|]. split; reflexivity.
  - cbn. intuition congruence.
Qed.

(** ** C66: listings are filtered and sorted *)
(** ListTables, whatever the provider was used for before: exactly the tables
    whose schema and name are wanted, strictly sorted by qualified name. *)
Theorem C66_tables : forall cat tabs cols idxs fks st schemas tables, described cat tabs cols idxs fks ->
  exists st' ts, list_tables cat st schemas tables = (st', ROk ts) /\
    map (see st') ts = sort_by seen_by_name (map (expected cols idxs) (filter (fun r => wanted schemas tables (tr_schema r) (tr_name r)) tabs)) /\
    StronglySorted (fun a b => bltb (v_fqn a) (v_fqn b) = true) (map (see st') ts).
Proof.
  intros cat tabs cols idxs fks st schemas tables D. destruct (list_tables_ok cat tabs cols idxs fks st schemas tables D) as (st' & ts & E & M). exists st', ts. split; [exact E|]. split; [exact M|]. rewrite M. exact (expected_sorted cat tabs cols idxs fks _ D).
Qed.
(** ListViews: every wanted view once, its columns by position, for every order
    in which Go ranges over the map of views. *)
Theorem C66_views : forall cat rows st schemas tables vord, delivers (cat_views cat) rows -> (forall r, In r rows -> no_dot (vr_schema r)) -> NoDup vord ->
  (forall n, In n vord <-> exists r, In r rows /\ wanted schemas tables (vr_schema r) (vr_table r) = true /\ n = fqn2 (vr_schema r) (vr_table r)) ->
  exists st' ts vs, list_views cat st schemas tables vord = (st', ROk ts) /\ NoDup vs /\
    (forall a, In a vs <-> exists r, In r rows /\ wanted schemas tables (vr_schema r) (vr_table r) = true /\ a = (vr_schema r, vr_table r)) /\
    map (see st') ts = sort_by seen_by_name (map (view_of rows) vs) /\ StronglySorted (fun a b => bltb (v_fqn a) (v_fqn b) = true) (map (see st') ts).
Proof. exact list_views_ok. Qed.
(** ListForeignKeys: filtered on the referring table. *)
Theorem C66_fks : forall cat fks st schemas tables, delivers (cat_fks cat) fks ->
  exists st', list_fks cat st schemas tables = (st', ROk (filter (fun k => wanted schemas tables (k_schema k) (k_table k)) fks)).
Proof. exact list_fks_filter. Qed.
(** No filter: everything is wanted; otherwise names are compared without
    regard to (ASCII) case. *)
Theorem C66_wanted : forall schemas tables s t, wanted schemas tables s t = true <->
  (schemas = [] \/ exists x, In x schemas /\ map lower_ascii x = map lower_ascii s) /\ (tables = [] \/ exists x, In x tables /\ map lower_ascii x = map lower_ascii t).
Proof.
  intros schemas tables s t. unfold wanted. rewrite andb_true_iff.
  assert (H : forall l x, is_empty l || contains_fold l x = true <-> l = [] \/ exists y, In y l /\ map lower_ascii y = map lower_ascii x).
  { intros l x. rewrite orb_true_iff. unfold contains_fold. rewrite existsb_exists. split.
    - intros [E|(y & Hy & E)]; [left; destruct l; [reflexivity|discriminate]|right; exists y; split; [exact Hy|]]. unfold equal_fold in E. destruct (beqb_spec (map lower_ascii y) (map lower_ascii x)); [assumption|discriminate].
    - intros [->|(y & Hy & E)]; [left; reflexivity|right; exists y; split; [exact Hy|]]. unfold equal_fold. rewrite E. apply beqb_refl. }
  rewrite !H. reflexivity.
Qed.
(** Refuted: foreign keys come in the order of the catalog. *)
Theorem C66_fks_order_refuted : exists cat ks, delivers (cat_fks cat) ks /\ snd (list_fks cat new_prov [] []) = ROk ks /\ ~ StronglySorted (fun a b => bltb (fk_key b) (fk_key a) = false) ks.
Proof.
  exists (ex_cat [] ex_cols ex_idxs (rev ex_fks)), (rev ex_fks). split; [reflexivity|]. split; [reflexivity|]. intros S. inversion S as [|? ? _ F]; subst. inversion F as [|? ? X _]; subst. vm_compute in X. discriminate.
Qed.
Example C66_tables_ex : exists st' ts, list_tables ex_c new_prov [B "PUBLIC"] [B "c"; B "A"] = (st', ROk ts) /\ map t_fqn ts = [B "public.a"; B "public.c"] /\
  map (fun t => map (option_map c_name) (seen_columns st' t)) ts = [[Some (B "id"); Some (B "bid")]; [Some (B "id"); Some (B "aid")]].
Proof. eexists. eexists. split; [vm_compute; reflexivity|]. split; vm_compute; reflexivity. Qed.
Definition ex_vrows : list viewrow := [mkVR (B "s") (B "v") (ex_col "y" 2); mkVR (B "s") (B "u") (ex_col "k" 1); mkVR (B "s") (B "v") (ex_col "x" 1)].
Definition ex_vcat : catalog := mkCat (ex_src []) (ex_src ex_vrows) (fun _ _ => ex_src []) (fun _ _ => ex_src []) (ex_src []).
Example C66_views_ex : exists st' ts, list_views ex_vcat new_prov [] [] [B "s.v"; B "s.u"] = (st', ROk ts) /\ map t_fqn ts = [B "s.u"; B "s.v"] /\
  map (fun t => map (option_map c_name) (seen_columns st' t)) ts = [[Some (B "k")]; [Some (B "x"); Some (B "y")]].
Proof. eexists. eexists. split; [vm_compute; reflexivity|]. split; vm_compute; reflexivity. Qed.
Example C66_fks_ex : exists st', list_fks ex_c new_prov [] [B "b"] = (st', ROk [ex_fk "b" "cid" "c"]).
Proof. eexists. vm_compute. reflexivity. Qed.

(** ** C67: repeated listings *)
(** Without dependencies what was listed before does not matter. *)
Theorem C67_tables_independent : forall cat tabs cols idxs fks st1 st2 schemas tables, described cat tabs cols idxs fks ->
  exists s1 s2 t1 t2, list_tables cat st1 schemas tables = (s1, ROk t1) /\ list_tables cat st2 schemas tables = (s2, ROk t2) /\ map (see s1) t1 = map (see s2) t2.
Proof.
  intros cat tabs cols idxs fks st1 st2 schemas tables D. destruct (list_tables_ok cat tabs cols idxs fks st1 schemas tables D) as (s1 & t1 & E1 & M1). destruct (list_tables_ok cat tabs cols idxs fks st2 schemas tables D) as (s2 & t2 & E2 & M2). exists s1, s2, t1, t2. split; [exact E1|]. split; [exact E2|]. congruence.
Qed.
(** Refuted with dependencies: tables listed earlier are listed again. *)
Theorem C67_deps_refuted : exists st ts2 s2 ts s, described ex_c ex_tabs ex_cols ex_idxs ex_fks /\
  fst (list_tables ex_c new_prov [] [B "a"]) = st /\
  list_tables_deps 5 ex_c new_prov [] [B "d"] [B "public.d.id"] [B "public.d"] = Some (s, ROk ts) /\ map t_fqn ts = [B "public.d"] /\
  list_tables_deps 5 ex_c st [] [B "d"] [B "public.d.id"; B "public.a.id"; B "public.a.bid"] [B "public.a"; B "public.b"; B "public.c"; B "public.d"] = Some (s2, ROk ts2) /\
  map t_fqn ts2 = [B "public.a"; B "public.b"; B "public.c"; B "public.d"].
Proof.
  eexists. eexists. eexists. eexists. eexists. split; [exact ex_described|]. split; [reflexivity|]. split; [vm_compute; reflexivity|]. split; [vm_compute; reflexivity|]. split; [vm_compute; reflexivity|]. vm_compute. reflexivity.
Qed.
Example C67_tables_independent_ex : fst (list_tables ex_c new_prov [] [B "a"]) <> new_prov.
Proof. vm_compute. discriminate. Qed.

(** ** C68: column lists of TableInfo *)
Theorem C68_all_columns : forall t, ti_columns t <> [] -> Forall (fun c => ~ In (ch 44) c) (ti_columns t) -> ti_all t = [] \/ ti_all t = join (B ", ") (ti_columns t) ->
  items (snd (all_columns t)) = ti_columns t /\ snd (all_columns (fst (all_columns t))) = snd (all_columns t).
Proof.
  intros t N F A. assert (E : snd (all_columns t) = join (B ", ") (ti_columns t)).
  { unfold all_columns. destruct A as [->| ->]; [reflexivity|]. destruct (join (B ", ") (ti_columns t)); reflexivity. }
  split; [rewrite E; apply items_join; assumption|]. unfold all_columns at 2. destruct (is_empty (ti_all t)) eqn:Z.
  - unfold all_columns at 1. cbn [fst ti_all ti_columns]. rewrite E. destruct (is_empty (join (B ", ") (ti_columns t))); reflexivity.
  - unfold all_columns. cbn [fst]. rewrite Z. reflexivity.
Qed.
(** One item per column, in order; NULL exactly where asked. *)
Theorem C68_aliased_columns : forall (t : tinfo) (prefix : bytes) (nulls : bytes -> bool), ti_columns t <> [] -> ~ In (ch 44) prefix -> Forall (fun c => ~ In (ch 44) c) (ti_columns t) ->
  Forall2 (fun c i => i = if nulls c then B "NULL" else match prefix with [] => c | _ => prefix ++ B "." ++ c end) (ti_columns t) (items (aliased_columns t prefix nulls)).
Proof.
  intros t prefix nulls N P F. unfold aliased_columns. rewrite items_join.
  - clear. induction (ti_columns t) as [|c l IH]; constructor; [|exact IH]. destruct (nulls c); [reflexivity|]. destruct prefix; reflexivity.
  - destruct (ti_columns t); [congruence|discriminate].
  - clear N. induction (ti_columns t) as [|c l IH]; constructor; inversion F as [|? ? F1 F2]; subst; [|exact (IH F2)]. destruct (nulls c); [cbn; intuition congruence|]. destruct (is_empty prefix); [exact F1|]. intros X. apply in_app_or in X as [X|[X|X]]; [exact (P X)|discriminate|exact (F1 X)].
Qed.
(** Refuted: AllColumns does not follow a change of Columns. *)
Theorem C68_changed_columns_refuted : exists (t : tinfo) (cols : list bytes), let t1 := fst (all_columns t) in
  ti_columns t <> cols /\ snd (all_columns (mkTI (ti_schema t1) (ti_name t1) (ti_pk t1) cols (ti_indexes t1) (ti_fqn t1) (ti_all t1))) = join (B ", ") (ti_columns t) /\
  join (B ", ") (ti_columns t) <> join (B ", ") cols.
Proof. exists (mkTI (B "s") (B "t") [] [B "a"] [] (B "s.t") []), [B "b"]. cbn. repeat split; discriminate. Qed.
Definition ex_ti : tinfo := mkTI (B "s") (B "t") (B "id") [B "id"; B "name"; B "at"] [] (B "s.t") [].
Example C68_aliased_columns_ex : aliased_columns ex_ti (B "a") (beqb (B "name")) = B "a.id, NULL, a.at" /\ items (snd (all_columns ex_ti)) = [B "id"; B "name"; B "at"].
Proof. split; vm_compute; reflexivity. Qed.

(** ** C98: a failing catalog query is never taken for an empty answer *)
Theorem C98_tables : forall cat st schemas tables st' ts, list_tables cat st schemas tables = (st', ROk ts) ->
  exists rows, delivers (cat_tables cat) rows /\ forall r, In r rows -> wanted schemas tables (tr_schema r) (tr_name r) = true ->
    delivered (cat_columns cat (tr_schema r) (tr_name r)) /\ delivered (cat_indexes cat (tr_schema r) (tr_name r)).
Proof.
  intros cat st schemas tables st' ts E. unfold list_tables in E. destruct (list_tables_only cat st schemas tables) as [st1 [l|e|]] eqn:E1; cbn [sorted_tables] in E; [|discriminate|discriminate]. exact (tables_delivered _ _ _ _ _ _ E1).
Qed.
Theorem C98_deps : forall fuel cat schemas tables ord tord st' ts, list_tables_deps fuel cat new_prov schemas tables ord tord = Some (st', ROk ts) ->
  (exists rows, delivers (cat_tables cat) rows /\ forall r, In r rows -> wanted schemas tables (tr_schema r) (tr_name r) = true ->
     delivered (cat_columns cat (tr_schema r) (tr_name r)) /\ delivered (cat_indexes cat (tr_schema r) (tr_name r))) /\
  delivered (cat_fks cat) /\ forall x, In x ts -> delivered (cat_columns cat (t_schema x) (t_name x)).
Proof. exact deps_delivered. Qed.
Theorem C98_views : forall cat st schemas tables vord st' ts, list_views cat st schemas tables vord = (st', ROk ts) -> delivered (cat_views cat).
Proof. exact views_delivered. Qed.
Theorem C98_fks : forall cat st schemas tables st' ts, list_fks cat st schemas tables = (st', ROk ts) -> delivered (cat_fks cat).
Proof. exact fks_delivered. Qed.
Example C98_tables_ex : (exists st' ts, list_tables ex_c new_prov [] [] = (st', ROk ts)) /\
  snd (list_tables (mkCat (ex_src ex_tabs) (ex_src []) (fun _ _ => inl (mkSrc [SRow (ex_col "id" 1); SFail 7] None)) (fun _ _ => ex_src []) (ex_src [])) new_prov [] []) = RErr 7.
Proof. split; [eexists; eexists; vm_compute; reflexivity|vm_compute; reflexivity]. Qed.

(** ** C99: a listed table is what the catalog says *)
Lemma says_nullable_iff s : contains_fold nullable_vals s = true <-> says_nullable s.
Proof.
  unfold contains_fold, says_nullable, nullable_vals, equal_fold. cbn [existsb In]. rewrite !orb_true_iff. assert (X : forall a b, beqb a b = true <-> a = b) by (intros a b; destruct (beqb_spec a b); split; congruence). rewrite !X.
  change (map lower_ascii (B "YES")) with (B "yes"). change (map lower_ascii (B "TRUE")) with (B "true"). change (map lower_ascii (B "NULL")) with (B "null"). intuition congruence.
Qed.
Lemma columns_say s t ii rows : Forall2 col_says rows (map (column_of s t ii) rows).
Proof.
  induction rows as [|q l IH]; constructor; [|exact IH]. unfold col_says, column_of. cbn [make_column c_name c_type c_udt c_null c_max c_pos].
  repeat (split; [first [reflexivity|apply says_nullable_iff]|]). split; [intros H; apply wrap_u_id; exact H|]. split; [intros ->; reflexivity|]. intros n -> H. apply wrap_u_id. exact H.
Qed.
Lemma join_split c s : join [c] (split_on c s) = s.
Proof.
  induction s as [|x r IH]; [reflexivity|]. cbn [split_on]. pose proof (split_on_nonempty c r) as N. destruct (ascii_dec x c) as [->|D].
  - destruct (split_on c r) as [|w ws] eqn:E; [congruence|]. change (join [c] ([] :: w :: ws)) with ([c] ++ join [c] (w :: ws)). rewrite IH. reflexivity.
  - destruct (split_on c r) as [|w ws]; [congruence|]. destruct ws as [|w2 ws]; cbn [join] in *; [subst; reflexivity|]. rewrite <- IH. reflexivity.
Qed.
Lemma split_free c s : Forall (fun w => ~ In c w) (split_on c s).
Proof.
  induction s as [|x r IH]; [constructor; [intros []|constructor]|]. cbn [split_on]. destruct (ascii_dec x c) as [->|D]; [constructor; [intros []|exact IH]|].
  destruct (split_on c r) as [|w ws]; [constructor; [|constructor]; intros [E|[]]; congruence|]. inversion IH as [|? ? H1 H2]; subst. constructor; [|exact H2]. intros [E|I]; [congruence|exact (H1 I)].
Qed.
Lemma indexes_say rows : Forall2 idx_says rows (map make_index rows).
Proof.
  induction rows as [|q l IH]; constructor; [|exact IH]. unfold idx_says. cbn [make_index ix_name ix_primary ix_unique ix_cols]. repeat (split; [reflexivity|]). split; [apply join_split|apply split_free].
Qed.
Theorem C99_table_contents : forall cat tabs cols idxs fks st schemas tables r, described cat tabs cols idxs fks -> In r tabs -> wanted schemas tables (tr_schema r) (tr_name r) = true ->
  exists st' ts x cs, list_tables cat st schemas tables = (st', ROk ts) /\ In x ts /\ t_schema x = tr_schema r /\ t_name x = tr_name r /\ t_type x = tr_type r /\
    map (nth_error (p_heap st')) (t_cols x) = map Some cs /\
    (exists rows, Permutation rows (cols (tr_schema r) (tr_name r)) /\ Forall2 col_says rows cs) /\ StronglySorted (fun a b => c_pos a <= c_pos b) cs /\
    Forall2 idx_says (idxs (tr_schema r) (tr_name r)) (t_idx x) /\
    (forall c ix, In c cs -> In ix (c_idx c) <-> In ix (t_idx x) /\ In (c_name c) (ix_cols ix)) /\
    (forall id, t_pk x = Some id -> exists c ix, In c cs /\ nth_error (p_heap st') id = Some c /\ pk_name (p_heap st') x = c_name c /\ In ix (t_idx x) /\ ix_primary ix = true /\ ix_cols ix = [c_name c]) /\
    ((exists ix n, In ix (t_idx x) /\ ix_primary ix = true /\ ix_cols ix = [n]) -> t_pk x <> None).
Proof.
  intros cat tabs cols idxs fks st schemas tables r D Hr W. destruct (list_tables_ok cat tabs cols idxs fks st schemas tables D) as (st' & ts & E & M). set (s := tr_schema r) in *. set (t := tr_name r) in *.
  assert (I : In (expected cols idxs r) (map (see st') ts)). { rewrite M. eapply Permutation_in; [apply sort_perm_by|]. apply in_map. apply filter_In. split; assumption. }
  apply in_map_iff in I as (x & Ex & Hx). set (ii := map make_index (idxs s t)). set (cs := sort_by col_by_pos (map (column_of s t ii) (cols s t))).
  assert (F : t_schema x = s /\ t_name x = t /\ t_type x = tr_type r /\ map (nth_error (p_heap st')) (t_cols x) = map Some cs /\ t_idx x = ii /\ (match t_pk x with None => None | Some id => Some (nth_error (p_heap st') id) end) = match pk_of ii with None => None | Some n => Some (find (fun c => beqb (c_name c) n) cs) end).
  { unfold see, expected in Ex. fold s t ii cs in Ex. unfold seen_columns in Ex. injection Ex as H1 H2 H3 _ _ H4 H5 H6. repeat split; assumption. }
  destruct F as (F1 & F2 & F3 & F4 & F5 & F6).
  assert (Pc : forall c, In c cs <-> exists q, In q (cols s t) /\ c = column_of s t ii q).
  { intros c. split.
    - intros H. eapply Permutation_in in H; [|apply Permutation_sym, sort_perm_by]. apply in_map_iff in H as (q & <- & Hq). exists q. split; [exact Hq|reflexivity].
    - intros (q & Hq & ->). eapply Permutation_in; [apply sort_perm_by|]. apply in_map. exact Hq. }
  exists st', ts, x, cs. repeat (split; [assumption|]). split; [|split; [|split; [|split; [|split]]]].
  - assert (Pm : Permutation cs (map (column_of s t ii) (cols s t))) by (unfold cs; symmetry; apply sort_perm_by). apply Permutation_map_inv in Pm. destruct Pm as (rows & -> & Pm). exists rows. split; [symmetry; exact Pm|]. apply columns_say.
  - pose proof (sort_sorted col_by_pos (map (column_of s t ii) (cols s t))) as S. unfold cs. assert (S1 : StronglySorted (le_by col_by_pos) (sort_by col_by_pos (map (column_of s t ii) (cols s t)))) by (apply S; unfold col_by_pos; intros; rewrite ?Z.ltb_lt, ?Z.ltb_ge in *; lia).
    revert S1. generalize (sort_by col_by_pos (map (column_of s t ii) (cols s t))) as l. induction 1 as [|a l Sl IH Fl]; constructor; [exact IH|]. eapply Forall_impl; [|exact Fl]. intros b Hb. unfold le_by, col_by_pos in Hb. apply Z.ltb_ge in Hb. exact Hb.
  - rewrite F5. apply indexes_say.
  - intros c ix Hc. apply Pc in Hc as (q & Hq & ->). cbn [column_of c_idx c_name make_column]. rewrite F5, in_flat_map. split.
    + intros (i & Hi & Hm). apply in_map_iff in Hm as (n & <- & Hn). apply filter_In in Hn as [Hn En]. destruct (beqb_spec (cr_name q) n) as [->|]; [|discriminate]. split; assumption.
    + intros [Hi Hn]. exists ix. split; [exact Hi|]. apply in_map_iff. exists (cr_name q). split; [reflexivity|]. apply filter_In. split; [exact Hn|apply beqb_refl].
  - intros id Eid. unfold pk_name. rewrite Eid in *. destruct (pk_of ii) as [n|] eqn:Pk; [|discriminate]. injection F6 as F6.
    assert (Q : forall l acc, fold_left (fun pk ix => match ix_cols ix with [n] => if ix_primary ix then Some n else pk | _ => pk end) l acc = Some n -> (exists ix, In ix l /\ ix_primary ix = true /\ ix_cols ix = [n]) \/ acc = Some n).
    { induction l as [|i l IHl]; intros acc H; cbn [fold_left] in H; [right; exact H|]. apply IHl in H as [(ix & Hi & Hp & Hn)|H]; [left; exists ix; split; [right; exact Hi|split; assumption]|]. destruct (ix_cols i) as [|m [|]] eqn:Ei; [right; exact H| |right; exact H]. destruct (ix_primary i) eqn:Ep; [|right; exact H]. injection H as ->. left. exists i. split; [left; reflexivity|split; assumption]. }
    apply Q in Pk as [(ix & Hi & Hp & Hn)|Pk]; [|discriminate].
    destruct (find (fun c => beqb (c_name c) n) cs) as [c|] eqn:Fc.
    + apply find_some in Fc as [Hc Ec]. destruct (beqb_spec (c_name c) n) as [En|]; [|discriminate]. exists c, ix. split; [exact Hc|]. split; [exact F6|]. split; [rewrite F6; reflexivity|]. split; [rewrite F5; exact Hi|]. split; [exact Hp|]. rewrite En. exact Hn.
    + exfalso. unfold ii in Hi. apply in_map_iff in Hi as (i & <- & Hi). assert (X : In n (split_on (ch 44) (ir_cols i))) by (cbn [make_index ix_cols] in Hn; rewrite Hn; left; reflexivity). pose proof (d_idx_cols _ _ _ _ _ D s t i n Hi X) as Y. apply in_map_iff in Y as (q & Eq & Hq).
      pose proof (find_none _ _ Fc (column_of s t ii q) (proj2 (Pc _) (ex_intro _ q (conj Hq eq_refl)))) as Z. cbn [column_of c_name make_column] in Z. rewrite Eq, beqb_refl in Z. discriminate.
  - intros (ix & n & Hi & Hp & Hn) Ep. rewrite Ep in F6. rewrite F5 in Hi. destruct (pk_of ii) eqn:Pk; [discriminate|].
    assert (Q : forall l acc, (exists m, acc = Some m) \/ In ix l -> fold_left (fun pk ix => match ix_cols ix with [n] => if ix_primary ix then Some n else pk | _ => pk end) l acc <> None).
    { induction l as [|i l IHl]; intros acc H; cbn [fold_left]; [destruct H as [[m ->]|[]]; discriminate|]. apply IHl. destruct H as [[m ->]|[->|H]]; [left|left|right; exact H].
      - destruct (ix_cols i) as [|u [|]]; [eexists; reflexivity| |eexists; reflexivity]. destruct (ix_primary i); eexists; reflexivity.
      - rewrite Hn, Hp. eexists. reflexivity. }
    exact (Q ii None (or_intror Hi) Pk).
Qed.
Example C99_table_contents_ex : exists st' x, list_tables ex_c new_prov [] [B "a"] = (st', ROk [x]) /\ pk_name (p_heap st') x = B "id" /\ map (option_map is_primary) (seen_columns st' x) = [Some true; Some false].
Proof. eexists. eexists. split; [vm_compute; reflexivity|]. split; vm_compute; reflexivity. Qed.

(** ** C100: listing never panics *)
Theorem C100_no_panic_partial : forall cat tabs cols idxs fks st schemas tables, described cat tabs cols idxs fks -> snd (list_tables cat st schemas tables) <> RPanic.
Proof. intros cat tabs cols idxs fks st schemas tables D. destruct (list_tables_ok cat tabs cols idxs fks st schemas tables D) as (st' & ts & -> & _). discriminate. Qed.
(** Refuted: an indexed column with a comma in its name is a nil dereference,
    although every query succeeds and the catalog is consistent. *)
Theorem C100_comma_refuted : exists cat, delivers (cat_tables cat) [mkTR (B "s") (B "t") (B "BASE TABLE")] /\ delivers (cat_columns cat (B "s") (B "t")) [mkCR (B "a,b") (B "text") (B "text") (B "no") None 1] /\
  delivers (cat_indexes cat (B "s") (B "t")) [mkIR (B "i") false false (B "a,b")] /\ snd (list_tables cat new_prov [] []) = RPanic.
Proof.
  exists (mkCat (ex_src [mkTR (B "s") (B "t") (B "BASE TABLE")]) (ex_src []) (fun _ _ => ex_src [mkCR (B "a,b") (B "text") (B "text") (B "no") None 1]) (fun _ _ => ex_src [mkIR (B "i") false false (B "a,b")]) (ex_src [])).
  repeat (split; [reflexivity|]). vm_compute. reflexivity.
Qed.
Example C100_no_panic_partial_ex : described ex_c ex_tabs ex_cols ex_idxs ex_fks /\ ex_idxs (B "public") (B "a") <> [].
Proof. split; [exact ex_described|discriminate]. Qed.

(** ** C101: tables found as dependencies are described like listed ones *)
(** Their columns are those of the catalog, in order. *)
Theorem C101_dependency_columns_partial : forall cat tabs cols idxs fks schemas tables fuel ord tord st' ts x,
  described cat tabs cols idxs fks -> one_fk_per_column fks ->
  (forall a r, requested tabs schemas tables a -> In r (cols (fst a) (snd a)) -> In (fqn3 (fst a) (snd a) (cr_name r)) ord) ->
  list_tables_deps fuel cat new_prov schemas tables ord tord = Some (st', ROk ts) -> Permutation tord (map fst (p_tabs st')) -> In x ts ->
  exists ii, map (nth_error (p_heap st')) (t_cols x) =
    map (fun c => Some (referring fks c)) (sort_by col_by_pos (map (column_of (t_schema x) (t_name x) ii) (cols (t_schema x) (t_name x)))).
Proof.
  intros cat tabs cols idxs fks schemas tables fuel ord tord st' ts x D One Ho E Ht Hx. destruct (deps_ok _ _ _ _ _ _ _ _ _ _ _ _ D One Ho E Ht) as (ts' & ds & Eo & _ & _ & M & _). injection Eo as <-.
  assert (I : In (see st' x) (map (see st') ts)) by (apply in_map; exact Hx). rewrite M in I. eapply Permutation_in in I; [|apply Permutation_sym, sort_perm_by]. apply in_map_iff in I as (v & Ev & Hv). apply in_app_or in Hv as [Hv|Hv].
  - apply in_map_iff in Hv as (r & <- & _). unfold with_refs, expected, see in Ev. cbn [v_schema v_name v_type v_view v_fqn v_columns v_indexes v_pk] in Ev. injection Ev as H1 H2 _ _ _ H3 _ _. unfold seen_columns in H3. rewrite <- H3, H1, H2, map_map. exists (map make_index (idxs (t_schema x) (t_name x))). reflexivity.
  - apply in_map_iff in Hv as ([s t] & <- & _). unfold with_refs, dependency, see in Ev. cbn [v_schema v_name v_type v_view v_fqn v_columns v_indexes v_pk] in Ev. injection Ev as H1 H2 _ _ _ H3 _ _. unfold seen_columns in H3. rewrite <- H3, H1, H2, map_map. exists []. reflexivity.
Qed.
(** Refuted: b has a primary key when it is listed, none (and no indexes and no
    type) when it is found through a. *)
Theorem C101_dependency_refuted : exists st1 x1 st2 ts x2, list_tables ex_c new_prov [] [B "b"] = (st1, ROk [x1]) /\ pk_name (p_heap st1) x1 = B "id" /\ t_type x1 = B "BASE TABLE" /\
  ex_deps = Some (st2, ROk ts) /\ In x2 ts /\ t_fqn x2 = t_fqn x1 /\ pk_name (p_heap st2) x2 = [] /\ t_idx x2 = [] /\ t_type x2 = [].
Proof.
  unfold ex_deps. eexists. eexists. eexists. eexists. eexists. split; [vm_compute; reflexivity|]. split; [vm_compute; reflexivity|]. split; [vm_compute; reflexivity|]. split; [vm_compute; reflexivity|]. split; [right; left; reflexivity|]. repeat split.
Qed.

(** ** C102: the maximum length of a column is that of the catalog *)
Theorem C102_max_length_partial : forall cat tabs cols idxs fks st schemas tables r q n, described cat tabs cols idxs fks -> In r tabs -> wanted schemas tables (tr_schema r) (tr_name r) = true ->
  In q (cols (tr_schema r) (tr_name r)) -> cr_max q = Some n -> 0 <= n < 2 ^ 32 ->
  exists st' ts x id c, list_tables cat st schemas tables = (st', ROk ts) /\ In x ts /\ t_schema x = tr_schema r /\ t_name x = tr_name r /\ In id (t_cols x) /\ nth_error (p_heap st') id = Some c /\ c_name c = cr_name q /\ c_max c = n.
Proof.
  intros cat tabs cols idxs fks st schemas tables r q n D Hr W Hq Em Hn. destruct (list_tables_ok cat tabs cols idxs fks st schemas tables D) as (st' & ts & E & M).
  assert (I : In (expected cols idxs r) (map (see st') ts)). { rewrite M. eapply Permutation_in; [apply sort_perm_by|]. apply in_map. apply filter_In. split; assumption. }
  apply in_map_iff in I as (x & Ex & Hx). unfold see, expected, seen_columns in Ex. injection Ex as H1 H2 _ _ _ H3 _ _. set (s := tr_schema r) in *. set (t := tr_name r) in *. set (ii := map make_index (idxs s t)) in *.
  assert (I : In (Some (column_of s t ii q)) (map (nth_error (p_heap st')) (t_cols x))). { rewrite H3. apply in_map. eapply Permutation_in; [apply sort_perm_by|]. apply in_map. exact Hq. }
  apply in_map_iff in I as (id & Hid & Iid). exists st', ts, x, id, (column_of s t ii q). repeat (split; [assumption|]). split; [reflexivity|]. cbn [column_of make_column c_max]. rewrite Em. cbn [max_length]. apply wrap_u_id. exact Hn.
Qed.
(** No length in the catalog is reported as 0. *)
Theorem C102_no_length_partial : forall cat tabs cols idxs fks st schemas tables r q, described cat tabs cols idxs fks -> In r tabs -> wanted schemas tables (tr_schema r) (tr_name r) = true ->
  In q (cols (tr_schema r) (tr_name r)) -> cr_max q = None ->
  exists st' ts x id c, list_tables cat st schemas tables = (st', ROk ts) /\ In x ts /\ t_schema x = tr_schema r /\ t_name x = tr_name r /\ In id (t_cols x) /\ nth_error (p_heap st') id = Some c /\ c_name c = cr_name q /\ c_max c = 0.
Proof.
  intros cat tabs cols idxs fks st schemas tables r q D Hr W Hq Em. destruct (C99_table_contents cat tabs cols idxs fks st schemas tables r D Hr W) as (st' & ts & x & cs & E & Hx & N1 & N2 & _ & M & (rows & P & F) & _).
  apply Permutation_sym in P. apply (Permutation_in _ P) in Hq. assert (G : exists c, In c cs /\ col_says q c). { clear -F Hq. induction F as [|a c rows cs H F IH]; [destruct Hq|]. destruct Hq as [->|Hq]; [exists c; split; [left; reflexivity|exact H]|]. destruct (IH Hq) as (c' & I & S). exists c'. split; [right; exact I|exact S]. }
  destruct G as (c & Ic & (Sn & _ & _ & _ & _ & Sm & _)). apply (in_map Some) in Ic. rewrite <- M in Ic. apply in_map_iff in Ic. destruct Ic as (id & Eid & Iid). exists st', ts, x, id, c. repeat (split; [assumption|]). exact (Sm Em).
Qed.
(** Refuted: SQL Server reports -1 for nvarchar(max). *)
Theorem C102_unlimited_refuted : exists cat st' x c, delivers (cat_columns cat (B "dbo") (B "t")) [mkCR (B "note") (B "nvarchar") (B "nvarchar") (B "YES") (Some (-1)) 1] /\
  list_tables cat new_prov [] [] = (st', ROk [x]) /\ seen_columns st' x = [Some c] /\ c_max c = 4294967295.
Proof.
  exists (mkCat (ex_src [mkTR (B "dbo") (B "t") (B "U")]) (ex_src []) (fun _ _ => ex_src [mkCR (B "note") (B "nvarchar") (B "nvarchar") (B "YES") (Some (-1)) 1]) (fun _ _ => ex_src []) (ex_src [])).
  eexists. eexists. eexists. split; [reflexivity|]. split; [vm_compute; reflexivity|]. split; [vm_compute; reflexivity|]. reflexivity.
Qed.
Example C102_max_length_partial_ex : max_length (Some 64) = 64 /\ max_length None = 0.
Proof. split; reflexivity. Qed.

(** ** C103: the column query asks for the named table *)
(** [q] compares the schema with the string [s] and the table with [t]. *)
Definition asks_for (q pre mid post s t : bytes) : Prop :=
  exists r1 r2 r3, q = pre ++ r1 /\ sql_string r1 = Some (s, r2) /\ r2 = mid ++ r3 /\ sql_string r3 = Some (t, post).
Theorem C103_postgres_partial : forall s t, ~ In (ch 39) s -> ~ In (ch 39) t ->
  asks_for (pg_columns_query s t) (B "
	SELECT column_name, data_type, udt_name, is_nullable, character_maximum_length, ordinal_position 
  	FROM information_schema.columns
 	WHERE table_schema = '") (B "
   	AND table_name = '") (B ";
") s t.
Proof.
  intros s t Hs Ht. eexists. eexists. eexists. split; [reflexivity|]. split; [exact (sql_string_plain s (B "
   	AND table_name = '" ++ t ++ B "';
") Hs ltac:(discriminate))|]. split; [reflexivity|]. exact (sql_string_plain t (B ";
") Ht ltac:(discriminate)).
Qed.
Theorem C103_sqlserver_partial : forall s t, ~ In (ch 39) s -> ~ In (ch 39) t ->
  asks_for (mssql_columns_query s t) (B "
	SELECT COLUMN_NAME, DATA_TYPE, DATA_TYPE, IS_NULLABLE, CHARACTER_MAXIMUM_LENGTH, ORDINAL_POSITION FROM INFORMATION_SCHEMA.COLUMNS WHERE TABLE_SCHEMA=N'") (B " AND TABLE_NAME = N'") [] s t.
Proof.
  intros s t Hs Ht. eexists. eexists. eexists. split; [reflexivity|]. split; [exact (sql_string_plain s (B " AND TABLE_NAME = N'" ++ t ++ B "'") Hs ltac:(discriminate))|]. split; [reflexivity|]. exact (sql_string_plain t [] Ht ltac:(discriminate)).
Qed.
(** Refuted: names are pasted between quotes; a table name with a quote ends
    the string and continues the statement. *)
Theorem C103_quote_refuted : exists t, forall pre mid post, asks_for (pg_columns_query (B "public") t) pre mid post (B "public") t ->
  ~ (pre = B "
	SELECT column_name, data_type, udt_name, is_nullable, character_maximum_length, ordinal_position 
  	FROM information_schema.columns
 	WHERE table_schema = '" /\ mid = B "
   	AND table_name = '").
Proof.
  exists (B "x' OR 'a'='a"). intros pre mid post (r1 & r2 & r3 & E1 & E2 & E3 & E4) [-> ->]. apply app_inv_head in E1. subst r1. vm_compute in E2. injection E2 as E2. rewrite E3 in E2. vm_compute in E2. injection E2 as <-. vm_compute in E4. discriminate.
Qed.
Example C103_postgres_partial_ex : ~ In (ch 39) (B "public") /\ ~ In (ch 39) (B "order").
Proof. split; cbn; intuition congruence. Qed.

(** ** C104: statements started from a TableInfo *)
(** A name without blanks, backslashes and question marks. *)
Definition plain_name (s : bytes) : Prop := s <> [] /\ Forall (fun c => c <> c_qm /\ c <> c_bs /\ in_set sql_ws c = false) s.
Lemma plain_no_qm s : plain_name s -> no_qm s.
Proof. intros [_ F] X. rewrite Forall_forall in F. exact (proj1 (F _ X) eq_refl). Qed.
Lemma plain_no_bs s : plain_name s -> ends_bs s = false.
Proof.
  intros [_ F]. unfold ends_bs, has_suffix. cbn [rev app]. destruct (rev s) as [|c r] eqn:E; [reflexivity|]. cbn [has_prefix]. destruct (ascii_dec c_bs c) as [<-|]; [|reflexivity]. exfalso. rewrite Forall_forall in F. assert (In c_bs s) by (apply in_rev; rewrite E; left; reflexivity). exact (proj1 (proj2 (F _ H)) eq_refl).
Qed.
Lemma plain_frag s : plain_name s -> pg_fragment s [] = true.
Proof. intros H. apply pg_fragment_iff. split; [apply placeholders_noqm, plain_no_qm, H|]. split; [intros _; apply plain_no_qm, H|apply plain_no_bs, H]. Qed.
Lemma plain_last s : plain_name s -> exists r c, s = r ++ [c] /\ in_set sql_ws c = false.
Proof. intros [N F]. destruct (exists_last N) as (r & c & ->). exists r, c. split; [reflexivity|]. rewrite Forall_forall in F. apply F. apply in_or_app. right. left. reflexivity. Qed.
Lemma frag_join l : Forall plain_name l -> pg_fragment (join (B ", ") l) [] = true.
Proof. intros F. apply pg_frag_join; [reflexivity|]. eapply Forall_impl; [|exact F]. exact plain_frag. Qed.
(** Select() names every column of the table, in order, and nothing else. *)
Theorem C104_select : forall r did d t, clean r -> d_cache d = [] -> d_nl d = false -> plain_name (ti_fqn t) -> ti_columns t <> [] -> Forall plain_name (ti_columns t) -> ti_all t = [] ->
  observe r did d (KFrom (ti_fqn t) []) [CSelect (snd (select_expr t [])) []] = Some (B "SELECT " ++ join (B ", ") (ti_columns t) ++ B " FROM " ++ ti_fqn t, [], []).
Proof.
  intros r did d t Hr Hc Hnl Pf Nc Pc Ha. cbn [select_expr]. unfold all_columns. rewrite Ha. cbn [is_empty snd]. set (e := join (B ", ") (ti_columns t)).
  assert (Ne : is_empty e = false). { unfold e. destruct (ti_columns t) as [|c [|c2 l]]; [congruence| |]; inversion Pc as [|? ? [N _] _]; subst; destruct c; try congruence; reflexivity. }
  assert (Nf : is_empty (ti_fqn t) = false) by (destruct Pf as [N _]; destruct (ti_fqn t); [congruence|reflexivity]).
  assert (Fe : pg_fragment e [] = true) by (apply frag_join; exact Pc). pose proof (plain_frag _ Pf) as Ff.
  assert (T : trim sql_ws (B "SELECT " ++ e ++ B " FROM " ++ ti_fqn t) = B "SELECT " ++ e ++ B " FROM " ++ ti_fqn t).
  { pose proof (trim_bare sql_ws [] (B "SELECT " ++ e ++ B " FROM " ++ ti_fqn t) [] (Forall_nil _) (Forall_nil _)) as H. cbn [app] in H. rewrite app_nil_r in H. apply H. right. split; [eexists; eexists; split; [reflexivity|reflexivity]|].
    destruct (plain_last _ Pf) as (y & c & -> & Hl). exists (B "SELECT " ++ e ++ B " FROM " ++ y), c. split; [rewrite <- !app_assoc; reflexivity|exact Hl]. }
  rewrite (user_observe r did d (KFrom (ti_fqn t) []) (CFrom (ti_fqn t) []) [CSelect e []] Hr Hc eq_refl).
  - change (user_text d) with (fun l => numbered d (user_sql (d_nl d) l)). cbv beta. rewrite Hnl. assert (U : user_sql false [CFrom (ti_fqn t) []; CSelect e []] = B "SELECT " ++ e ++ B " FROM " ++ ti_fqn t).
    { unfold user_sql. rewrite <- T. reflexivity. }
    rewrite U. unfold numbered. destruct (is_pg d); [|reflexivity]. rewrite pg_number_noqm; [reflexivity|]. intros X. apply in_app_or in X as [X|X]; [cbn in X; intuition discriminate|]. apply in_app_or in X as [X|X]; [apply pg_fragment_iff in Fe; exact (proj1 (proj2 Fe) eq_refl X)|]. apply in_app_or in X as [X|X]; [cbn in X; intuition discriminate|exact (plain_no_qm _ Pf X)].
  - cbn [forallb dml_call is_update]. rewrite Ne, Nf. reflexivity.
  - unfold renderable. cbn [pg_ready_ctor forallb pg_ready]. rewrite Ff, Fe. apply orb_true_r.
Qed.
(** Select(cols) names these columns, in order, and nothing else. *)
Theorem C104_select_named : forall r did d t cols, clean r -> d_cache d = [] -> d_nl d = false -> plain_name (ti_fqn t) -> cols <> [] -> Forall plain_name cols ->
  observe r did d (KFrom (ti_fqn t) []) [CSelect (snd (select_expr t cols)) []] = Some (B "SELECT " ++ join (B ",") cols ++ B " FROM " ++ ti_fqn t, [], []).
Proof.
  intros r did d t cols Hr Hc Hnl Pf Nc Pc. replace (snd (select_expr t cols)) with (join (B ",") cols) by (destruct cols; [congruence|reflexivity]). set (e := join (B ",") cols).
  assert (Ne : is_empty e = false). { unfold e. destruct cols as [|c [|c2 l]]; [congruence| |]; inversion Pc as [|? ? [N _] _]; subst; destruct c; try congruence; reflexivity. }
  assert (Nf : is_empty (ti_fqn t) = false) by (destruct Pf as [N _]; destruct (ti_fqn t); [congruence|reflexivity]).
  assert (Fe : pg_fragment e [] = true) by (apply pg_frag_join; [reflexivity|]; eapply Forall_impl; [|exact Pc]; exact plain_frag). pose proof (plain_frag _ Pf) as Ff.
  assert (T : trim sql_ws (B "SELECT " ++ e ++ B " FROM " ++ ti_fqn t) = B "SELECT " ++ e ++ B " FROM " ++ ti_fqn t).
  { pose proof (trim_bare sql_ws [] (B "SELECT " ++ e ++ B " FROM " ++ ti_fqn t) [] (Forall_nil _) (Forall_nil _)) as H. cbn [app] in H. rewrite app_nil_r in H. apply H. right. split; [eexists; eexists; split; [reflexivity|reflexivity]|].
    destruct (plain_last _ Pf) as (y & c & -> & Hl). exists (B "SELECT " ++ e ++ B " FROM " ++ y), c. split; [rewrite <- !app_assoc; reflexivity|exact Hl]. }
  rewrite (user_observe r did d (KFrom (ti_fqn t) []) (CFrom (ti_fqn t) []) [CSelect e []] Hr Hc eq_refl).
  - change (user_text d) with (fun l => numbered d (user_sql (d_nl d) l)). cbv beta. rewrite Hnl. assert (U : user_sql false [CFrom (ti_fqn t) []; CSelect e []] = B "SELECT " ++ e ++ B " FROM " ++ ti_fqn t).
    { unfold user_sql. rewrite <- T. reflexivity. }
    rewrite U. unfold numbered. destruct (is_pg d); [|reflexivity]. rewrite pg_number_noqm; [reflexivity|]. intros X. apply in_app_or in X as [X|X]; [cbn in X; intuition discriminate|]. apply in_app_or in X as [X|X]; [apply pg_fragment_iff in Fe; exact (proj1 (proj2 Fe) eq_refl X)|]. apply in_app_or in X as [X|X]; [cbn in X; intuition discriminate|exact (plain_no_qm _ Pf X)].
  - cbn [forallb dml_call is_update]. rewrite Ne, Nf. reflexivity.
  - unfold renderable. cbn [pg_ready_ctor forallb pg_ready]. rewrite Ff, Fe. apply orb_true_r.
Qed.
Example C104_select_ex : clean new_stmt /\ plain_name (ti_fqn ex_ti) /\ Forall plain_name (ti_columns ex_ti) /\
  observe new_stmt 1 (mkDialect (B "postgres") [] false) (KFrom (ti_fqn ex_ti) []) [CSelect (snd (select_expr ex_ti [])) []] = Some (B "SELECT id, name, at FROM s.t", [], []).
Proof.
  assert (P : forall s, s <> [] -> forallb (fun c => negb (if ascii_dec c c_qm then true else false) && negb (if ascii_dec c c_bs then true else false) && negb (in_set sql_ws c)) s = true -> plain_name s).
  { intros s N H. split; [exact N|]. apply Forall_forall. intros c Hc. rewrite forallb_forall in H. specialize (H c Hc). rewrite !andb_true_iff, !negb_true_iff in H. destruct H as [[H1 H2] H3]. destruct (ascii_dec c c_qm); [discriminate|]. destruct (ascii_dec c c_bs); [discriminate|]. repeat split; assumption. }
  split; [repeat split|]. split; [apply P; [discriminate|reflexivity]|]. split; [repeat apply Forall_cons; try apply Forall_nil; apply P; try discriminate; reflexivity|]. vm_compute. reflexivity.
Qed.

(** SelectAliased(prefix, nulls): the aliased columns in order, the columns to
    be NULL-ed replaced, from the table under its alias. *)
Lemma plain_app a b : plain_name a -> plain_name b -> plain_name (a ++ b).
Proof. intros [N A] [_ C]. split; [intro E; apply app_eq_nil in E as [E _]; contradiction|]. apply Forall_app; split; assumption. Qed.
Lemma from_select r did d f e : clean r -> d_cache d = [] -> d_nl d = false -> is_empty e = false -> is_empty f = false ->
  pg_fragment e [] = true -> pg_fragment f [] = true -> (exists y c, f = y ++ [c] /\ in_set sql_ws c = false) ->
  observe r did d (KFrom f []) [CSelect e []] = Some (B "SELECT " ++ e ++ B " FROM " ++ f, [], []).
Proof.
  intros Hr Hc Hnl Ne Nf Fe Ff HL.
  assert (T : trim sql_ws (B "SELECT " ++ e ++ B " FROM " ++ f) = B "SELECT " ++ e ++ B " FROM " ++ f).
  { pose proof (trim_bare sql_ws [] (B "SELECT " ++ e ++ B " FROM " ++ f) [] (Forall_nil _) (Forall_nil _)) as H. cbn [app] in H. rewrite app_nil_r in H. apply H. right. split; [eexists; eexists; split; [reflexivity|reflexivity]|].
    destruct HL as (y & c & -> & Hl). exists (B "SELECT " ++ e ++ B " FROM " ++ y), c. split; [rewrite <- !app_assoc; reflexivity|exact Hl]. }
  rewrite (user_observe r did d (KFrom f []) (CFrom f []) [CSelect e []] Hr Hc eq_refl).
  - change (user_text d) with (fun l => numbered d (user_sql (d_nl d) l)). cbv beta. rewrite Hnl. assert (U : user_sql false [CFrom f []; CSelect e []] = B "SELECT " ++ e ++ B " FROM " ++ f).
    { unfold user_sql. rewrite <- T. reflexivity. }
    rewrite U. unfold numbered. destruct (is_pg d); [|reflexivity]. rewrite pg_number_noqm; [reflexivity|]. intros X. apply in_app_or in X as [X|X]; [cbn in X; intuition discriminate|]. apply in_app_or in X as [X|X]; [apply pg_fragment_iff in Fe; exact (proj1 (proj2 Fe) eq_refl X)|]. apply in_app_or in X as [X|X]; [cbn in X; intuition discriminate|apply pg_fragment_iff in Ff; exact (proj1 (proj2 Ff) eq_refl X)].
  - cbn [forallb dml_call is_update]. rewrite Ne, Nf. reflexivity.
  - unfold renderable. cbn [pg_ready_ctor forallb pg_ready]. rewrite Ff, Fe. apply orb_true_r.
Qed.
Theorem C104_select_aliased : forall r did d t prefix nulls, clean r -> d_cache d = [] -> d_nl d = false -> plain_name (ti_fqn t) -> prefix = [] \/ plain_name prefix ->
  ti_columns t <> [] -> Forall plain_name (ti_columns t) ->
  observe r did d (KFrom (aliased_from t prefix) []) [CSelect (aliased_columns t prefix nulls) []] =
  Some (B "SELECT " ++ join (B ", ") (map (fun c => if nulls c then B "NULL" else match prefix with [] => c | _ => prefix ++ B "." ++ c end) (ti_columns t))
        ++ B " FROM " ++ ti_fqn t ++ match prefix with [] => [] | _ => B " " ++ prefix end, [], []).
Proof.
  intros r did d t prefix nulls Hr Hc Hnl Pf Pp Nc Pc.
  set (g := fun c => if nulls c then B "NULL" else match prefix with [] => c | _ => prefix ++ B "." ++ c end).
  assert (PN : plain_name (B "NULL")) by (split; [discriminate|]; repeat constructor; try discriminate; reflexivity).
  assert (PD : plain_name (B ".")) by (split; [discriminate|]; repeat constructor; try discriminate; reflexivity).
  assert (EA : aliased_columns t prefix nulls = join (B ", ") (map g (ti_columns t))).
  { unfold aliased_columns. f_equal. apply map_ext. intros c. unfold g. destruct (nulls c); [reflexivity|]. destruct prefix; reflexivity. }
  assert (PG : Forall plain_name (map g (ti_columns t))).
  { rewrite Forall_map. eapply Forall_impl; [|exact Pc]. intros c Hp. unfold g. destruct (nulls c); [exact PN|]. destruct Pp as [->|Pp]; [exact Hp|].
    destruct prefix as [|x p]; [exact Hp|]. apply plain_app; [exact Pp|]. apply plain_app; [exact PD|exact Hp]. }
  rewrite EA. replace (ti_fqn t ++ match prefix with [] => [] | _ => B " " ++ prefix end) with (aliased_from t prefix).
  2: { unfold aliased_from. destruct prefix; [cbn [is_empty]; rewrite app_nil_r; reflexivity|reflexivity]. }
  apply from_select; try assumption.
  - destruct (ti_columns t) as [|c [|c2 l]]; [congruence| |]; cbn [map] in PG |- *; inversion PG as [|? ? [N _] _]; subst; destruct (g c); try congruence; reflexivity.
  - unfold aliased_from. destruct Pf as [N _]. destruct (ti_fqn t); [congruence|]. destruct (is_empty prefix); reflexivity.
  - apply frag_join. exact PG.
  - unfold aliased_from. destruct Pp as [->|Pp]; [cbn [is_empty]; apply plain_frag; exact Pf|]. destruct (is_empty prefix); [apply plain_frag; exact Pf|].
    change (ti_fqn t ++ B " " ++ prefix) with (join (B " ") [ti_fqn t; prefix]). apply pg_frag_join; [reflexivity|]. repeat constructor; apply plain_frag; assumption.
  - unfold aliased_from. destruct Pp as [->|Pp]; [cbn [is_empty]; apply plain_last; exact Pf|]. destruct (is_empty prefix); [apply plain_last; exact Pf|].
    destruct (plain_last _ Pp) as (y & c & -> & Hl). exists (ti_fqn t ++ B " " ++ y), c. split; [rewrite <- !app_assoc; reflexivity|exact Hl].
Qed.
Example C104_select_aliased_ex : observe new_stmt 1 (mkDialect (B "postgres") [] false) (KFrom (aliased_from ex_ti (B "a")) []) [CSelect (aliased_columns ex_ti (B "a") (beqb (B "name"))) []] =
  Some (B "SELECT a.id, NULL, a.at FROM s.t a", [], []).
Proof. vm_compute. reflexivity. Qed.

(** ** C165 *)
Definition tag_opts (c : column) : list bytes :=
  (if 0 <? c_max c then [B "max:" ++ fmt_uint 10 (c_max c)] else []) ++ (if c_null c then [B "null"] else []) ++
  (if is_index c then B "index" :: (if is_primary c then [B "primary"] else []) else []) ++
  match c_ref c with Some k => [B "fk:" ++ ref_column k] | None => [] end.
Definition db_type (c : column) : bytes := if is_empty (c_udt c) then c_type c else c_udt c.
Lemma tag_shape c : tag c = B "db:""" ++ (c_name c ++ flat_map (fun o => ch 44 :: o) (db_type c :: tag_opts c)) ++ ch 34 :: B " json:"",omitempty""".
Proof.
  unfold tag, tag_opts, db_type. cbn [flat_map]. rewrite !flat_map_app. rewrite <- !app_assoc. cbn [app].
  change (B "," ++ ?x) with (ch 44 :: x). do 2 f_equal. f_equal.
  destruct (0 <? c_max c), (c_null c), (is_index c), (is_primary c), (c_ref c); cbn [flat_map app]; rewrite ?app_nil_r, <- ?app_assoc; reflexivity.
Qed.
Lemma split_items w l : ~ In (ch 44) w -> Forall (fun o => ~ In (ch 44) o) l -> split_on (ch 44) (w ++ flat_map (fun o => ch 44 :: o) l) = w :: l.
Proof.
  revert w. induction l as [|o l IH]; intros w Hw H; cbn [flat_map]; [rewrite app_nil_r; apply split_on_word, Hw|].
  inversion H; subst. cbn [app]. rewrite split_on_cons by exact Hw. now rewrite IH.
Qed.
Lemma db_value_unique t v v' : db_value t v -> db_value t v' -> v = v'.
Proof.
  intros (r & -> & H & _) (r' & E & H' & _). apply app_inv_head in E. revert v' H' E. induction v as [|a v IH]; intros [|b v'] H' E; cbn in E.
  - reflexivity.
  - injection E as <- _. exfalso. apply H'. now left.
  - injection E as -> _. exfalso. apply H. now left.
  - injection E as <- E. f_equal. apply IH; [intros X; apply H; now right|intros X; apply H'; now right|exact E].
Qed.
Lemma fmt_not n x : 0 <= n -> In x (fmt_uint 10 n) -> 48 <= Z.of_nat (nat_of_ascii x) <= 57.
Proof.
  intros Hn Hx. pose proof (fmt_uint_chars 10 n ltac:(lia) Hn) as H. rewrite Forall_forall in H. destruct (H x Hx) as (d & Hd & ->).
  assert (D : d = 0 \/ d = 1 \/ d = 2 \/ d = 3 \/ d = 4 \/ d = 5 \/ d = 6 \/ d = 7 \/ d = 8 \/ d = 9) by lia.
  repeat destruct D as [->|D]; try (vm_compute; split; discriminate). subst. vm_compute; split; discriminate.
Qed.

Lemma tag_lit o : forallb (fun c => negb (in_set [ch 34; ch 92; ch 44] c)) o = true -> taggable o.
Proof. intros H c Hc X. rewrite forallb_forall in H. specialize (H c Hc). rewrite negb_true_iff in H. unfold in_set in H. apply not_true_iff_false in H. apply H. apply existsb_exists. exists c. split; [exact X|]. destruct (ascii_dec c c); congruence. Qed.
Lemma taggable_app a b : taggable a -> taggable b -> taggable (a ++ b).
Proof. intros Ha Hb c Hc. apply in_app_iff in Hc as [Hc|Hc]; auto. Qed.
Lemma taggable_fmt n : 0 <= n -> taggable (fmt_uint 10 n).
Proof. intros Hn c Hc X. apply fmt_not in Hc; [|exact Hn]. cbn [In] in X. repeat destruct X as [<-|X]; try (vm_compute in Hc; destruct Hc; congruence); try contradiction. Qed.
Lemma tag_opts_taggable c : (forall k, c_ref c = Some k -> taggable (k_rschema k) /\ taggable (k_rtable k) /\ taggable (k_rcolumn k)) -> Forall taggable (tag_opts c).
Proof.
  intros Hk. unfold tag_opts. rewrite !Forall_app. repeat split.
  - destruct (0 <? c_max c) eqn:E; constructor; [|constructor]. apply taggable_app; [apply tag_lit; reflexivity|apply taggable_fmt; lia].
  - destruct (c_null c); constructor; [apply tag_lit; reflexivity|constructor].
  - destruct (is_index c); [|constructor]. constructor; [apply tag_lit; reflexivity|]. destruct (is_primary c); constructor; [apply tag_lit; reflexivity|constructor].
  - destruct (c_ref c) as [k|]; [|constructor]. constructor; [|constructor]. destruct (Hk k eq_refl) as (A1 & A2 & A3). unfold ref_column, fqn3.
    repeat apply taggable_app; try assumption; apply tag_lit; reflexivity.
Qed.

(** C165: the value under db lists the name, the type of the database and the
    options that hold, no other. *)
Theorem C165_tag_partial : forall c ty, (c_udt c <> [] -> ty = c_udt c) -> (c_udt c = [] -> ty = c_type c) -> taggable (c_name c) -> taggable ty ->
  (forall k, c_ref c = Some k -> taggable (k_rschema k) /\ taggable (k_rtable k) /\ taggable (k_rcolumn k)) ->
  exists v opts, db_value (tag c) v /\ (forall v', db_value (tag c) v' -> v' = v) /\ split_on (ch 44) v = c_name c :: ty :: opts /\ NoDup opts /\
    forall o, In o opts <->
      (0 < c_max c /\ o = B "max:" ++ fmt_uint 10 (c_max c)) \/ (c_null c = true /\ o = B "null") \/ (c_idx c <> [] /\ o = B "index") \/
      ((exists ix, In ix (c_idx c) /\ ix_primary ix = true) /\ o = B "primary") \/
      (exists k, c_ref c = Some k /\ o = B "fk:" ++ k_rschema k ++ B "." ++ k_rtable k ++ B "." ++ k_rcolumn k).
Proof.
  intros c ty U1 U2 Tn Tt Tk.
  assert (Ety : ty = db_type c). { unfold db_type. destruct (c_udt c); cbn [is_empty]; [now apply U2|apply U1; discriminate]. }
  subst ty. pose proof (tag_opts_taggable c Tk) as To.
  assert (Na : forall o a, taggable o -> In a [ch 34; ch 92; ch 44] -> ~ In a o) by (intros o a H Ha X; exact (H a X Ha)).
  set (v := c_name c ++ flat_map (fun o => ch 44 :: o) (db_type c :: tag_opts c)).
  assert (Nv : forall a, In a [ch 34; ch 92] -> ~ In a v).
  { intros a Ha X. unfold v in X. apply in_app_iff in X as [X|X]; [revert X; apply Na; [exact Tn|cbn in *; tauto]|].
    apply in_flat_map in X as (o & Ho & [X|X]); [subst a; cbn in Ha; destruct Ha as [Ha|[Ha|[]]]; discriminate Ha|].
    revert X. apply Na; [|cbn in *; tauto]. destruct Ho as [<-|Ho]; [exact Tt|]. rewrite Forall_forall in To. auto. }
  assert (Dv : db_value (tag c) v). { exists (B " json:"",omitempty"""). split; [apply tag_shape|]. split; apply Nv; cbn; auto. }
  exists v, (tag_opts c). split; [exact Dv|]. split; [intros v' H; eapply db_value_unique; eassumption|].
  split. { unfold v. apply split_items; [apply Na; [exact Tn|cbn; auto]|]. constructor; [apply Na; [exact Tt|cbn; auto]|]. eapply Forall_impl; [|exact To]. intros o Ho. apply Na; [exact Ho|cbn; auto]. }
  split.
  { unfold tag_opts. destruct (0 <? c_max c), (c_null c), (is_index c), (is_primary c), (c_ref c); cbn [app]; repeat constructor; cbn [In app B list_ascii_of_string]; intuition discriminate. }
  intros o. unfold tag_opts. rewrite !in_app_iff.
  assert (P : is_primary c = true <-> exists ix, In ix (c_idx c) /\ ix_primary ix = true) by apply existsb_exists.
  assert (I : is_index c = true <-> c_idx c <> []). { unfold is_index. destruct (c_idx c); cbn; split; intros; try congruence; discriminate. }
  assert (PI : is_primary c = true -> is_index c = true). { intros X. apply I. apply P in X as (ix & X & _). intros E. now rewrite E in X. }
  assert (S1 : In o (if 0 <? c_max c then [B "max:" ++ fmt_uint 10 (c_max c)] else []) <-> 0 < c_max c /\ o = B "max:" ++ fmt_uint 10 (c_max c)).
  { destruct (0 <? c_max c) eqn:E; cbn [In]; split; intros H; [destruct H as [<-|[]]; split; [lia|reflexivity]|left; now symmetry|contradiction|lia]. }
  assert (S2 : In o (if c_null c then [B "null"] else []) <-> c_null c = true /\ o = B "null").
  { destruct (c_null c); cbn [In]; split; intros H; [destruct H as [<-|[]]; auto|left; now symmetry|contradiction|destruct H; discriminate]. }
  assert (S3 : In o (if is_index c then B "index" :: (if is_primary c then [B "primary"] else []) else []) <-> (c_idx c <> [] /\ o = B "index") \/ ((exists ix, In ix (c_idx c) /\ ix_primary ix = true) /\ o = B "primary")).
  { rewrite <- P, <- I. destruct (is_index c) eqn:E1, (is_primary c) eqn:E2; cbn [In]; try (specialize (PI eq_refl); discriminate); split; intros H.
    - destruct H as [<-|[<-|[]]]; auto. - destruct H as [[_ ->]|[_ ->]]; auto. - destruct H as [<-|[]]; auto. - destruct H as [[_ ->]|[X _]]; [auto|discriminate]. - contradiction. - destruct H as [[X _]|[X _]]; discriminate. }
  assert (S4 : In o (match c_ref c with Some k => [B "fk:" ++ ref_column k] | None => [] end) <-> exists k, c_ref c = Some k /\ o = B "fk:" ++ k_rschema k ++ B "." ++ k_rtable k ++ B "." ++ k_rcolumn k).
  { destruct (c_ref c) as [k|]; cbn [In]; split; intros H.
    - destruct H as [<-|[]]. exists k. split; reflexivity. - destruct H as (k' & [= <-] & ->). left. reflexivity. - contradiction. - destruct H as (k & X & _). discriminate. }
  rewrite S1, S2, S3, S4. tauto.
Qed.
Definition ex_tagged : column := mkCol (B "team_id") (B "bigint") (B "int8") true 64 2 (B "public.user.team_id") (Some (ex_fk "user" "team_id" "team")) [mkIx (B "i") false false [B "team_id"]].
Example C165_tag_ex : taggable (c_name ex_tagged) /\ taggable (c_udt ex_tagged) /\ tag ex_tagged = B "db:""team_id,int8,max:64,null,index,fk:public.team.id"" json:"",omitempty""".
Proof. split; [apply tag_lit; reflexivity|]. split; [apply tag_lit; reflexivity|]. vm_compute. reflexivity. Qed.

(** With commas in names the tag does not tell two columns apart. *)
Theorem C165_comma_refuted : exists c1 c2, c_name c1 <> c_name c2 /\ c_null c1 <> c_null c2 /\ tag c1 = tag c2.
Proof.
  exists (mkCol (B "a") (B "int4") [] true 0 1 [] None []), (mkCol (B "a,int4") (B "null") [] false 0 1 [] None []).
  split; [discriminate|]. split; [discriminate|]. vm_compute. reflexivity.
Qed.

(** ** Exact statements of what holds of refuted properties *)
(** C102: the length of the catalog modulo 2^32, so itself exactly when it fits a uint32. *)
Theorem C102_exact_partial : forall cat tabs cols idxs fks st schemas tables r q n, described cat tabs cols idxs fks -> In r tabs -> wanted schemas tables (tr_schema r) (tr_name r) = true ->
  In q (cols (tr_schema r) (tr_name r)) -> cr_max q = Some n ->
  exists st' ts x id c, list_tables cat st schemas tables = (st', ROk ts) /\ In x ts /\ t_schema x = tr_schema r /\ t_name x = tr_name r /\ In id (t_cols x) /\ nth_error (p_heap st') id = Some c /\ c_name c = cr_name q /\
    0 <= c_max c < 2 ^ 32 /\ (c_max c - n) mod 2 ^ 32 = 0 /\ (c_max c = n <-> 0 <= n < 2 ^ 32).
Proof.
  intros cat tabs cols idxs fks st schemas tables r q n D Hr W Hq Em. destruct (list_tables_ok cat tabs cols idxs fks st schemas tables D) as (st' & ts & E & M).
  assert (I : In (expected cols idxs r) (map (see st') ts)). { rewrite M. eapply Permutation_in; [apply sort_perm_by|]. apply in_map. apply filter_In. split; assumption. }
  apply in_map_iff in I as (x & Ex & Hx). unfold see, expected, seen_columns in Ex. injection Ex as H1 H2 _ _ _ H3 _ _. set (s := tr_schema r) in *. set (t := tr_name r) in *. set (ii := map make_index (idxs s t)) in *.
  assert (I : In (Some (column_of s t ii q)) (map (nth_error (p_heap st')) (t_cols x))). { rewrite H3. apply in_map. eapply Permutation_in; [apply sort_perm_by|]. apply in_map. exact Hq. }
  apply in_map_iff in I as (id & Hid & Iid). exists st', ts, x, id, (column_of s t ii q). repeat (split; [assumption|]). split; [reflexivity|]. cbn [column_of make_column c_max]. rewrite Em. cbn [max_length]. pose proof (wrap_u_range 32 n ltac:(lia)) as R. split; [exact R|]. split.
  - unfold u32, wrap_u. rewrite Zminus_mod, Zmod_mod, Z.sub_diag. reflexivity.
  - split; [intros <-; exact R|intros H; apply wrap_u_id; exact H].
Qed.
(** C103: the query asks for the named table exactly when neither name has a quote. *)
Lemma sql_string_more rest : (forall r, rest <> ch 39 :: r) -> forall n s, (length s <= n)%nat -> forall m v z, sql_string (s ++ ch 39 :: rest) = Some (v, z) -> v <> repeat (ch 39) (S m) ++ s.
Proof.
  intros Hr. induction n as [|n IH]; intros s L m v z E X.
  - destruct s; [|cbn in L; lia]. cbn [app sql_string] in E. destruct (ascii_dec (ch 39) (ch 39)); [|congruence]. destruct rest as [|d rest]; [injection E as <- _; discriminate X|]. destruct (ascii_dec d (ch 39)) as [->|]; [exact (Hr rest eq_refl)|injection E as <- _; discriminate X].
  - destruct s as [|c s].
    + cbn [app sql_string] in E. destruct (ascii_dec (ch 39) (ch 39)); [|congruence]. destruct rest as [|d rest]; [injection E as <- _; discriminate X|]. destruct (ascii_dec d (ch 39)) as [->|]; [exact (Hr rest eq_refl)|injection E as <- _; discriminate X].
    + cbn [app sql_string] in E. destruct (ascii_dec c (ch 39)) as [->|Nc].
      * destruct s as [|d s]; cbn [app] in E.
        -- destruct (ascii_dec (ch 39) (ch 39)); [|congruence]. destruct (sql_string rest) as [[v' z']|] eqn:R; [|discriminate]. injection E as <- _. cbn [repeat app] in X. injection X as X.
           assert (Y : exists w, v' = ch 39 :: w). { rewrite X. destruct m; [exists []; reflexivity|exists (repeat (ch 39) m ++ [ch 39]); reflexivity]. } destruct Y as [w ->].
           destruct rest as [|d rest]; [discriminate R|]. cbn [sql_string] in R. destruct (ascii_dec d (ch 39)) as [->|Nd]; [exact (Hr rest eq_refl)|]. destruct (sql_string rest) as [[v2 z2]|]; [|discriminate]. injection R as R _. exact (Nd R).
        -- destruct (ascii_dec d (ch 39)) as [->|Nd]; [|injection E as <- _; discriminate X]. destruct (sql_string (s ++ ch 39 :: rest)) as [[v' z']|] eqn:R; [|discriminate]. injection E as <- _. cbn [repeat app] in X. injection X as X.
           apply (IH s ltac:(cbn in L; lia) (S m) v' z' R). rewrite X. clear. induction m as [|m IHm]; [reflexivity|]. cbn [repeat app] in *. rewrite IHm. reflexivity.
      * destruct (sql_string (s ++ ch 39 :: rest)) as [[v' z']|]; [|discriminate]. injection E as <- _. cbn [repeat app] in X. injection X as X _. exact (Nc X).
Qed.
Lemma sql_string_self rest : (forall r, rest <> ch 39 :: r) -> forall s z, sql_string (s ++ ch 39 :: rest) = Some (s, z) -> ~ In (ch 39) s /\ z = rest.
Proof.
  intros Hr. assert (G : forall s z, sql_string (s ++ ch 39 :: rest) = Some (s, z) -> ~ In (ch 39) s).
  { induction s as [|c s IH]; intros z E; [intros []|]. cbn [app sql_string] in E. destruct (ascii_dec c (ch 39)) as [->|Nc].
    - exfalso. destruct s as [|d s]; cbn [app] in E.
      + destruct (ascii_dec (ch 39) (ch 39)); [|congruence]. destruct rest as [|d rest]; [discriminate E|]. cbn [sql_string] in E. destruct (ascii_dec d (ch 39)) as [->|]; [exact (Hr rest eq_refl)|]. destruct (sql_string rest) as [[? ?]|]; discriminate E.
      + destruct (ascii_dec d (ch 39)) as [->|]; [|discriminate E]. destruct (sql_string (s ++ ch 39 :: rest)) as [[v' z']|] eqn:R; [|discriminate]. injection E as -> _. exact (sql_string_more rest Hr (length s) s (Nat.le_refl _) O _ _ R eq_refl).
    - destruct (sql_string (s ++ ch 39 :: rest)) as [[v' z']|] eqn:R; [|discriminate]. injection E as -> _. intros [X|X]; [exact (Nc X)|exact (IH z' eq_refl X)]. }
  intros s z E. pose proof (G s z E) as N. split; [exact N|]. rewrite (sql_string_plain s rest N Hr) in E. injection E as ->. reflexivity.
Qed.
Theorem C103_exact_partial : forall s t,
  (asks_for (pg_columns_query s t) (B "
	SELECT column_name, data_type, udt_name, is_nullable, character_maximum_length, ordinal_position 
  	FROM information_schema.columns
 	WHERE table_schema = '") (B "
   	AND table_name = '") (B ";
") s t <-> ~ In (ch 39) s /\ ~ In (ch 39) t) /\
  (asks_for (mssql_columns_query s t) (B "
	SELECT COLUMN_NAME, DATA_TYPE, DATA_TYPE, IS_NULLABLE, CHARACTER_MAXIMUM_LENGTH, ORDINAL_POSITION FROM INFORMATION_SCHEMA.COLUMNS WHERE TABLE_SCHEMA=N'") (B " AND TABLE_NAME = N'") [] s t <-> ~ In (ch 39) s /\ ~ In (ch 39) t).
Proof.
  intros s t. split; (split; [|intros [Hs Ht]; (apply C103_postgres_partial || apply C103_sqlserver_partial); assumption]).
  - intros (r1 & r2 & r3 & E1 & E2 & E3 & E4). unfold pg_columns_query in E1. apply app_inv_head in E1. subst r1. apply (sql_string_self (B "
   	AND table_name = '" ++ t ++ B "';
") ltac:(discriminate)) in E2 as [Hs E2]. split; [exact Hs|]. rewrite E3 in E2. apply app_inv_head in E2. subst r3. apply (sql_string_self (B ";
") ltac:(discriminate)) in E4 as [Ht _]. exact Ht.
  - intros (r1 & r2 & r3 & E1 & E2 & E3 & E4). unfold mssql_columns_query in E1. apply app_inv_head in E1. subst r1. apply (sql_string_self (B " AND TABLE_NAME = N'" ++ t ++ B "'") ltac:(discriminate)) in E2 as [Hs E2].
    split; [exact Hs|]. rewrite E3 in E2. apply app_inv_head in E2. subst r3. apply (sql_string_self [] ltac:(discriminate)) in E4 as [Ht _]. exact Ht.
Qed.

(** ** Assumptions *)
Print Assumptions C65_deps_terminate.
Print Assumptions C65_deps_exact_partial.
Print Assumptions C65_two_keys_refuted.
Print Assumptions C66_tables.
Print Assumptions C66_views.
Print Assumptions C66_fks.
Print Assumptions C66_wanted.
Print Assumptions C66_fks_order_refuted.
Print Assumptions C67_tables_independent.
Print Assumptions C67_deps_refuted.
Print Assumptions C68_all_columns.
Print Assumptions C68_aliased_columns.
Print Assumptions C68_changed_columns_refuted.
Print Assumptions C98_tables.
Print Assumptions C98_deps.
Print Assumptions C98_views.
Print Assumptions C98_fks.
Print Assumptions C99_table_contents.
Print Assumptions C100_no_panic_partial.
Print Assumptions C100_comma_refuted.
Print Assumptions C101_dependency_columns_partial.
Print Assumptions C101_dependency_refuted.
Print Assumptions C102_max_length_partial.
Print Assumptions C102_no_length_partial.
Print Assumptions C102_unlimited_refuted.
Print Assumptions C103_postgres_partial.
Print Assumptions C103_sqlserver_partial.
Print Assumptions C103_quote_refuted.
Print Assumptions C104_select.
Print Assumptions C104_select_named.
Print Assumptions C104_select_aliased.
Print Assumptions C165_tag_partial.
Print Assumptions C165_comma_refuted.
Print Assumptions C102_exact_partial.
Print Assumptions C103_exact_partial.
