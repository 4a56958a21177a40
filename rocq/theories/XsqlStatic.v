(** Static (per call) conditions that imply the history conditions of the
    builder theorems, and the alignment of fragments and arguments. *)
From Verif Require Import GoBase GoBaseFacts XsqlModel XsqlSpec XsqlProofs XsqlPg XsqlSim XsqlRender XsqlUser.
From Coq Require Import ZifyBool ZifyNat Sorted.
Open Scope Z_scope.

Lemma cold_string d q : st_sql q = [] -> d_cache d = [] ->
  stmt_string d q = match render (is_pg d) q with
                    | None => None
                    | Some s => Some (put_cached d (cache_key q) s, set_sql q s, s)
                    end.
Proof. intros E1 E2. unfold stmt_string, get_cached. rewrite E1, E2. reflexivity. Qed.

Lemma observe_plain r did d k cs : clean r -> d_cache d = [] -> is_pg d = false -> ok_build (d_nl d) k cs = true ->
  observe r did d k cs = Some (spec_sql (s_hist (spec_build (d_nl d) k cs)),
                               spec_args (s_hist (spec_build (d_nl d) k cs)), s_dest (spec_build (d_nl d) k cs)).
Proof.
  intros HC Hd Hp Hok. destruct (build_sim r did d k cs HC Hok) as (q & E & HS & Hs & _).
  unfold observe. rewrite E. cbn [bind]. unfold shown. rewrite cold_string by assumption. rewrite Hp.
  rewrite (render_plain q _ HS). cbn [bind].
  destruct HS as (((css & _ & _ & EA) & _) & _ & _ & ED). rewrite EA, ED. reflexivity.
Qed.

Lemma observe_pg r did d k cs : clean r -> d_cache d = [] -> is_pg d = true -> ok_build (d_nl d) k cs = true ->
  pg_hist [] (s_hist (spec_build (d_nl d) k cs)) = true ->
  observe r did d k cs = Some (snd (pg_number 1 (spec_sql (s_hist (spec_build (d_nl d) k cs)))),
                               spec_args (s_hist (spec_build (d_nl d) k cs)), s_dest (spec_build (d_nl d) k cs)) /\
  placeholders (spec_sql (s_hist (spec_build (d_nl d) k cs))) = length (spec_args (s_hist (spec_build (d_nl d) k cs))).
Proof.
  intros HC Hd Hp Hok Hpg. destruct (build_sim r did d k cs HC Hok) as (q & E & HS & Hs & _).
  unfold observe. rewrite E. cbn [bind]. unfold shown. rewrite cold_string by assumption. rewrite Hp.
  destruct (render_pg q _ HS Hpg) as [ER EP]. rewrite ER. cbn [bind].
  destruct HS as (((css & _ & _ & EA) & _) & _ & _ & ED). rewrite EA, ED in *. split; [reflexivity|exact EP].
Qed.

(** ** Postgres-ready calls *)
Definition pgw (w : write) : bool :=
  pg_fragment (first_text w) (w_args w) && (is_empty (w_expr w) || pg_fragment (w_expr w) (w_args w))
  && pg_fragment (w_sep w) [].

Lemma pgw_write h w : pgw w = true -> pg_write h w = true.
Proof.
  unfold pgw, pg_write. intros H. apply andb_true_iff in H as [H H3]. apply andb_true_iff in H as [H1 H2].
  rewrite H3, andb_true_r. destruct (is_empty (at_pos _ _)); [exact H1|]. cbn [orb].
  destruct (is_empty (w_expr w)) eqn:E; cbn [negb]; [|exact H2].
  destruct (w_expr w); [reflexivity|discriminate].
Qed.
Lemma pgw_hist ws : forall h, forallb pgw ws = true -> pg_hist h ws = true.
Proof.
  induction ws as [|w ws IH]; intros h H; [reflexivity|]. cbn [forallb] in H. apply andb_true_iff in H as [H1 H2].
  cbn [pg_hist]. rewrite pgw_write by exact H1. apply IH; exact H2.
Qed.

Lemma has_qm_spec t : existsb (fun c => if ascii_dec c c_qm then true else false) t = false <-> no_qm t.
Proof.
  unfold no_qm. split.
  - intros H Hin. apply not_true_iff_false in H. apply H. apply existsb_exists. exists c_qm. split; [exact Hin|].
    destruct (ascii_dec c_qm c_qm); congruence.
  - intros H. apply not_true_iff_false. intros He. apply existsb_exists in He as (c & Hc & E).
    destruct (ascii_dec c c_qm); [subst; auto|discriminate].
Qed.

Lemma pg_fragment_iff t a : pg_fragment t a = true <->
  placeholders t = length a /\ (a = [] -> no_qm t) /\ ends_bs t = false.
Proof.
  unfold pg_fragment. rewrite !andb_true_iff, Nat.eqb_eq, orb_true_iff, !negb_true_iff, has_qm_spec. split.
  - intros [[H1 H2] H3]. split; [exact H1|]. split; [|exact H3]. intros ->. destruct H2; [discriminate|assumption].
  - intros (H1 & H2 & H3). split; [split|]; [exact H1| |exact H3]. destruct a; [right; auto|left; reflexivity].
Qed.

Lemma pg_frag_app a x b y : pg_fragment a x = true -> pg_fragment b y = true -> pg_fragment (a ++ b) (x ++ y) = true.
Proof.
  rewrite !pg_fragment_iff. intros (A1 & A2 & A3) (B1 & B2 & B3). split; [|split].
  - rewrite placeholders_app.
    + rewrite app_length, A1, B1. reflexivity.
    + unfold safe_join. tauto.
  - intros E. apply app_eq_nil in E as [-> ->]. apply no_qm_app; auto.
  - apply ends_bs_app_false; assumption.
Qed.
Lemma pg_frag_app0 a b y : pg_fragment a [] = true -> pg_fragment b y = true -> pg_fragment (a ++ b) y = true.
Proof. intros HA HB. exact (pg_frag_app a [] b y HA HB). Qed.
Lemma pg_frag_app1 a b y : pg_fragment a y = true -> pg_fragment b [] = true -> pg_fragment (a ++ b) y = true.
Proof. intros HA HB. pose proof (pg_frag_app a y b [] HA HB) as H. rewrite app_nil_r in H. exact H. Qed.

Lemma pg_frag_join sep l : pg_fragment sep [] = true -> Forall (fun x => pg_fragment x [] = true) l ->
  pg_fragment (join sep l) [] = true.
Proof.
  intros Hs. induction 1 as [|x l Hx H IH]; [reflexivity|]. destruct l as [|y l]; [exact Hx|].
  rewrite join_cons by discriminate. apply pg_frag_app0; [exact Hx|]. apply pg_frag_app0; assumption.
Qed.
Lemma pg_frag_marks sep a : pg_fragment sep [] = true -> pg_fragment (join sep (repeat (B "?") (length a))) a = true.
Proof.
  intros Hs. induction a as [|x a IH]; [reflexivity|]. cbn [length repeat]. destruct a as [|y a]; [reflexivity|].
  rewrite join_cons by discriminate. apply (pg_frag_app (B "?") [x]); [reflexivity|]. apply pg_frag_app0; assumption.
Qed.

(** A call is ready for the postgres dialect: each of its fragments has one
    unescaped '?' per argument (none without arguments) and does not end with
    a backslash. *)
Definition pg_set (x : bytes * bytes * list goany) : bool :=
  pg_fragment (fst (fst x)) [] && pg_fragment (snd (fst x)) (snd x).
Definition pg_ready (c : bcall) : bool :=
  match c with
  | CSelect e a | CFrom e a | CWhere e a | CHaving e a | CExpr e a | CClause e a => pg_fragment e a
  | CReturning e | CUpdate e | CInsertInto e | CDeleteFrom e | CGroupBy e => pg_fragment e []
  | CSet f _ => pg_fragment f []
  | CSetExpr f e a => pg_fragment f [] && pg_fragment e a
  | CJoin t on | CLeftJoin t on | CRightJoin t on | CFullJoin t on => pg_fragment t [] && pg_fragment on []
  | COrderBy es => forallb (fun e => pg_fragment e []) es
  | CWith n t a => pg_fragment n [] && pg_fragment t a
  | CSubQuery p x t a => pg_fragment p [] && pg_fragment x [] && pg_fragment t a
  | CUnion _ t a => pg_fragment t a
  | CNewRow sets => forallb pg_set sets
  | CBind fs => forallb (fun x => pg_fragment (fst x) []) (flat_map bind_leaves fs)
  | CTo _ | CIn _ | CLimit _ | COffset _ | CPaginate _ _ | CUseNewLines _ | CSetName _ | CInvalidate => true
  end.
Definition pg_ready_ctor (k : ctor) : bool :=
  match k with
  | KNew v a => pg_fragment v a
  | KWith n t a => pg_ready (CWith n t a)
  | KFrom e a => pg_ready (CFrom e a)
  | KSelect e a => pg_ready (CSelect e a)
  | KUpdate t => pg_ready (CUpdate t)
  | KInsertInto t => pg_ready (CInsertInto t)
  | KDeleteFrom t => pg_ready (CDeleteFrom t)
  end.

Lemma nlkw_frag s kw a : pg_fragment kw a = true -> pg_fragment (nlkw s kw) a = true.
Proof.
  intros H. unfold nlkw. destruct (is_empty kw) eqn:E.
  - destruct kw; [exact H|discriminate].
  - apply pg_frag_app0; [destruct (s_nl s); reflexivity|exact H].
Qed.

Lemma pgw_mk p kw e a sep : pg_fragment kw [] = true -> pg_fragment e a = true -> pg_fragment sep [] = true ->
  pgw (mkWrite p kw e a sep) = true.
Proof.
  intros H1 H2 H3. unfold pgw, first_text; cbn [w_kw w_expr w_args w_sep]. rewrite H2, H3, orb_true_r, !andb_true_r.
  apply pg_frag_app0; [exact H1|]. apply pg_frag_app0; [|exact H2]. destruct (is_empty kw || is_empty e); reflexivity.
Qed.
Lemma pgw_kw p kw a sep : pg_fragment kw a = true -> pg_fragment sep [] = true -> pgw (mkWrite p kw [] a sep) = true.
Proof.
  intros H1 H3. unfold pgw, first_text; cbn [w_kw w_expr w_args w_sep is_empty]. rewrite H3, orb_true_r. cbn [orb andb].
  rewrite !app_nil_r, H1. reflexivity.
Qed.

Ltac pgf := repeat first
  [ assumption | reflexivity | apply nlkw_frag; reflexivity
  | apply pgw_mk | apply pg_frag_app0 | apply pg_frag_app1 ].

Lemma pgw_row first sets : forallb pg_set sets = true -> forall ne, forallb pgw (row_writes first ne sets) = true.
Proof.
  induction sets as [|[[f e] a] sets IH]; intros H ne; [reflexivity|].
  cbn [forallb] in H. apply andb_true_iff in H as [H1 H2]. unfold pg_set in H1; cbn [fst snd] in H1.
  apply andb_true_iff in H1 as [H1 H3].
  cbn [row_writes]. fold (row_writes first). rewrite forallb_app, IH by exact H2. rewrite andb_true_r.
  destruct first; cbn [forallb]; rewrite ?andb_true_r.
  - apply andb_true_iff; split; apply pgw_mk; try assumption; reflexivity.
  - apply pgw_mk; try assumption; try reflexivity. destruct ne; reflexivity.
Qed.

Lemma pg_ready_emits s c : pg_ready c = true -> forallb pgw (emits s c) = true.
Proof.
  intros H. destruct c; cbn [pg_ready emits] in *; rewrite ?andb_true_iff in H;
    try (cbn [forallb]; rewrite ?andb_true_r; pgf; fail);
    try (match type of H with _ /\ _ => destruct H end; cbn [forallb]; rewrite ?andb_true_r; pgf; fail).
  - cbn [forallb]. rewrite !andb_true_iff; split; [pgf|]; split; [|split; [|split; [|reflexivity]]];
      apply pgw_kw; pgf.
  - destruct (has_pos 300 _); [|destruct (has_pos 700 _); [|reflexivity]].
    + cbn [forallb]. rewrite !andb_true_iff; split; [pgf|split; [pgf|reflexivity]].
    + cbn [forallb]. rewrite andb_true_r. apply pgw_mk; [apply nlkw_frag; reflexivity| |reflexivity].
      apply pg_frag_app0; [exact H|reflexivity].
  - destruct H as [H H']. destruct (has_pos 300 _); [|destruct (has_pos 700 _); [|reflexivity]].
    + cbn [forallb]. rewrite !andb_true_iff; split; [pgf|split; [pgf|reflexivity]].
    + cbn [forallb]. rewrite andb_true_r. apply pgw_mk; [apply nlkw_frag; reflexivity| |reflexivity].
      apply pg_frag_app0; [exact H|]. apply pg_frag_app0; [reflexivity|exact H'].
  - cbn [forallb]. rewrite andb_true_r. apply pgw_mk; [reflexivity| |reflexivity].
    apply pg_frag_app0; [reflexivity|]. apply pg_frag_app1; [|reflexivity]. apply pg_frag_marks. reflexivity.
  - cbn [forallb]. rewrite andb_true_r. apply pgw_mk; [apply nlkw_frag; reflexivity| |reflexivity].
    apply pg_frag_join; [reflexivity|]. rewrite forallb_forall in H. apply Forall_forall. exact H.
  - cbn [forallb]. rewrite andb_true_r. apply pgw_kw; [apply nlkw_frag|]; reflexivity.
  - cbn [forallb]. rewrite andb_true_r. apply pgw_kw; [apply nlkw_frag|]; reflexivity.
  - rewrite forallb_app. cbn [forallb]. rewrite (pgw_kw 1700) by (try (apply nlkw_frag); reflexivity).
    destruct (1 <? page); [|reflexivity]. cbn [forallb]. rewrite (pgw_kw 1800) by (try (apply nlkw_frag); reflexivity). reflexivity.
  - cbn [forallb]. rewrite andb_true_r. apply pgw_kw; [apply nlkw_frag; exact H|reflexivity].
  - destruct H as [H1 H2]. cbn [forallb]. rewrite !andb_true_iff; split; [|split; [|reflexivity]].
    + apply pgw_kw; [apply nlkw_frag|]; reflexivity.
    + apply pgw_mk; [reflexivity| |reflexivity]. apply pg_frag_app0; [exact H1|]. apply pg_frag_app0; [reflexivity|].
      apply pg_frag_app1; [exact H2|reflexivity].
  - destruct H as [[H1 H2] H3]. cbn [forallb]. rewrite andb_true_r. apply pgw_mk; [reflexivity| |].
    + apply pg_frag_app0; [exact H1|]. apply pg_frag_app1; assumption.
    + destruct (s_cur s =? 1200); reflexivity.
  - cbn [forallb]. rewrite andb_true_r. apply pgw_kw; [|reflexivity]. apply nlkw_frag. apply pg_frag_app0; [|exact H].
    destruct all; reflexivity.
  - destruct (has_pos 500 _).
    + cbn [forallb]. rewrite pgw_row by exact H. rewrite andb_true_r. apply pgw_mk; reflexivity.
    + apply pgw_row; exact H.
  - induction (flat_map bind_leaves fs) as [|x l IH]; [reflexivity|]. cbn [forallb map] in *.
    apply andb_true_iff in H as [H1 H2]. rewrite IH by exact H2. rewrite andb_true_r.
    apply pgw_mk; [apply nlkw_frag; reflexivity|exact H1|reflexivity].
Qed.

Lemma pg_ready_calls cs : forall s, forallb pgw (s_hist s) = true -> forallb pg_ready cs = true ->
  forallb pgw (s_hist (spec_calls s cs)) = true.
Proof.
  induction cs as [|c cs IH]; intros s Hs Hc; [exact Hs|]. cbn [forallb] in Hc. apply andb_true_iff in Hc as [H1 H2].
  unfold spec_calls. cbn [fold_left]. apply IH; [|exact H2]. cbn [spec_call s_hist].
  rewrite forallb_app, Hs. apply pg_ready_emits; exact H1.
Qed.

Lemma pg_ready_build nl k cs : pg_ready_ctor k = true -> forallb pg_ready cs = true ->
  forallb pgw (s_hist (spec_build nl k cs)) = true.
Proof.
  intros Hk Hc. apply pg_ready_calls; [|exact Hc].
  assert (G : forall c, pg_ready c = true -> forallb pgw (s_hist (spec_call (init_state nl) c)) = true).
  { intros c H. cbn [spec_call s_hist init_state app]. apply pg_ready_emits; exact H. }
  destruct k; cbn [spec_ctor pg_ready_ctor] in *; try (apply G; exact Hk).
  cbn [s_hist forallb]. rewrite andb_true_r. apply pgw_kw; [apply nlkw_frag; exact Hk|reflexivity].
Qed.
Lemma pg_ready_hist nl k cs : pg_ready_ctor k = true -> forallb pg_ready cs = true ->
  pg_hist [] (s_hist (spec_build nl k cs)) = true.
Proof. intros Hk Hc. apply pgw_hist. apply pg_ready_build; assumption. Qed.

(** ** Fragments and their arguments *)
Fixpoint more_pieces (has : bool) (ws : list write) : list (bytes * list goany) :=
  match ws with
  | [] => []
  | w :: r =>
      if is_empty (w_expr w) then more_pieces has r
      else (if has then w_sep w else B " ", []) :: (w_expr w, w_args w) :: more_pieces true r
  end.
Definition kw_only (w : write) : bool := is_empty (w_expr w).
Definition clause_pieces (ws : list write) : list (bytes * list goany) :=
  match ws with
  | [] => []
  | w :: r => (first_text w, if is_empty (w_expr w) then more_args (w_args w) (filter kw_only r) else w_args w)
              :: more_pieces (negb (is_empty (w_expr w))) r
  end.

Lemma more_pieces_text ws : forall has, concat (map fst (more_pieces has ws)) = more_text has ws.
Proof.
  induction ws as [|w ws IH]; intros has; [reflexivity|]. cbn [more_pieces more_text].
  destruct (is_empty (w_expr w)); [apply IH|]. cbn [map concat fst]. rewrite IH. reflexivity.
Qed.
Lemma clause_pieces_text ws : concat (map fst (clause_pieces ws)) = clause_text ws.
Proof. destruct ws as [|w r]; [reflexivity|]. cbn [clause_pieces map concat fst clause_text]. rewrite more_pieces_text. reflexivity. Qed.

(** All writes to one clause, in order, each ok with respect to the earlier ones. *)
Fixpoint ok_clause (before ws : list write) : bool :=
  match ws with
  | [] => true
  | w :: r =>
      (is_empty (w_args w) || negb (is_empty (w_expr w)) ||
       match before with
       | [] => true
       | w0 :: _ => forallb kw_only before && (length (w_args w0) =? length (w_args w))%nat
       end) && ok_clause (before ++ [w]) r
  end.

Lemma ok_writes_clause ws : forall h p, ok_writes h ws = true -> ok_clause (at_pos p h) (at_pos p ws) = true.
Proof.
  induction ws as [|w ws IH]; intros h p H; [reflexivity|]. cbn [ok_writes] in H. apply andb_true_iff in H as [H1 H2].
  specialize (IH _ p H2). unfold at_pos at 2. cbn [filter]. destruct (Z.eqb_spec (w_pos w) p) as [<-|Hn].
  - cbn [ok_clause]. rewrite at_pos_snoc_eq in IH. fold (at_pos (w_pos w) ws). rewrite IH, andb_true_r.
    unfold ok_write in H1. exact H1.
  - fold (at_pos p ws). rewrite at_pos_snoc_neq in IH by congruence. exact IH.
Qed.

Lemma ok_clause_snoc ws : forall b w, ok_clause b (ws ++ [w]) = ok_clause b ws && ok_clause (b ++ ws) [w].
Proof.
  induction ws as [|x ws IH]; intros b w; cbn [app ok_clause].
  - rewrite app_nil_r. reflexivity.
  - rewrite IH. cbn [ok_clause]. rewrite <- !app_assoc. cbn [app]. rewrite !andb_assoc. reflexivity.
Qed.

Lemma more_pieces_snoc ws : forall has w,
  more_pieces has (ws ++ [w]) = more_pieces has ws ++
   (if is_empty (w_expr w) then [] else [(if has || clause_has ws then w_sep w else B " ", []); (w_expr w, w_args w)]).
Proof.
  induction ws as [|x ws IH]; intros has w; cbn [app more_pieces clause_has existsb].
  - rewrite orb_false_r. destruct (is_empty (w_expr w)); reflexivity.
  - fold (clause_has ws). destruct (is_empty (w_expr x)) eqn:E.
    + cbn [negb orb]. apply IH.
    + rewrite IH. cbn [negb orb app]. rewrite orb_true_r. reflexivity.
Qed.

Lemma kw_only_all ws : forallb kw_only ws = true -> filter kw_only ws = ws /\ forall has, more_pieces has ws = [].
Proof.
  induction ws as [|w ws IH]; intros H; [split; reflexivity|]. cbn [forallb] in H. apply andb_true_iff in H as [H1 H2].
  destruct (IH H2) as [E1 E2]. unfold kw_only in H1. split.
  - cbn [filter]. unfold kw_only at 1. rewrite H1, E1. reflexivity.
  - intros has. cbn [more_pieces]. rewrite H1. apply E2.
Qed.

Lemma clause_pieces_args ws : ok_clause [] ws = true -> concat (map snd (clause_pieces ws)) = clause_args ws.
Proof.
  induction ws as [|w ws IH] using rev_ind; intros H; [reflexivity|].
  rewrite ok_clause_snoc in H. apply andb_true_iff in H as [H1 H2]. specialize (IH H1). cbn [app ok_clause] in H2.
  rewrite andb_true_r in H2. destruct ws as [|w0 ws].
  - cbn [app clause_pieces clause_args more_args filter more_pieces map concat snd]. rewrite app_nil_r.
    destruct (is_empty (w_expr w)); reflexivity.
  - rewrite (clause_args_snoc (w0 :: ws)) by discriminate. rewrite <- IH.
    cbn [app clause_pieces]. rewrite more_pieces_snoc, filter_app. cbn [filter].
    unfold kw_only at 2. destruct (is_empty (w_expr w)) eqn:Ee.
    + rewrite app_nil_r. cbn [map concat snd].
      destruct (w_args w) as [|a0 al] eqn:Ea.
      * cbn [app length skipn]. destruct (is_empty (w_expr w0)); [|reflexivity].
        rewrite more_args_snoc, Ee, Ea. reflexivity.
      * cbn [is_empty negb orb] in H2. cbn [forallb] in H2. apply andb_true_iff in H2 as [H2 H3].
        apply andb_true_iff in H2 as [H4 H5]. unfold kw_only in H4. rewrite H4 in *.
        destruct (kw_only_all ws H5) as [E1 E2]. rewrite E2 in *. cbn [map concat]. rewrite !app_nil_r.
        rewrite more_args_snoc, Ee, Ea. reflexivity.
    + rewrite app_nil_r. cbn [map concat snd].
      rewrite map_app, concat_app. cbn [map concat snd]. rewrite app_nil_r, app_assoc. reflexivity.
Qed.

(** The pieces of a whole statement, before trimming. *)
Fixpoint stmt_pieces (l : list (list (bytes * list goany))) : list (bytes * list goany) :=
  match l with
  | [] => []
  | [x] => x
  | x :: r => x ++ (B " ", []) :: stmt_pieces r
  end.
Definition pieces (h : list write) : list (bytes * list goany) :=
  stmt_pieces (map (fun p => clause_pieces (at_pos p h)) (positions h)).

Lemma stmt_pieces_text l : concat (map fst (stmt_pieces l)) = join (B " ") (map (fun x => concat (map fst x)) l).
Proof.
  induction l as [|x l IH]; [reflexivity|]. destruct l as [|y l]; [reflexivity|].
  cbn [stmt_pieces map]. cbn [map] in IH. rewrite map_app, concat_app. rewrite (join_cons _ (concat (map fst x))) by discriminate.
  f_equal. cbn [map concat fst]. f_equal. exact IH.
Qed.
Lemma stmt_pieces_args l : concat (map snd (stmt_pieces l)) = concat (map (fun x => concat (map snd x)) l).
Proof.
  induction l as [|x l IH]; [reflexivity|]. destruct l as [|y l]; [cbn; rewrite app_nil_r; reflexivity|].
  change (stmt_pieces (x :: y :: l)) with (x ++ (B " ", []) :: stmt_pieces (y :: l)).
  rewrite map_app, concat_app. cbn [map concat snd app]. rewrite IH. reflexivity.
Qed.

Lemma pieces_text h : concat (map fst (pieces h)) = spec_text h.
Proof.
  unfold pieces, spec_text. rewrite stmt_pieces_text, map_map. f_equal. apply map_ext. intros p. apply clause_pieces_text.
Qed.
Lemma pieces_args h : ok_writes [] h = true -> concat (map snd (pieces h)) = spec_args h.
Proof.
  intros H. unfold pieces, spec_args. rewrite stmt_pieces_args, map_map. f_equal. apply map_ext. intros p.
  apply clause_pieces_args. exact (ok_writes_clause h [] p H).
Qed.

Lemma ok_calls_writes cs : forall s, ok_writes [] (s_hist s) = true -> ok_calls s cs = true ->
  ok_writes [] (s_hist (spec_calls s cs)) = true.
Proof.
  induction cs as [|c cs IH]; intros s H0 H; [exact H0|]. cbn [ok_calls] in H. apply andb_true_iff in H as [H1 H2].
  unfold spec_calls. cbn [fold_left]. apply IH; [|exact H2]. cbn [spec_call s_hist].
  rewrite ok_writes_app, H0. cbn [andb app]. unfold ok_call in H1. apply andb_true_iff in H1 as [H1 _]. exact H1.
Qed.
Lemma ok_build_writes nl k cs : ok_build nl k cs = true -> ok_writes [] (s_hist (spec_build nl k cs)) = true.
Proof.
  unfold ok_build. intros H. apply andb_true_iff in H as [H1 H2]. apply ok_calls_writes; [|exact H2].
  destruct k; cbn [spec_ctor spec_call s_hist init_state app emits ok_writes] in *; cbn; rewrite ?orb_true_r, ?andb_true_r; try reflexivity.
  all: unfold ok_write; cbn; rewrite ?orb_true_r; try reflexivity.
  destruct name; cbn; rewrite ?orb_true_r; reflexivity.
Qed.

(** Every piece is the text of one fragment as given in one call, with that
    call's arguments, or a separator without arguments. *)
Lemma more_pieces_from ws : forall has x, In x (more_pieces has ws) -> snd x = [] \/ exists w, In w ws /\ x = (w_expr w, w_args w).
Proof.
  induction ws as [|w ws IH]; intros has x H; [destruct H|]. cbn [more_pieces] in H.
  destruct (is_empty (w_expr w)).
  - destruct (IH _ _ H) as [E|(w' & H1 & H2)]; [left; exact E|right; exists w'; split; [right; exact H1|exact H2]].
  - destruct H as [<-|[<-|H]]; [left; reflexivity|right; exists w; split; [left; reflexivity|reflexivity]|].
    destruct (IH _ _ H) as [E|(w' & H1 & H2)]; [left; exact E|right; exists w'; split; [right; exact H1|exact H2]].
Qed.

Lemma clause_pieces_from ws x : In x (clause_pieces ws) ->
  snd x = [] \/ (exists w, In w ws /\ x = (w_expr w, w_args w)) \/ (exists w r, ws = w :: r /\ fst x = first_text w).
Proof.
  destruct ws as [|w ws]; cbn [clause_pieces In]; [tauto|]. intros [<-|H].
  - right; right. exists w, ws. split; reflexivity.
  - destruct (more_pieces_from _ _ _ H) as [E|(w' & H1 & H2)]; [left; exact E|]. right; left. exists w'.
    split; [right; exact H1|exact H2].
Qed.

(** With postgres-ready writes every piece has as many placeholders as
    arguments. *)
Lemma more_args_len acc ws : forallb kw_only ws = true -> forallb (fun w => is_empty (w_args w) || (length (w_args w) =? length acc)%nat) ws = true ->
  length (more_args acc ws) = length acc.
Proof.
  revert acc. induction ws as [|w ws IH]; intros acc H1 H2; [reflexivity|]. cbn [forallb] in *.
  apply andb_true_iff in H1 as [H1 H1']. apply andb_true_iff in H2 as [H2 H2']. cbn [more_args].
  unfold kw_only in H1. rewrite H1.
  assert (E : length (w_args w ++ skipn (length (w_args w)) acc) = length acc).
  { rewrite app_length, skipn_length. destruct (w_args w); cbn [is_empty length] in *; [lia|]. apply orb_true_iff in H2 as [|H2]; [discriminate|].
    apply Nat.eqb_eq in H2. lia. }
  rewrite IH; [exact E|exact H1'|]. rewrite E. exact H2'.
Qed.

Lemma ok_clause_kw w0 ws : forall b, ok_clause (w0 :: b) ws = true ->
  forallb (fun w => is_empty (w_args w) || (length (w_args w) =? length (w_args w0))%nat) (filter kw_only ws) = true.
Proof.
  induction ws as [|w ws IH]; intros b H; [reflexivity|]. cbn [ok_clause] in H. apply andb_true_iff in H as [H1 H2].
  specialize (IH (b ++ [w]) H2). cbn [filter]. unfold kw_only at 1. destruct (is_empty (w_expr w)) eqn:E; [|exact IH].
  cbn [forallb]. rewrite IH, andb_true_r. cbn [negb] in H1. rewrite orb_false_r in H1.
  apply orb_true_iff in H1 as [H1|H1]; [rewrite H1; reflexivity|]. apply andb_true_iff in H1 as [_ H1].
  rewrite Nat.eqb_sym in H1. rewrite H1. apply orb_true_r.
Qed.

Lemma filter_all {A} (f : A -> bool) l : forallb f (filter f l) = true.
Proof. induction l as [|x l IH]; [reflexivity|]. cbn [filter]. destruct (f x) eqn:E; [|exact IH]. cbn. rewrite E. exact IH. Qed.

Lemma more_pieces_count ws : forallb pgw ws = true -> forall has x, In x (more_pieces has ws) -> placeholders (fst x) = length (snd x).
Proof.
  induction ws as [|w ws IH]; intros H has x Hx; [destruct Hx|]. cbn [forallb] in H. apply andb_true_iff in H as [H1 H2].
  cbn [more_pieces] in Hx. unfold pgw in H1. rewrite !andb_true_iff in H1. destruct H1 as [[H1 H3] H4].
  destruct (is_empty (w_expr w)); [exact (IH H2 _ _ Hx)|]. cbn [orb] in H3.
  destruct Hx as [<-|[<-|Hx]]; [| |exact (IH H2 _ _ Hx)]; cbn [fst snd].
  - destruct has; [|reflexivity]. apply pg_fragment_iff in H4. apply H4.
  - apply pg_fragment_iff in H3. apply H3.
Qed.

Lemma clause_pieces_count ws : forallb pgw ws = true -> ok_clause [] ws = true ->
  forall x, In x (clause_pieces ws) -> placeholders (fst x) = length (snd x).
Proof.
  intros H Hok x Hx. destruct ws as [|w ws]; [destruct Hx|]. cbn [forallb] in H. apply andb_true_iff in H as [H1 H2].
  cbn [clause_pieces] in Hx. destruct Hx as [<-|Hx]; [|exact (more_pieces_count _ H2 _ _ Hx)]. cbn [fst snd].
  unfold pgw in H1. rewrite !andb_true_iff in H1. destruct H1 as [[H1 _] _]. apply pg_fragment_iff in H1 as [H1 _].
  destruct (is_empty (w_expr w)) eqn:E; [|exact H1].
  cbn [ok_clause app] in Hok. apply andb_true_iff in Hok as [_ Hok].
  rewrite more_args_len; [exact H1|apply filter_all|]. exact (ok_clause_kw w ws [] Hok).
Qed.

Lemma pieces_in h x : In x (pieces h) -> x = (B " ", []) \/ exists p, In x (clause_pieces (at_pos p h)).
Proof.
  unfold pieces. generalize (positions h). intros ps.
  assert (G : In x (stmt_pieces (map (fun p => clause_pieces (at_pos p h)) ps)) -> x = (B " ", []) \/ exists p, In p ps /\ In x (clause_pieces (at_pos p h))).
  { induction ps as [|p ps IH]; [intros []|]. destruct ps as [|p2 ps].
    - cbn [map stmt_pieces]. intros H. right. exists p. split; [left; reflexivity|exact H].
    - change (stmt_pieces (map (fun p => clause_pieces (at_pos p h)) (p :: p2 :: ps)))
        with (clause_pieces (at_pos p h) ++ (B " ", []) :: stmt_pieces (map (fun p => clause_pieces (at_pos p h)) (p2 :: ps))).
      rewrite in_app_iff. cbn [In]. intros [H|[H|H]].
      + right. exists p. split; [left; reflexivity|exact H].
      + left. symmetry; exact H.
      + destruct (IH H) as [E|(p' & H1 & H2)]; [left; exact E|right; exists p'; split; [right; exact H1|exact H2]]. }
  intros H. destruct (G H) as [E|(p & _ & H2)]; [left; exact E|right; exists p; exact H2].
Qed.

Lemma pieces_count h : forallb pgw h = true -> ok_writes [] h = true ->
  forall x, In x (pieces h) -> placeholders (fst x) = length (snd x).
Proof.
  intros H Hok x Hx. destruct (pieces_in h x Hx) as [->|(p & Hp)]; [reflexivity|].
  apply (clause_pieces_count (at_pos p h)); [|exact (ok_writes_clause h [] p Hok)|exact Hp].
  unfold at_pos. apply forallb_forall. intros w Hw. apply filter_In in Hw as [Hw _]. rewrite forallb_forall in H. auto.
Qed.
Lemma pieces_from h x : In x (pieces h) ->
  snd x = [] \/ exists w, In w h /\ (x = (w_expr w, w_args w) \/ fst x = first_text w).
Proof.
  intros Hx. destruct (pieces_in h x Hx) as [->|(p & Hp)]; [left; reflexivity|].
  assert (Hin : forall w, In w (at_pos p h) -> In w h) by (intros w Hw; apply filter_In in Hw; apply Hw).
  destruct (clause_pieces_from _ _ Hp) as [E|[(w & H1 & H2)|(w & r & H1 & H2)]]; [left; exact E|right; exists w; auto|].
  right. exists w. split; [|right; exact H2]. apply Hin. rewrite H1. left; reflexivity.
Qed.
