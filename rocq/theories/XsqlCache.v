(** Facts about the dialect cache, Clone and the statement pool. *)
From Verif Require Import GoBase GoBaseFacts XsqlModel XsqlSpec XsqlUserSpec XsqlProofs XsqlPg XsqlSim XsqlRender XsqlUser XsqlStatic XsqlOrder XsqlMore.
From Coq Require Import ZifyBool ZifyNat Sorted.
Open Scope Z_scope.

Lemma beqb_eq' a b : beqb a b = true <-> a = b.
Proof.
  revert b. induction a as [|x a IH]; intros [|y b]; cbn [beqb]; try (split; congruence).
  destruct (ascii_dec x y) as [->|]; [rewrite IH; split; congruence|split; congruence].
Qed.

Lemma put_get d k v : get_cached (put_cached d k v) k = Some v.
Proof. unfold get_cached, put_cached; cbn [d_cache assoc]. rewrite (proj2 (beqb_eq' k k) eq_refl). reflexivity. Qed.
Lemma put_get_other d k v k' : k' <> k -> get_cached (put_cached d k v) k' = get_cached d k'.
Proof.
  intros H. unfold get_cached, put_cached; cbn [d_cache assoc]. destruct (beqb k' k) eqn:E; [|reflexivity].
  apply beqb_eq' in E. congruence.
Qed.

Lemma stmt_set_sql q s : st_sql q = s -> set_sql q s = q.
Proof. intros <-. destruct q; reflexivity. Qed.

Lemma string_stable d q d1 q1 s : stmt_string d q = Some (d1, q1, s) -> stmt_string d1 q1 = Some (d1, q1, s).
Proof.
  unfold stmt_string. destruct (is_empty (st_sql q)) eqn:E.
  - destruct (get_cached d (cache_key q)) as [s0|] eqn:Ec.
    + intros H; injection H as <- <- <-. cbn [set_sql st_sql]. destruct s0 as [|c s0]; [|reflexivity].
      cbn [is_empty]. change (cache_key (set_sql q [])) with (cache_key q). rewrite Ec. reflexivity.
    + destruct (render (is_pg d) q) as [s0|] eqn:Er; [|discriminate].
      intros H; injection H as <- <- <-. cbn [set_sql st_sql]. destruct s0 as [|c s0]; [|reflexivity].
      cbn [is_empty]. change (cache_key (set_sql q [])) with (cache_key q). rewrite put_get. reflexivity.
  - intros H; injection H as <- <- <-. rewrite E. reflexivity.
Qed.

(** ** A history of String() calls on many statements *)
Fixpoint strings (d : dialect) (qs : list stmt) : option (dialect * list bytes) :=
  match qs with
  | [] => Some (d, [])
  | q :: r => do (x, s) <- stmt_string d q;
              do (d2, l) <- strings (fst x) r;
              Some (d2, s :: l)
  end.

Definition coherent (d : dialect) (qs : list stmt) : Prop :=
  forall q s, In q qs -> get_cached d (cache_key q) = Some s -> render (is_pg d) q = Some s.

Lemma strings_cold qs : forall d,
  (forall q, In q qs -> st_sql q = [] /\ render (is_pg d) q <> None) ->
  (forall q q', In q qs -> In q' qs -> cache_key q = cache_key q' -> render (is_pg d) q = render (is_pg d) q') ->
  coherent d qs ->
  exists d2 l, strings d qs = Some (d2, l) /\ map Some l = map (render (is_pg d)) qs.
Proof.
  induction qs as [|q qs IH]; intros d Hn Hk Hc; [exists d, []; split; reflexivity|].
  destruct (Hn q (or_introl eq_refl)) as [Hs Hr]. cbn [strings]. unfold stmt_string. rewrite Hs. cbn [is_empty].
  assert (HC : forall d', is_pg d' = is_pg d -> coherent d' qs ->
    exists d2 l, strings d' qs = Some (d2, l) /\ map Some l = map (render (is_pg d)) qs).
  { intros d' Ed Hco. rewrite <- Ed. apply IH; [| |exact Hco]; rewrite Ed.
    - intros q' H'. apply Hn. right; exact H'.
    - intros q' q'' H' H''. apply Hk; right; assumption. }
  destruct (get_cached d (cache_key q)) as [s|] eqn:Ec.
  - cbn [bind fst]. destruct (HC d eq_refl) as (d2 & l & E1 & E2).
    { intros q' s' H'. apply Hc. right; exact H'. }
    rewrite E1. cbn [bind]. exists d2, (s :: l). split; [reflexivity|]. cbn [map]. rewrite E2. f_equal.
    symmetry. apply Hc; [left; reflexivity|exact Ec].
  - destruct (render (is_pg d) q) as [s|] eqn:Er; [|congruence]. cbn [bind fst].
    destruct (HC (put_cached d (cache_key q) s) eq_refl) as (d2 & l & E1 & E2).
    { intros q' s' H' Hg. change (is_pg (put_cached d (cache_key q) s)) with (is_pg d).
      destruct (list_eq_dec ascii_dec (cache_key q') (cache_key q)) as [E|E].
      - rewrite E, put_get in Hg. injection Hg as <-. rewrite <- Er. apply Hk; [right; exact H'|left; reflexivity|exact E].
      - rewrite put_get_other in Hg by exact E. apply Hc; [right; exact H'|exact Hg]. }
    rewrite E1. cbn [bind]. exists d2, (s :: l). split; [reflexivity|]. cbn [map]. rewrite E2, Er. reflexivity.
Qed.

(** ** Extending a statement after String() *)
Definition grows (q q' : stmt) : Prop :=
  st_name q' = st_name q /\
  ((st_buf q' = st_buf q /\ st_chunks q' = st_chunks q /\ (st_sql q' = st_sql q \/ st_sql q' = [])) \/
   (st_sql q' = [] /\ exists x, x <> [] /\ st_buf q' = st_buf q ++ x)).

Lemma grows_trans a b c : grows a b -> grows b c -> grows a c.
Proof.
  intros [N1 A] [N2 C]. split; [congruence|].
  destruct A as [(A1 & A2 & A3)|(A1 & x & A2 & A3)], C as [(C1 & C2 & C3)|(C1 & y & C2 & C3)].
  - left. split; [congruence|]. split; [congruence|]. destruct A3, C3; [left; congruence|right; congruence|right; congruence|right; congruence].
  - right. split; [exact C1|]. exists y. split; [exact C2|congruence].
  - right. split; [destruct C3; congruence|]. exists x. split; [exact A2|congruence].
  - right. split; [exact C1|]. exists (x ++ y). split; [destruct x; [congruence|discriminate]|]. rewrite C3, A3, app_assoc. reflexivity.
Qed.

Lemma finish_fields q a t i q' j : finish_chunk q a t i = Some (q', j) ->
  st_name q' = st_name q /\ st_buf q' = st_buf q /\ st_chunks q' = st_chunks q /\ st_sql q' = [].
Proof.
  unfold finish_chunk. destruct a; [intros H; injection H as <- _; auto|].
  destruct (insert_at _ _ _); [|discriminate]. intros H; injection H as <- _; auto.
Qed.

Lemma addc_grows q pos kw e a sep q' : kw <> [] \/ e <> [] -> addc q pos kw e a sep = Some q' -> grows q q'.
Proof.
  intros Hne. unfold addc, add_chunk. destruct (scan _ _ _) as [i tail|i tail].
  - destruct (nth_error _ i) as [c|]; [|discriminate].
    destruct (is_empty e) eqn:Ee.
    + destruct (0 <? length a)%nat.
      * destruct (_ <? 0); [discriminate|]. intros H; injection H as <-. split; [reflexivity|]. left. auto.
      * intros H; injection H as <-. split; [reflexivity|]. left. auto.
    + assert (He : e <> []) by (apply is_empty_false; exact Ee).
      destruct (_ =? _)%nat; match goal with |- context [finish_chunk ?a ?b ?c ?d] => destruct (finish_chunk a b c d) as [[q2 j]|] eqn:EF end;
        try discriminate; intros H; injection H as <-; apply finish_fields in EF as (F1 & F2 & F3 & F4);
        (split; [rewrite F1; reflexivity|]); right; (split; [exact F4|]); rewrite F2; cbn [set_chunks set_buf st_buf set_pos];
        (exists ((if ck_has c then sep else B " ") ++ e); split; [|rewrite app_assoc; reflexivity]);
        intros E; apply app_eq_nil in E as [_ E]; congruence.
  - match goal with |- context [finish_chunk ?a ?b ?c ?d] => destruct (finish_chunk a b c d) as [[q2 j]|] eqn:EF end; [|discriminate].
    intros H; injection H as <-; apply finish_fields in EF as (F1 & F2 & F3 & F4). split; [rewrite F1; reflexivity|]. right. split; [exact F4|].
    rewrite F2. cbn [set_chunks set_buf st_buf set_pos].
    eexists. split; [|reflexivity]. destruct Hne as [Hk|He].
    + destruct kw as [|c kw]; [congruence|]. cbn [is_empty]. destruct (st_nl _); discriminate.
    + intros E. apply app_eq_nil in E as [_ E]. congruence.
Qed.

Lemma clause_call_grows q c q' : has_clause c = true -> (match c with CWith _ _ _ => false | _ => true end) = true ->
  call q c = Some q' -> grows q q'.
Proof.
  intros Hc Hw. destruct c; try discriminate; cbn [call]; unfold limit, offset; apply addc_grows;
    try (left; discriminate); right; unfold in_text, join_text; discriminate.
Qed.

Definition plain_clause (c : bcall) : bool :=
  has_clause c && match c with CWith _ _ _ => false | _ => true end.

Lemma clause_calls_grow cs : forall q q', forallb plain_clause cs = true -> calls q cs = Some q' -> grows q q'.
Proof.
  induction cs as [|c cs IH]; intros q q' H E.
  - injection E as <-. split; [reflexivity|]. left; auto.
  - cbn [forallb] in H. apply andb_true_iff in H as [H1 H2]. cbn [calls] in E. destruct (call q c) as [q1|] eqn:E1; [|discriminate].
    apply andb_true_iff in H1 as [H1 H3].
    eapply grows_trans; [eapply clause_call_grows; [exact H1|exact H3|exact E1]|]. apply (IH _ _ H2). exact E.
Qed.

(** An unnamed statement, rendered with a cold cache, extended by clause calls
    and rendered again shows the cold text of the extended statement. *)
Lemma extend_fresh d q d1 q1 s cs q2 : d_cache d = [] -> st_name q = [] -> st_sql q = [] ->
  stmt_string d q = Some (d1, q1, s) -> forallb plain_clause cs = true -> calls q1 cs = Some q2 ->
  stmt_string d1 q2 <> None -> 
  exists d2 q3 s2, stmt_string d1 q2 = Some (d2, q3, s2) /\ render (is_pg d) q2 = Some s2.
Proof.
  intros Hd Hn Hs ES Hc EC Hnn. rewrite cold_string in ES by assumption.
  destruct (render (is_pg d) q) as [s0|] eqn:Er; [|discriminate]. injection ES as <- <- <-.
  pose proof (clause_calls_grow cs _ _ Hc EC) as [N G]. cbn [set_sql st_name st_buf st_chunks st_sql] in N, G.
  assert (Key : cache_key q = st_buf q) by (unfold cache_key, strings_coalesce; rewrite Hn; reflexivity).
  assert (Key2 : cache_key q2 = st_buf q2) by (unfold cache_key, strings_coalesce; rewrite N, Hn; reflexivity).
  assert (RS : forall x y, st_buf x = st_buf y -> st_chunks x = st_chunks y -> render (is_pg d) x = render (is_pg d) y).
  { intros x y E1 E2. unfold render. rewrite E1, E2. reflexivity. }
  unfold stmt_string in *. rewrite Key2 in *. destruct G as [(G1 & G2 & G3)|(G1 & x & G2 & G3)].
  - assert (ER : render (is_pg d) q2 = Some s0) by (rewrite <- Er; apply RS; assumption).
    destruct (is_empty (st_sql q2)) eqn:Ee.
    + rewrite G1, <- Key, put_get. exists (put_cached d (cache_key q) s0), (set_sql q2 s0), s0. split; [reflexivity|exact ER].
    + exists (put_cached d (cache_key q) s0), q2, (st_sql q2). split; [reflexivity|].
      destruct G3 as [G3|G3]; [rewrite G3; exact ER|rewrite G3 in Ee; discriminate].
  - rewrite G1 in *. cbn [is_empty] in *. rewrite G3, Key in *.
    rewrite put_get_other in *.
    2,3: intros E; apply (f_equal (@length ascii)) in E; rewrite app_length in E; destruct x; [congruence|cbn in E; lia].
    unfold get_cached in *. rewrite Hd in *. cbn [assoc] in *. change (is_pg (put_cached d (st_buf q) s0)) with (is_pg d) in *.
    destruct (render (is_pg d) q2) as [s2|] eqn:E2; [|congruence]. eexists _, _, s2. split; reflexivity.
Qed.

(** ** GetOrCreateQuery *)
Inductive cache_op :=
| OGet (name : bytes) (create : stmt)     (* GetOrCreateQuery *)
| OPut (name sql : bytes)                 (* PutCachedQuery *)
| OString (q : stmt).                     (* String() of some statement of the dialect *)
Definition cache_step (d : dialect) (o : cache_op) : option dialect :=
  match o with
  | OGet n c => match get_or_create d n c with None => None | Some (d', _, _) => Some d' end
  | OPut n s => Some (put_cached d n s)
  | OString q => match stmt_string d q with None => None | Some (d', _, _) => Some d' end
  end.
Fixpoint cache_run (d : dialect) (os : list cache_op) : option dialect :=
  match os with [] => Some d | o :: r => do d' <- cache_step d o; cache_run d' r end.

Lemma string_keeps d q d1 q1 s n v : stmt_string d q = Some (d1, q1, s) -> get_cached d n = Some v -> get_cached d1 n = Some v.
Proof.
  unfold stmt_string. destruct (is_empty (st_sql q)); [|intros H; injection H as <- <- <-; auto].
  destruct (get_cached d (cache_key q)) eqn:E; [intros H; injection H as <- <- <-; auto|].
  destruct (render _ q); [|discriminate]. intros H; injection H as <- <- <-. intros Hg.
  destruct (list_eq_dec ascii_dec n (cache_key q)) as [->|Hn]; [congruence|]. rewrite put_get_other by exact Hn. exact Hg.
Qed.

Lemma cache_run_keeps os n v : forall d d', (forall s, ~ In (OPut n s) os) -> get_cached d n = Some v ->
  cache_run d os = Some d' -> get_cached d' n = Some v.
Proof.
  induction os as [|o os IH]; intros d d' Hn Hg Hr; [injection Hr as <-; exact Hg|].
  cbn [cache_run] in Hr. destruct (cache_step d o) as [d1|] eqn:E; [|discriminate]. cbn [bind] in Hr.
  apply (IH d1); [intros s Hs; apply (Hn s); right; exact Hs| |exact Hr].
  destruct o as [n' c|n' s|q]; cbn [cache_step] in E.
  - unfold get_or_create in E. destruct (get_cached d n') eqn:Eg; [injection E as <-; exact Hg|].
    destruct (stmt_string d (set_name c n')) as [[[d2 q2] s2]|] eqn:Es; [|discriminate]. injection E as <-.
    eapply string_keeps; eassumption.
  - injection E as <-. rewrite put_get_other; [exact Hg|]. intros ->. apply (Hn s). left; reflexivity.
  - destruct (stmt_string d q) as [[[d2 q2] s2]|] eqn:Es; [|discriminate]. injection E as <-. eapply string_keeps; eassumption.
Qed.

Lemma goc_memo d n c d1 s called os d2 c2 : n <> [] -> st_sql c = [] -> get_or_create d n c = Some (d1, s, called) ->
  (forall x, ~ In (OPut n x) os) -> cache_run d1 os = Some d2 ->
  get_or_create d2 n c2 = Some (d2, s, false).
Proof.
  intros Hn Hc E Hp Hr. assert (Hg : get_cached d1 n = Some s).
  { unfold get_or_create in E. destruct (get_cached d n) eqn:Eg; [injection E as <- <- <-; exact Eg|].
    unfold stmt_string in E. cbn [set_name st_sql] in E. rewrite Hc in E. cbn [is_empty] in E.
    assert (Hk : cache_key (set_name c n) = n).
    { unfold cache_key, strings_coalesce. cbn [set_name st_name]. destruct n; [congruence|reflexivity]. }
    rewrite Hk, Eg in E. destruct (render _ _) as [s0|]; [|discriminate]. injection E as <- <- <-. apply put_get. }
  unfold get_or_create. rewrite (cache_run_keeps os n s d1 d2 Hp Hg Hr). reflexivity.
Qed.

(** ** Clone *)
Definition same_body (q q' : stmt) : Prop :=
  st_chunks q = st_chunks q' /\ st_buf q = st_buf q' /\ st_args q = st_args q' /\ st_dest q = st_dest q' /\ st_nl q = st_nl q'.
Definition osame (o o' : option stmt) : Prop :=
  match o, o' with Some a, Some b => same_body a b | None, None => True | _, _ => False end.
(** The same apart from the name and the memoised text. *)
Definition same_rest (q q' : stmt) : Prop := same_body q q' /\ st_pos q = st_pos q'.

Lemma add_chunk_body q q' pos kw e a sep : same_body q q' ->
  match add_chunk q pos kw e a sep, add_chunk q' pos kw e a sep with
  | Some (x, i), Some (y, j) => same_rest x y /\ i = j
  | None, None => True
  | _, _ => False
  end.
Proof.
  intros (E1 & E2 & E3 & E4 & E5). unfold add_chunk. cbn [set_pos st_chunks st_buf st_args st_nl]. rewrite <- E1, <- E2, <- E3, <- E5.
  assert (FB : forall x y t i, same_rest x y ->
    match finish_chunk x a t i, finish_chunk y a t i with Some (x', i'), Some (y', j') => same_rest x' y' /\ i' = j' | None, None => True | _, _ => False end).
  { intros x y t i ((X1 & X2 & X3 & X4 & X5) & X6). unfold finish_chunk. destruct a as [|a0 al].
    - split; [|reflexivity]. unfold same_rest, same_body; cbn. auto 10.
    - rewrite X3. destruct (insert_at _ _ _); [|exact I]. split; [|reflexivity]. unfold same_rest, same_body; cbn. auto 10. }
  destruct (scan _ _ _) as [i t|i t].
  - destruct (nth_error _ i) as [c|]; [|exact I]. destruct (is_empty e).
    + destruct (0 <? length a)%nat.
      * destruct (_ <? 0); [exact I|]. split; [|reflexivity]. unfold same_rest, same_body; cbn. auto 10.
      * split; [|reflexivity]. unfold same_rest, same_body; cbn. auto 10.
    + destruct (_ =? _)%nat; apply FB; unfold same_rest, same_body; cbn; auto 10.
  - apply FB. unfold same_rest, same_body; cbn; auto 10.
Qed.
Lemma addc_body q q' pos kw e a sep : same_body q q' ->
  match addc q pos kw e a sep, addc q' pos kw e a sep with Some x, Some y => same_rest x y | None, None => True | _, _ => False end.
Proof.
  intros H. unfold addc. pose proof (add_chunk_body q q' pos kw e a sep H) as G.
  destruct (add_chunk q _ _ _ _ _) as [[x i]|], (add_chunk q' _ _ _ _ _) as [[y j]|]; try contradiction; [apply G|exact I].
Qed.
Definition orest (o o' : option stmt) : Prop :=
  match o, o' with Some a, Some b => same_rest a b | None, None => True | _, _ => False end.
Lemma orest_osame o o' : orest o o' -> osame o o'.
Proof. destruct o, o'; cbn; try tauto. intros [H _]; exact H. Qed.
Lemma bind_osame (o o' : option stmt) f f' : osame o o' -> (forall x y, same_body x y -> osame (f x) (f' y)) -> osame (bind o f) (bind o' f').
Proof. destruct o, o'; cbn; try tauto. intros H G. apply G; exact H. Qed.
Lemma addc_osame q q' pos kw e a sep : same_body q q' -> osame (addc q pos kw e a sep) (addc q' pos kw e a sep).
Proof. intros H. apply orest_osame. apply addc_body; exact H. Qed.
Lemma write_tail_body q q' i t : same_body q q' -> osame (write_tail q i t) (write_tail q' i t).
Proof.
  intros (E1 & E2 & E3 & E4 & E5). unfold write_tail. rewrite <- E1, <- E2. destruct (nth_error _ i); [|exact I].
  unfold osame, same_body; cbn. auto 10.
Qed.
Lemma add_write_body q q' pos kw e a sep t : same_body q q' ->
  osame (do (q1, i) <- add_chunk q pos kw e a sep; write_tail q1 i t) (do (q1, i) <- add_chunk q' pos kw e a sep; write_tail q1 i t).
Proof.
  intros H. pose proof (add_chunk_body q q' pos kw e a sep H) as G.
  destruct (add_chunk q _ _ _ _ _) as [[x i]|], (add_chunk q' _ _ _ _ _) as [[y j]|]; try contradiction; [|exact I].
  cbn [bind]. destruct G as [[G _] ->]. apply write_tail_body; exact G.
Qed.
Lemma set_expr_body q q' f e a : same_body q q' -> osame (set_expr q f e a) (set_expr q' f e a).
Proof.
  intros H. pose proof H as (E1 & _). unfold set_expr. rewrite <- E1. destruct (_ =? posInsert).
  - apply bind_osame; [apply addc_osame; exact H|]. intros x y Hx. apply addc_osame; exact Hx.
  - destruct (_ =? posUpdate); [apply addc_osame; exact H|exact H].
Qed.
Lemma row_sets_body sets : forall q q' r, same_body q q' -> osame (row_sets q r sets) (row_sets q' r sets).
Proof.
  induction sets as [|[[f e] a] sets IH]; intros q q' r H; [exact H|]. cbn [row_sets]. unfold row_set_expr. destruct (row_first r).
  - pose proof (addc_osame q q' posInsertFields [] f [] (B ", ") H) as G1.
    destruct (addc q _ _ _ _ _) as [x|], (addc q' _ _ _ _ _) as [y|]; try contradiction; [|exact I]. cbn [bind].
    pose proof (addc_osame x y posValues [] e a (B ", ") G1) as G2.
    destruct (addc x _ _ _ _ _) as [x2|], (addc y _ _ _ _ _) as [y2|]; try contradiction; [|exact I]. cbn [bind]. apply IH; exact G2.
  - pose proof (addc_osame q q' posValues [] e a (if row_notEmpty r then B ", " else []) H) as G2.
    destruct (addc q _ _ _ _ _) as [x2|], (addc q' _ _ _ _ _) as [y2|]; try contradiction; [|exact I]. cbn [bind]. apply IH; exact G2.
Qed.
Lemma bind_list_body l : forall q q', same_body q q' -> osame (bind_list l q) (bind_list l q').
Proof.
  induction l as [|[n a] l IH]; intros q q' H; [exact H|]. cbn [bind_list]. apply bind_osame; [apply addc_osame; exact H|].
  intros x y (E1 & E2 & E3 & E4 & E5). apply IH. unfold same_body; cbn. rewrite E4. auto.
Qed.

(** Calls that name their clause: all but Expr and SubQuery, which append to
    the clause written last. *)
Definition names_clause (c : bcall) : bool := match c with CExpr _ _ | CSubQuery _ _ _ _ => false | _ => true end.

Lemma call_body q q' c : names_clause c = true -> same_body q q' -> osame (call q c) (call q' c).
Proof.
  intros Hc H. pose proof H as (E1 & E2 & E3 & E4 & E5).
  destruct c; try discriminate; cbn [call]; unfold limit, offset; try (apply addc_osame; exact H).
  - unfold osame, same_body; cbn. rewrite E4. auto.
  - unfold insert_into. apply bind_osame; [apply addc_osame; exact H|]. intros x1 y1 H1.
    apply bind_osame; [apply addc_osame; exact H1|]. intros x2 y2 H2. apply bind_osame; [apply addc_osame; exact H2|]. intros x3 y3 H3.
    apply bind_osame; [apply addc_osame; exact H3|]. intros x4 y4 (F1 & F2 & F3 & F4 & F5). unfold osame, same_body; cbn. auto.
  - apply set_expr_body; exact H.
  - apply set_expr_body; exact H.
  - unfold paginate, offset, limit. apply bind_osame; [destruct (1 <? _); [apply addc_osame; exact H|exact H]|]. intros x y Hx. apply addc_osame; exact Hx.
  - unfold clause. rewrite <- E1. apply addc_osame; exact H.
  - unfold with_raw. pose proof (addc_body q q' posWith (B "WITH") [] [] [] H) as G.
    destruct (addc q _ _ _ _ _) as [x|], (addc q' _ _ _ _ _) as [y|]; try contradiction; [|exact I]. cbn [bind].
    destruct G as [G Gp]. unfold sub_query_raw. rewrite <- Gp. apply add_write_body; exact G.
  - unfold union_raw. rewrite <- E1. apply add_write_body; exact H.
  - unfold new_row. rewrite <- E1. destruct (row_is_first _); cbn [bind]; [apply row_sets_body; exact H|].
    pose proof (addc_osame q q' posValues [] (B " ") [] (B " ), (") H) as G.
    destruct (addc q _ _ _ _ _) as [x|], (addc q' _ _ _ _ _) as [y|]; try contradiction; [|exact I]. cbn [bind]. apply row_sets_body; exact G.
  - rewrite !bind_fields_list. apply bind_list_body; exact H.
  - unfold osame, same_body; cbn. auto.
  - unfold osame, same_body; cbn. auto.
  - unfold osame, same_body; cbn. auto.
Qed.
Lemma calls_body cs : forall q q', forallb names_clause cs = true -> same_body q q' -> osame (calls q cs) (calls q' cs).
Proof.
  induction cs as [|c cs IH]; intros q q' Hc H; [exact H|]. cbn [forallb] in Hc. apply andb_true_iff in Hc as [H1 H2].
  cbn [calls]. apply bind_osame; [apply call_body; assumption|]. intros x y Hx. apply IH; assumption.
Qed.

Lemma insert_at_nil {A} (l : list A) : insert_at [] l 0 = Some l.
Proof. unfold insert_at. destruct l; reflexivity. Qed.

Lemma clone_fields r d q : clean r -> exists q', clone r d q = Some q' /\
  st_chunks q' = st_chunks q /\ st_buf q' = st_buf q /\ st_args q' = st_args q /\ st_dest q' = st_dest q /\ st_sql q' = st_sql q /\
  st_nl q' = d_nl d /\ st_dialect q' = st_dialect q.
Proof.
  intros (C1 & C2 & C3). unfold clone. cbn [get_stmt st_args st_dest]. rewrite C2, C3, !insert_at_nil. cbn [bind].
  eexists. split; [reflexivity|]. cbn. rewrite C1. auto 10.
Qed.

(** ** Pool *)
Lemma addc_pos_irrel q p pos kw e a sep : addc (set_pos q p) pos kw e a sep = addc q pos kw e a sep.
Proof. reflexivity. Qed.
Lemma get_stmt_clean r did d : clean r -> get_stmt r did d = set_pos (get_stmt new_stmt did d) (st_pos r).
Proof. intros (C1 & C2 & C3). unfold get_stmt, set_pos; cbn. rewrite C1, C2, C3. reflexivity. Qed.

Lemma build_clean r did d k cs : clean r -> build r did d k cs = build new_stmt did d k cs.
Proof.
  intros HC. unfold build. rewrite (get_stmt_clean r did d HC).
  assert (E : construct (set_pos (get_stmt new_stmt did d) (st_pos r)) k = construct (get_stmt new_stmt did d) k).
  { destruct k; cbn [construct call]; unfold with_raw, insert_into; rewrite addc_pos_irrel; reflexivity. }
  rewrite E. reflexivity.
Qed.
Lemma reuse_clean q : clean (reuse_stmt q).
Proof. split; [|split]; reflexivity. Qed.

(** ** Clone, continued: statements that differ in position and name only *)
Definition ren (n : bytes) (p : Z) (q : stmt) : stmt := set_name (set_pos q p) n.
Lemma finish_ren n q a t i : finish_chunk (set_name q n) a t i = option_map (fun x => (set_name (fst x) n, snd x)) (finish_chunk q a t i).
Proof. unfold finish_chunk. destruct a; [reflexivity|]. cbn [st_args set_name]. destruct (insert_at _ _ _); reflexivity. Qed.
Lemma add_chunk_ren n p q pos kw e a sep :
  add_chunk (ren n p q) pos kw e a sep = option_map (fun x => (set_name (fst x) n, snd x)) (add_chunk q pos kw e a sep).
Proof.
  unfold ren, add_chunk. cbn [st_chunks st_buf st_args st_nl set_pos set_name].
  assert (F : forall b c t i, finish_chunk (set_chunks (set_buf (set_pos (set_name (set_pos q p) n) pos) b) c) a t i
     = option_map (fun x => (set_name (fst x) n, snd x)) (finish_chunk (set_chunks (set_buf (set_pos q pos) b) c) a t i)).
  { intros. rewrite <- finish_ren. reflexivity. }
  destruct (scan pos (rev (st_chunks q)) 0) as [i t|i t]; [|rewrite F; reflexivity].
  destruct (nth_error (st_chunks q) i) as [c|]; [|reflexivity].
  destruct (is_empty e).
  - destruct (0 <? length a)%nat; [|reflexivity]. destruct (_ <? 0); reflexivity.
  - destruct (_ =? _)%nat; rewrite F; reflexivity.
Qed.
Lemma addc_ren n p q pos kw e a sep : addc (ren n p q) pos kw e a sep = option_map (fun x => set_name x n) (addc q pos kw e a sep).
Proof. unfold addc. rewrite add_chunk_ren. destruct (add_chunk q pos kw e a sep) as [[x i]|]; reflexivity. Qed.
Lemma addc_sn n q pos kw e a sep : addc (set_name q n) pos kw e a sep = option_map (fun x => set_name x n) (addc q pos kw e a sep).
Proof. rewrite <- (addc_ren n (st_pos q)). destruct q; reflexivity. Qed.
Lemma write_tail_sn n q i t : write_tail (set_name q n) i t = option_map (fun x => set_name x n) (write_tail q i t).
Proof. unfold write_tail. cbn [st_chunks set_name]. destruct (nth_error _ _); reflexivity. Qed.
Lemma add_chunk_sn n q pos kw e a sep : add_chunk (set_name q n) pos kw e a sep = option_map (fun x => (set_name (fst x) n, snd x)) (add_chunk q pos kw e a sep).
Proof. rewrite <- (add_chunk_ren n (st_pos q)). destruct q; reflexivity. Qed.

(** [o'] is [o] with another name and position. *)
Definition renamed (o o' : option stmt) : Prop := exists n p, o' = option_map (ren n p) o.
Lemma renamed_sn n o o' : o' = option_map (fun x => set_name x n) o -> renamed o o'.
Proof.
  intros ->. destruct o as [x|]; [|exists [], 0; reflexivity].
  exists n, (st_pos x). destruct x; reflexivity.
Qed.
Lemma ren_row_sets n sets : forall q r, row_sets (set_name q n) r sets = option_map (fun x => set_name x n) (row_sets q r sets).
Proof.
  induction sets as [|[[f e] a] sets IH]; intros q r; [reflexivity|]. cbn [row_sets]. unfold row_set_expr. destruct (row_first r).
  - rewrite addc_sn. destruct (addc q _ _ _ _ _) as [x|]; [|reflexivity]. cbn [option_map bind]. rewrite addc_sn.
    destruct (addc x _ _ _ _ _) as [y|]; [|reflexivity]. cbn [option_map bind]. apply IH.
  - rewrite addc_sn. destruct (addc q _ _ _ _ _) as [x|]; [|reflexivity]. cbn [option_map bind]. apply IH.
Qed.
Lemma ren_bind_list n l : forall q, bind_list l (set_name q n) = option_map (fun x => set_name x n) (bind_list l q).
Proof.
  induction l as [|[m a] l IH]; intros q; [reflexivity|]. cbn [bind_list]. rewrite addc_sn.
  destruct (addc q _ _ _ _ _) as [x|]; [|reflexivity]. cbn [option_map bind]. apply (IH (to_dest x [a])).
Qed.
Lemma option_map_id {A} (o : option A) f : (forall x, f x = x) -> option_map f o = o.
Proof. intros H. destruct o; cbn; [rewrite H|]; reflexivity. Qed.
Lemma renamed_bind o o' f f' : renamed o o' -> (forall x n p, renamed (f x) (f' (ren n p x))) -> renamed (bind o f) (bind o' f').
Proof.
  intros (n & p & ->) H. destruct o as [x|]; cbn [option_map bind]; [apply H|]. exists [], 0. reflexivity.
Qed.
Lemma renamed_addc n p q pos kw e a sep : renamed (addc q pos kw e a sep) (addc (ren n p q) pos kw e a sep).
Proof. apply (renamed_sn n). apply addc_ren. Qed.
Lemma renamed_some n p q : renamed (Some q) (Some (ren n p q)).
Proof. exists n, p. reflexivity. Qed.

Lemma call_ren n p q c : names_clause c = true -> renamed (call q c) (call (ren n p q) c).
Proof.
  intros Hc. destruct c; try discriminate; cbn [call]; unfold limit, offset; try apply renamed_addc.
  - exists n, p. reflexivity.
  - unfold insert_into. apply renamed_bind; [apply renamed_addc|]. intros. apply renamed_bind; [apply renamed_addc|]. intros.
    apply renamed_bind; [apply renamed_addc|]. intros. apply renamed_bind; [apply renamed_addc|]. intros xx nn pp.
    exists nn, posInsertFields. reflexivity.
  - unfold set_expr. change (st_chunks (ren n p q)) with (st_chunks q). destruct (_ =? posInsert).
    + apply renamed_bind; [apply renamed_addc|]. intros; apply renamed_addc.
    + destruct (_ =? posUpdate); [apply renamed_addc|apply renamed_some].
  - unfold set_expr. change (st_chunks (ren n p q)) with (st_chunks q). destruct (_ =? posInsert).
    + apply renamed_bind; [apply renamed_addc|]. intros; apply renamed_addc.
    + destruct (_ =? posUpdate); [apply renamed_addc|apply renamed_some].
  - unfold paginate, offset, limit. apply renamed_bind; [destruct (1 <? _); [apply renamed_addc|apply renamed_some]|]. intros; apply renamed_addc.
  - unfold with_raw. rewrite addc_ren. destruct (addc q _ _ _ _ _) as [x|]; [|exists [], 0; reflexivity]. cbn [option_map bind].
    unfold sub_query_raw. cbn [st_pos set_name]. rewrite add_chunk_sn. destruct (add_chunk x _ _ _ _ _) as [[y i]|]; [|exists [], 0; reflexivity].
    cbn [option_map bind fst snd]. apply (renamed_sn n). apply write_tail_sn.
  - unfold union_raw. change (st_chunks (ren n p q)) with (st_chunks q). rewrite add_chunk_ren.
    destruct (add_chunk q _ _ _ _ _) as [[y i]|]; [|exists [], 0; reflexivity].
    cbn [option_map bind fst snd]. apply (renamed_sn n). apply write_tail_sn.
  - unfold new_row. change (st_chunks (ren n p q)) with (st_chunks q). destruct (row_is_first _); cbn [bind].
    + destruct sets as [|[[f e] a] sets]; [exists n, p; reflexivity|]. cbn [row_sets]. unfold row_set_expr. cbn [row_first].
      rewrite addc_ren. destruct (addc q _ _ _ _ _) as [x|]; [|exists [], 0; reflexivity]. cbn [option_map bind].
      rewrite addc_sn. destruct (addc x _ _ _ _ _) as [y|]; [|exists [], 0; reflexivity]. cbn [option_map bind].
      apply (renamed_sn n). apply ren_row_sets.
    + rewrite addc_ren. destruct (addc q _ _ _ _ _) as [x|]; [|exists [], 0; reflexivity]. cbn [option_map bind].
      apply (renamed_sn n). apply ren_row_sets.
  - rewrite !bind_fields_list. destruct (flat_map bind_leaves fs) as [|[m a] l]; [exists n, p; reflexivity|].
    cbn [bind_list]. rewrite addc_ren. destruct (addc q _ _ _ _ _) as [x|]; [|exists [], 0; reflexivity]. cbn [option_map bind].
    apply (renamed_sn n). apply (ren_bind_list n l (to_dest x [a])).
  - exists n, p. reflexivity.
  - exists n0, p. reflexivity.
  - exists n, p. reflexivity.
Qed.

(** Without SetName the new name is kept. *)
Definition no_set_name (c : bcall) : bool := match c with CSetName _ => false | _ => true end.

Lemma calls_ren cs : forall n p q, forallb names_clause cs = true -> renamed (calls q cs) (calls (ren n p q) cs).
Proof.
  induction cs as [|c cs IH]; intros n p q H; [exists n, p; reflexivity|]. cbn [forallb] in H. apply andb_true_iff in H as [H1 H2].
  cbn [calls]. apply renamed_bind; [apply call_ren; exact H1|]. intros; apply IH; exact H2.
Qed.

Lemma shown_ren_cold d n p q : d_cache d = [] -> shown d (ren n p q) = shown d q.
Proof.
  intros Hd. unfold shown, stmt_string, get_cached. rewrite Hd. cbn [assoc ren set_name set_pos st_sql st_args st_dest].
  change (render (is_pg d) (ren n p q)) with (render (is_pg d) q).
  destruct (is_empty (st_sql q)); [|reflexivity]. unfold render, ren; cbn [set_name set_pos st_buf st_chunks].
  destruct (render_loop _ _ _ _ _ _ _); reflexivity.
Qed.

Lemma clone_ren r d q : clean r -> st_nl q = d_nl d -> clone r d q = Some (ren [] (st_pos r) q).
Proof.
  intros (C1 & C2 & C3) Hn. unfold clone, ren, set_name, set_pos, get_stmt. cbn [st_args st_dest st_chunks st_name st_dialect st_pos st_buf st_nl].
  rewrite C1, C2, C3, !insert_at_nil. cbn [bind app]. rewrite Hn. reflexivity.
Qed.

(** Clone() and the original answer every sequence of explicit-clause calls
    alike (nothing cached under the statement's name). *)
Lemma clone_alike r d q cs : clean r -> st_nl q = d_nl d -> forallb names_clause cs = true -> d_cache d = [] ->
  (do q' <- clone r d q; do q2 <- calls q' cs; shown d q2) = (do q2 <- calls q cs; shown d q2).
Proof.
  intros Hr Hn Hc Hd. rewrite (clone_ren r d q Hr Hn). cbn [bind].
  destruct (calls_ren cs [] (st_pos r) q Hc) as (n & p & ->). destruct (calls q cs) as [x|]; [|reflexivity]. cbn [option_map bind].
  apply shown_ren_cold; exact Hd.
Qed.
(** If the original has no name, the same holds for every cache content. *)
Lemma call_pos q p c : names_clause c = true -> exists p', call (set_pos q p) c = option_map (fun x => set_pos x p') (call q c).
Proof.
  intros Hc. 
  assert (ID : forall o : option stmt, exists p', o = option_map (fun x => set_pos x p') o).
  { intros [x|]; [exists (st_pos x); destruct x; reflexivity|exists 0; reflexivity]. }
  destruct c; try discriminate; cbn [call]; unfold limit, offset; try (rewrite addc_pos_irrel; apply ID).
  - exists p. reflexivity.
  - unfold insert_into. rewrite addc_pos_irrel. apply ID.
  - unfold set_expr. change (st_chunks (set_pos q p)) with (st_chunks q). rewrite !addc_pos_irrel. destruct (_ =? posInsert); [apply ID|].
    destruct (_ =? posUpdate); [apply ID|exists p; reflexivity].
  - unfold set_expr. change (st_chunks (set_pos q p)) with (st_chunks q). rewrite !addc_pos_irrel. destruct (_ =? posInsert); [apply ID|].
    destruct (_ =? posUpdate); [apply ID|exists p; reflexivity].
  - unfold paginate, offset, limit. destruct (1 <? _); cbn [bind]; rewrite addc_pos_irrel; apply ID.
  - unfold clause. change (st_chunks (set_pos q p)) with (st_chunks q). rewrite addc_pos_irrel. apply ID.
  - unfold with_raw. rewrite addc_pos_irrel. apply ID.
  - unfold union_raw. change (st_chunks (set_pos q p)) with (st_chunks q). apply ID.
  - unfold new_row. change (st_chunks (set_pos q p)) with (st_chunks q). destruct (row_is_first _); cbn [bind]; [|rewrite addc_pos_irrel; apply ID].
    destruct sets as [|[[f e] a] sets]; [exists p; reflexivity|]. cbn [row_sets]. unfold row_set_expr. cbn [row_first]. rewrite addc_pos_irrel. apply ID.
  - rewrite !bind_fields_list. destruct (flat_map bind_leaves fs) as [|[m a] l]; [exists p; reflexivity|].
    cbn [bind_list]. rewrite addc_pos_irrel. apply ID.
  - exists p. reflexivity.
  - exists p. reflexivity.
  - exists p. reflexivity.
Qed.
Lemma calls_pos cs : forall q p, forallb names_clause cs = true -> exists p', calls (set_pos q p) cs = option_map (fun x => set_pos x p') (calls q cs).
Proof.
  induction cs as [|c cs IH]; intros q p H; [exists p; reflexivity|]. cbn [forallb] in H. apply andb_true_iff in H as [H1 H2].
  cbn [calls]. destruct (call_pos q p c H1) as (p1 & ->). destruct (call q c) as [x|]; [|exists 0; reflexivity]. cbn [option_map bind]. apply IH; exact H2.
Qed.
Lemma shown_pos d p q : shown d (set_pos q p) = shown d q.
Proof.
  unfold shown, stmt_string. cbn [set_pos st_sql st_args st_dest]. change (cache_key (set_pos q p)) with (cache_key q).
  change (render (is_pg d) (set_pos q p)) with (render (is_pg d) q).
  destruct (is_empty (st_sql q)); [|reflexivity]. destruct (get_cached _ _); [reflexivity|]. unfold render. cbn [set_pos st_buf st_chunks].
  destruct (render_loop _ _ _ _ _ _ _); reflexivity.
Qed.
Lemma clone_alike_unnamed r d q cs : clean r -> st_nl q = d_nl d -> st_name q = [] -> forallb names_clause cs = true ->
  (do q' <- clone r d q; do q2 <- calls q' cs; shown d q2) = (do q2 <- calls q cs; shown d q2).
Proof.
  intros Hr Hn Hm Hc. rewrite (clone_ren r d q Hr Hn). cbn [bind].
  replace (ren [] (st_pos r) q) with (set_pos q (st_pos r)) by (destruct q; cbn in Hm; subst; reflexivity).
  destruct (calls_pos cs q (st_pos r) Hc) as (p' & ->). destruct (calls q cs) as [x|]; [|reflexivity]. cbn [option_map bind]. apply shown_pos.
Qed.
