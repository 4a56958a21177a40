(** More facts: user-level statements in both dialects, Set, Bind, Clause,
    argument-less clauses in the postgres dialect. *)
From Verif Require Import GoBase GoBaseFacts XsqlModel XsqlSpec XsqlUserSpec XsqlProofs XsqlPg XsqlSim XsqlRender XsqlUser XsqlStatic XsqlOrder XsqlInsert.
From Coq Require Import ZifyBool ZifyNat Sorted.
Open Scope Z_scope.

Lemma dml_dest upd cs : forall s, forallb (dml_call upd) cs = true -> s_dest (spec_calls s cs) = s_dest s.
Proof.
  induction cs as [|c cs IH]; intros s H; [reflexivity|]. cbn [forallb] in H. apply andb_true_iff in H as [H1 H2].
  unfold spec_calls in *. cbn [fold_left]. rewrite IH by exact H2. cbn [spec_call s_dest].
  destruct c; try discriminate; cbn; apply app_nil_r.
Qed.

Definition user_text (d : dialect) (cs : list bcall) : bytes :=
  numbered d (user_sql (d_nl d) cs).

Lemma user_observe r did d k c0 cs : clean r -> d_cache d = [] -> start_call k = Some c0 ->
  forallb (dml_call (is_update k)) (c0 :: cs) = true -> renderable d k cs = true ->
  observe r did d k cs = Some (user_text d (c0 :: cs), user_args (c0 :: cs), []).
Proof.
  intros HC Hd Hs Hc Hr. destruct (dml_ok (d_nl d) k c0 cs Hs Hc) as [Hok Hh].
  rewrite observe_hist by assumption. destruct (dml_text (d_nl d) _ _ Hc) as [T1 T2]. rewrite Hh.
  assert (ED : s_dest (spec_build (d_nl d) k cs) = []).
  { unfold spec_build. cbn [forallb] in Hc. apply andb_true_iff in Hc as [_ Hc]. rewrite (dml_dest _ cs _ Hc).
    destruct k; try discriminate; reflexivity. }
  rewrite ED, T2. unfold shown_hist, spec_sql, user_text. rewrite T1. reflexivity.
Qed.

(** ** Set *)
Definition set_call (x : set3) : bcall := CSetExpr (fst (fst x)) (snd (fst x)) (snd x).

Lemma set_is_setexpr q f v : call q (CSet f v) = call q (CSetExpr f (B "?") [v]).
Proof. reflexivity. Qed.

Lemma insert_sets_hist nl t sets : forall s x, s_nl s = nl -> s_hist s = iw nl t ++ x ->
  s_hist (spec_calls s (map set_call sets)) = iw nl t ++ x ++ row_writes true false sets /\
  s_dest (spec_calls s (map set_call sets)) = s_dest s.
Proof.
  induction sets as [|[[f e] a] sets IH]; intros s x Hn Hh; [cbn; rewrite app_nil_r; auto|].
  unfold spec_calls in *. cbn [map fold_left]. unfold set_call at 2 4. cbn [fst snd].
  assert (E : emits s (CSetExpr f e a) = [fw f; vw (f, e, a)]).
  { cbn [emits]. rewrite Hh. rewrite has_pos_app. replace (has_pos 300 (iw nl t)) with true by (destruct nl; reflexivity). reflexivity. }
  destruct (IH (spec_call s (CSetExpr f e a)) (x ++ [fw f; vw (f, e, a)])) as [E1 E2].
  - exact Hn.
  - cbn [spec_call s_hist]. rewrite E, Hh, <- app_assoc. reflexivity.
  - rewrite E1, E2. split; [|cbn; apply app_nil_r].
    rewrite <- !app_assoc. do 2 f_equal. cbn [row_writes]. fold (row_writes true). cbn [app]. 
    assert (R : forall l n1 n2, row_writes true n1 l = row_writes true n2 l).
    { clear. induction l as [|[[f e] a] l IHl]; intros n1 n2; reflexivity. }
    rewrite (R sets true false). reflexivity.
Qed.

Lemma insert_sets_observe r did d t sets : clean r -> d_cache d = [] -> renderable d (KInsertInto t) (map set_call sets) = true -> t <> [] -> sets <> [] ->
  Forall (fun f => f <> []) (row_cols sets) -> Forall good_set sets ->
  observe r did d (KInsertInto t) (map set_call sets) =
    Some (numbered d (insert_text (d_nl d) t (row_cols sets) (row_text sets)), concat (map snd sets), []).
Proof.
  intros HC Hd Hp Ht Hne Hf Hg. rewrite observe_hist; try assumption.
  - destruct (insert_sets_hist (d_nl d) t sets (spec_ctor (init_state (d_nl d)) (KInsertInto t)) []) as [E1 E2].
    + reflexivity.
    + rewrite app_nil_r. apply insert_init.
    + unfold spec_build. rewrite E1, E2. cbn [app].
      destruct (clause_vw sets Hg Hne) as [C1 C2].
      destruct (insert_hist (d_nl d) t (row_cols sets) (row_writes true false sets) Ht Hf) as [T A].
      * destruct sets; [exfalso; apply Hne; reflexivity|discriminate].
      * apply row_true_pos.
      * apply row_true_400.
      * rewrite row_true_500. destruct sets; [exfalso; apply Hne; reflexivity|discriminate].
      * unfold shown_hist. rewrite T, A, row_true_500, C1, C2. reflexivity.
  - apply standard_ok; [reflexivity|]. apply forallb_forall. intros c Hin. apply in_map_iff in Hin as (x & <- & Hin).
    rewrite Forall_forall in Hg. specialize (Hg x Hin). unfold good_set in Hg. unfold set_call. cbn [standard]. unfold arg_ok.
    apply is_empty_false in Hg. rewrite Hg. apply orb_true_r.
Qed.

(** On a statement that is neither INSERT nor UPDATE Set does nothing. *)
Definition no_verb (c : bcall) : bool :=
  match c with CUpdate _ | CInsertInto _ => false | _ => standard c end.
Definition no_verb_ctor (k : ctor) : bool :=
  match k with KUpdate _ | KInsertInto _ => false | _ => ok_ctor k end.

Lemma row_no_verb first sets : forall ne, has_pos 300 (row_writes first ne sets) = false /\ has_pos 700 (row_writes first ne sets) = false.
Proof.
  induction sets as [|[[f e] a] sets IH]; intros ne; [split; reflexivity|]. cbn [row_writes]. fold (row_writes first).
  rewrite !has_pos_app. destruct (IH true) as [-> ->]. destruct first; split; reflexivity.
Qed.
Lemma no_verb_emits s c : no_verb c = true -> has_pos 300 (s_hist s) = false -> has_pos 700 (s_hist s) = false ->
  has_pos 300 (emits s c) = false /\ has_pos 700 (emits s c) = false.
Proof.
  intros H H3 H7. destruct c; cbn [no_verb standard] in H; try discriminate; try (split; reflexivity).
  - cbn [emits]. rewrite H3, H7. split; reflexivity.
  - cbn [emits]. rewrite H3, H7. split; reflexivity.
  - cbn [emits]. destruct (1 <? page); split; reflexivity.
  - cbn [emits]. destruct (has_pos 500 (s_hist s)); [|apply row_no_verb].
    destruct (row_no_verb false sets false) as [A B0]. split; [exact A|exact B0].
  - cbn [emits]. induction (flat_map bind_leaves fs) as [|x l IH]; [split; reflexivity|]. exact IH.
Qed.
Lemma no_verb_calls cs : forall s, forallb no_verb cs = true -> has_pos 300 (s_hist s) = false -> has_pos 700 (s_hist s) = false ->
  has_pos 300 (s_hist (spec_calls s cs)) = false /\ has_pos 700 (s_hist (spec_calls s cs)) = false.
Proof.
  induction cs as [|c cs IH]; intros s H H3 H7; [auto|]. cbn [forallb] in H. apply andb_true_iff in H as [H1 H2].
  unfold spec_calls in *. cbn [fold_left]. destruct (no_verb_emits s c H1 H3 H7) as [A B0].
  apply IH; [exact H2| |]; cbn [spec_call s_hist]; rewrite has_pos_app; rewrite ?H3, ?H7, ?A, ?B0; reflexivity.
Qed.
Lemma no_verb_standard cs : forallb no_verb cs = true -> forallb standard cs = true.
Proof. intros H. apply forallb_forall. intros c Hc. rewrite forallb_forall in H. specialize (H c Hc). destruct c; try discriminate; exact H. Qed.

Lemma set_nothing r did d k cs1 f e a cs2 : clean r -> no_verb_ctor k = true -> forallb no_verb cs1 = true ->
  observe r did d k (cs1 ++ CSetExpr f e a :: cs2) = observe r did d k (cs1 ++ cs2).
Proof.
  intros HC Hk Hc. unfold observe, build.
  assert (Hok : ok_ctor k = true) by (destruct k; try discriminate; exact Hk).
  assert (HB : ok_build (d_nl d) k cs1 = true) by (apply standard_ok; [exact Hok|apply no_verb_standard; exact Hc]).
  destruct (build_sim r did d k cs1 HC HB) as (q & E & HS & _). unfold build in E.
  destruct (construct (get_stmt r did d) k) as [q0|]; [|reflexivity]. cbn [bind] in *.
  rewrite !calls_app, E. cbn [bind calls call]. unfold set_expr. rewrite (set_expr_verb q _ HS).
  destruct (no_verb_calls cs1 (spec_ctor (init_state (d_nl d)) k) Hc) as [A B0].
  - destruct k; try discriminate; reflexivity.
  - destruct k; try discriminate; reflexivity.
  - unfold spec_build. rewrite A, B0. reflexivity.
Qed.

(** ** Bind *)
Definition bind_calls (l : list (bytes * Z)) : list bcall := flat_map (fun x => [CSelect (fst x) []; CTo [snd x]]) l.
Lemma bind_list_calls l : forall q, bind_list l q = calls q (bind_calls l).
Proof.
  induction l as [|[n a] l IH]; intros q; [reflexivity|]. cbn [bind_list bind_calls flat_map app calls call fst snd].
  fold (bind_calls l). change posSelect with posSelect. destruct (addc q posSelect (B "SELECT") n [] (B ", ")) as [q1|]; [|reflexivity].
  cbn [bind]. apply IH.
Qed.
Lemma bind_observe r did d k cs1 fs cs2 :
  observe r did d k (cs1 ++ CBind fs :: cs2) = observe r did d k (cs1 ++ bind_calls (flat_map bind_leaves fs) ++ cs2).
Proof.
  unfold observe, build. destruct (construct _ k) as [q|]; [|reflexivity]. cbn [bind].
  rewrite !calls_app. destruct (calls q cs1) as [q1|]; [|reflexivity]. cbn [bind calls call].
  rewrite bind_fields_list, bind_list_calls, calls_app. reflexivity.
Qed.

Lemma bind_pw nl (l : list (bytes * Z)) :
  map (fun x => mkWrite 900 (nlkw (init_state nl) (B "SELECT")) (fst x) [] (B ", ")) l
  = flat_map (pw nl) (map (fun x => CSelect (fst x) []) l).
Proof. induction l as [|x l IH]; [reflexivity|]. cbn [map flat_map]. rewrite <- IH. reflexivity. Qed.

(** From(t).Bind(&s) *)
Lemma from_bind r did d t fs : clean r -> d_cache d = [] -> renderable d (KFrom t []) [CBind fs] = true -> t <> [] ->
  flat_map bind_leaves fs <> [] -> Forall (fun x => fst x <> []) (flat_map bind_leaves fs) ->
  observe r did d (KFrom t []) [CBind fs] =
  Some (numbered d (user_sql (d_nl d) (CFrom t [] :: map (fun x => CSelect (fst x) []) (flat_map bind_leaves fs))), [], map snd (flat_map bind_leaves fs)).
Proof.
  intros HC Hd Hp Ht Hne HF. set (l := flat_map bind_leaves fs) in *. set (cs := map (fun x : bytes * Z => CSelect (fst x) []) l).
  rewrite observe_hist; try assumption; [|apply standard_ok; reflexivity]. unfold shown_hist.
  assert (Hc : forallb (dml_call false) (CFrom t [] :: cs) = true).
  { cbn [forallb dml_call]. apply is_empty_false in Ht. rewrite Ht. cbn [negb andb]. apply forallb_forall. intros c Hin.
    apply in_map_iff in Hin as (x & <- & Hin). rewrite Forall_forall in HF. specialize (HF x Hin). cbn [dml_call].
    destruct x as [n z]. cbn [fst] in *. apply is_empty_false in HF. rewrite HF. reflexivity. }
  assert (EH : s_hist (spec_build (d_nl d) (KFrom t []) [CBind fs]) = flat_map (pw (d_nl d)) (CFrom t [] :: cs)).
  { unfold cs. cbn [flat_map]. rewrite <- (bind_pw (d_nl d) l). reflexivity. }
  rewrite EH. destruct (dml_text (d_nl d) false _ Hc) as [T A]. unfold spec_sql. rewrite T, A.
  assert (ED : s_dest (spec_build (d_nl d) (KFrom t []) [CBind fs]) = map snd l) by reflexivity. rewrite ED. clearbody l.
  assert (EA : forall cl, u_clause_args cl (CFrom t [] :: cs) = []).
  { intros cl. unfold u_clause_args. assert (EP : concat (map snd (parts cl (CFrom t [] :: cs))) = []).
    { unfold parts. cbn [flat_map part]. rewrite map_app, concat_app.
      assert (concat (map snd (flat_map (fun c => match part c with Some (cl', e, a) => if clause_eqb cl cl' then [(e, a)] else [] | None => [] end) cs)) = []) as ->.
      { unfold cs. clear. induction l as [|x l IH]; [reflexivity|]. cbn [map flat_map part]. rewrite map_app, concat_app, IH. destruct (clause_eqb cl ClSelect); reflexivity. }
      destruct (clause_eqb cl ClFrom); reflexivity. }
    assert (EL : cl = ClLimit \/ cl = ClOffset -> parts cl (CFrom t [] :: cs) = []).
    { intros Hcl. unfold parts, cs. cbn [flat_map part]. replace (clause_eqb cl ClFrom) with false by (destruct Hcl; subst; reflexivity). cbn [app].
      clear -Hcl. induction l as [|x l IH]; [reflexivity|]. cbn [map flat_map part]. rewrite IH. destruct Hcl; subst; reflexivity. }
    destruct cl; try exact EP; rewrite EL by tauto; reflexivity. }
  assert (EU : user_args (CFrom t [] :: cs) = []) by (unfold user_args, clause_order; cbn [flat_map]; rewrite !EA; reflexivity).
  rewrite EU. reflexivity.
Qed.

(** ** Clause *)
Lemma spec_text_snoc h w : (forall p, In p (positions h) -> p < w_pos w) ->
  spec_text (h ++ [w]) = spec_text h ++ (if is_empty h then [] else B " ") ++ first_text w /\
  spec_args (h ++ [w]) = spec_args h ++ w_args w /\ positions (h ++ [w]) = positions h ++ [w_pos w].
Proof.
  intros Hlt. assert (EP : positions (h ++ [w]) = positions h ++ [w_pos w]).
  { rewrite positions_snoc. pose proof (positions_sorted h) as HS. clear -Hlt. induction (positions h) as [|x l IH]; [reflexivity|].
    cbn [ins_pos]. pose proof (Hlt x (or_introl eq_refl)). replace (w_pos w <? x) with false by lia. replace (w_pos w =? x) with false by lia.
    rewrite IH; [reflexivity|]. intros p Hp. apply Hlt. right; exact Hp. }
  assert (EN : at_pos (w_pos w) h = []).
  { destruct (at_pos (w_pos w) h) eqn:E; [reflexivity|]. exfalso. assert (In (w_pos w) (positions h)) by (apply positions_in; rewrite E; discriminate).
    specialize (Hlt _ H). lia. }
  assert (EM : forall p, In p (positions h) -> at_pos p (h ++ [w]) = at_pos p h).
  { intros p Hp. apply at_pos_snoc_neq. specialize (Hlt p Hp). lia. }
  unfold spec_text, spec_args. rewrite EP, !map_app. cbn [map]. rewrite at_pos_snoc_eq, EN. cbn [app].
  split; [|split; [|reflexivity]].
  - assert (E1 : map (fun p => clause_text (at_pos p (h ++ [w]))) (positions h) = map (fun p => clause_text (at_pos p h)) (positions h)).
    { apply map_ext_in. intros p Hp. rewrite EM by exact Hp. reflexivity. }
    rewrite E1. cbn [clause_text more_text]. rewrite app_nil_r.
    destruct h as [|w0 h]; [reflexivity|]. cbn [is_empty].
    assert (Hne : map (fun p => clause_text (at_pos p (w0 :: h))) (positions (w0 :: h)) <> []).
    { intros E. apply map_eq_nil in E. assert (In (w_pos w0) (positions (w0 :: h))).
      { apply positions_in. unfold at_pos. cbn [filter]. rewrite Z.eqb_refl. discriminate. }
      rewrite E in H. destruct H. }
    rewrite join_app by (exact Hne || discriminate). reflexivity.
  - assert (E1 : map (fun p => clause_args (at_pos p (h ++ [w]))) (positions h) = map (fun p => clause_args (at_pos p h)) (positions h)).
    { apply map_ext_in. intros p Hp. rewrite EM by exact Hp. reflexivity. }
    rewrite E1, concat_app. cbn [concat clause_args more_args]. rewrite app_nil_r. reflexivity.
Qed.

Lemma clause_last r did d k cs e a : clean r -> d_cache d = [] -> renderable d k (cs ++ [CClause e a]) = true ->
  ok_build (d_nl d) k cs = true -> e <> [] ->
  let s := spec_build (d_nl d) k cs in
  observe r did d k (cs ++ [CClause e a]) =
  Some (numbered d (trim sql_ws (spec_text (s_hist s) ++ B " " ++ (if s_nl s then [ch 10] else []) ++ e)), spec_args (s_hist s) ++ a, s_dest s).
Proof.
  intros HC Hd Hp Hok He s. assert (Hh : s_hist s <> []).
  { assert (G : forall cs s0, s_hist s0 <> [] -> s_hist (spec_calls s0 cs) <> []).
    { clear. induction cs as [|c cs IH]; intros s0 H; [exact H|]. unfold spec_calls in *. cbn [fold_left]. apply IH. cbn [spec_call s_hist].
      intros E. apply app_eq_nil in E as [E _]. auto. }
    apply G. destruct k; discriminate. }
  set (w := mkWrite (match max_pos (s_hist s) with None => 100 | Some p => p + 10 end) (nlkw s e) [] a (B ", ")).
  assert (EH : s_hist (spec_build (d_nl d) k (cs ++ [CClause e a])) = s_hist s ++ [w]).
  { rewrite spec_build_app. reflexivity. }
  assert (HL : forall p, In p (positions (s_hist s)) -> p < w_pos w).
  { intros p Hin. unfold w; cbn [w_pos]. destruct (max_pos (s_hist s)) as [l|] eqn:E.
    - pose proof (max_pos_spec _ _ E p Hin). lia.
    - rewrite (max_pos_none _ E) in Hin. destruct Hin. }
  destruct (spec_text_snoc (s_hist s) w HL) as (T & A & _).
  rewrite observe_hist; try assumption.
  - unfold shown_hist. rewrite EH. unfold spec_sql. rewrite T, A. assert (ED : s_dest (spec_build (d_nl d) k (cs ++ [CClause e a])) = s_dest s).
    { rewrite spec_build_app. cbn. apply app_nil_r. }
    rewrite ED. replace (is_empty (s_hist s)) with false by (destruct (s_hist s); [congruence|reflexivity]).
    unfold first_text, w; cbn [w_kw w_expr w_args is_empty orb]. rewrite orb_true_r. cbn [app]. rewrite app_nil_r.
    unfold nlkw. apply is_empty_false in He. rewrite He. reflexivity.
  - unfold ok_build in *. apply andb_true_iff in Hok as [O1 O2]. rewrite O1. cbn [andb].
    assert (G : forall cs s0, ok_calls s0 cs = true -> ok_calls s0 (cs ++ [CClause e a]) = ok_call (spec_calls s0 cs) (CClause e a)).
    { clear. induction cs as [|c cs IH]; intros s0 H; [cbn [app ok_calls]; rewrite andb_true_r; reflexivity|].
      cbn [app ok_calls] in *. apply andb_true_iff in H as [-> H2]. cbn [andb]. rewrite IH by exact H2. reflexivity. }
    rewrite G by exact O2. unfold ok_call. rewrite andb_true_r. fold (spec_build (d_nl d) k cs). fold s. cbn [emits ok_writes]. rewrite andb_true_r.
    fold w. unfold ok_write.
    assert (EN : at_pos (w_pos w) (s_hist s) = []).
    { destruct (at_pos (w_pos w) (s_hist s)) eqn:E; [reflexivity|]. exfalso. assert (In (w_pos w) (positions (s_hist s))) by (apply positions_in; rewrite E; discriminate).
      specialize (HL _ H). lia. }
    rewrite EN. apply orb_true_r.
Qed.

(** ** Argument-less clauses are copied by the postgres dialect *)
Lemma write_pg_out k s out : write_pg k s out = (fst (write_pg k s []), out ++ snd (write_pg k s [])).
Proof.
  unfold write_pg. assert (G : forall rest p start n o, pg_loop s rest p start n o =
     (let '(a, b, x) := pg_loop s rest p start n [] in (a, b, o ++ x))).
  { induction rest as [|c rest IH]; intros p start n o; cbn [pg_loop]; [rewrite app_nil_r; reflexivity|].
    destruct (p <? start)%nat; [apply IH|]. destruct (ascii_dec c c_bs).
    - destruct rest as [|c2 r2]; [apply IH|]. destruct (ascii_dec c2 c_qm).
      + rewrite IH, (IH _ _ _ ([] ++ _)). destruct (pg_loop s (c2 :: r2) _ _ _ []) as [[a b] x]. rewrite <- !app_assoc. reflexivity.
      + apply IH.
    - destruct (ascii_dec c c_qm); [|apply IH]. rewrite IH, (IH _ _ _ ([] ++ _)). destruct (pg_loop s rest _ _ _ []) as [[a b] x].
      rewrite <- !app_assoc. reflexivity. }
  rewrite G. destruct (pg_loop s s 0 0 k []) as [[a b] x]. cbn [fst snd]. destruct (a <? length s)%nat; cbn [snd]; rewrite ?app_assoc; reflexivity.
Qed.

Lemma render_same_pg buf p rest cs : Forall (fun c => ck_pos c = p) cs -> Forall (valid buf) cs ->
  forall k, exists k' x, (Forall (fun c => ck_argLen c = 0%nat) cs -> x = concat (map (sl buf) cs)) /\
   forall out, render_loop true buf false p k (cs ++ rest) out = render_loop true buf false p k' rest (out ++ x).
Proof.
  induction cs as [|c cs IH]; intros HP HV k.
  - exists k, []. split; [reflexivity|]. intros out; rewrite app_nil_r; reflexivity.
  - inversion HP; inversion HV; subst. destruct ((0 <? ck_argLen c)%nat) eqn:E.
    + destruct (IH ltac:(assumption) ltac:(assumption) (fst (write_pg k (sl buf c) []))) as (k' & x & _ & H').
      exists k', (snd (write_pg k (sl buf c) []) ++ x). split.
      { intros HA. inversion HA; subst. apply Nat.ltb_lt in E. lia. }
      intros out. cbn [app render_loop]. rewrite Z.ltb_irrefl. cbn [negb andb].
      rewrite slice_sl by assumption. rewrite E. cbn [andb]. rewrite write_pg_out. rewrite H', app_assoc. reflexivity.
    + destruct (IH ltac:(assumption) ltac:(assumption) k) as (k' & x & HX & H').
      exists k', (sl buf c ++ x). split.
      { intros HA. inversion HA; subst. cbn [map concat]. f_equal. auto. }
      intros out. cbn [app render_loop]. rewrite Z.ltb_irrefl. cbn [negb andb].
      rewrite slice_sl by assumption. rewrite E. cbn [andb]. rewrite H', app_assoc. reflexivity.
Qed.

Lemma render_groups_pg buf h ps css :
  Forall2 (fun p cs => repg buf p (at_pos p h) cs) ps css -> StronglySorted Z.lt ps ->
  forall k, exists f : Z -> bytes, (forall p, In p ps -> clause_args (at_pos p h) = [] -> f p = clause_text (at_pos p h)) /\
  forall first pos out, (first = true \/ Forall (Z.lt pos) ps) ->
  render_loop true buf first pos k (concat css) out =
  Some (out ++ (if first || is_empty ps then [] else B " ") ++ join (B " ") (map f ps)).
Proof.
  induction 1 as [|p cs ps css H1 H2 IH]; intros HS k.
  - exists (fun _ => []). split; [intros p []|]. intros first pos out Hf. cbn. rewrite orb_true_r, app_nil_r. reflexivity.
  - inversion HS as [|? ? HS' HF]; subst.
    pose proof (rg_ne _ _ _ _ H1) as Hne. pose proof (rg_pos _ _ _ _ H1) as Hp.
    pose proof (rg_valid _ _ _ _ H1) as Hv. pose proof (rg_text _ _ _ _ H1) as Ht. pose proof (rg_args _ _ _ _ H1) as Ha.
    destruct cs as [|c cs]; [congruence|]. inversion Hp as [|? ? Hp1 Hp2]; inversion Hv as [|? ? Hv1 Hv2]; subst.
    set (k1 := if (0 <? ck_argLen c)%nat then fst (write_pg k (sl buf c) []) else k).
    set (y := if (0 <? ck_argLen c)%nat then snd (write_pg k (sl buf c) []) else sl buf c).
    destruct (render_same_pg buf (ck_pos c) (concat css) cs Hp2 Hv2 k1) as (k2 & x & HX & HR).
    destruct (IH HS' k2) as (f & Hf1 & Hf2).
    assert (Hnotin : ~ In (ck_pos c) ps). { intros Hin. rewrite Forall_forall in HF. specialize (HF _ Hin). lia. }
    exists (fun p => if p =? ck_pos c then y ++ x else f p). split.
    + intros p Hin Harg. destruct (Z.eqb_spec p (ck_pos c)) as [->|Hn].
      * rewrite Harg in Ha. cbn [length] in Ha. unfold sum_args in Ha. cbn [map list_sum fold_right] in Ha.
        assert (H0 : ck_argLen c = 0%nat) by lia.
        assert (HC : Forall (fun c => ck_argLen c = 0%nat) cs).
        { assert (Hs : list_sum (map ck_argLen cs) = 0%nat) by (unfold list_sum; lia). clear -Hs. unfold list_sum in Hs.
          induction cs as [|z cs IHc]; [constructor|]. cbn [map fold_right] in Hs. constructor; [lia|apply IHc; lia]. }
        unfold y. rewrite H0. cbn [Nat.ltb Nat.leb]. rewrite (HX HC), <- Ht. reflexivity.
      * destruct Hin as [Hin|Hin]; [congruence|]. apply Hf1; assumption.
    + intros first pos out Hf. cbn [concat app map is_empty render_loop]. rewrite orb_false_r. rewrite slice_sl by assumption.
      rewrite Z.eqb_refl.
      rewrite (map_ext_in _ f ps).
      2: { intros p Hin. destruct (Z.eqb_spec p (ck_pos c)); [subst; contradiction|reflexivity]. }
      assert (EO : (if negb first && (pos <? ck_pos c) then out ++ B " " else out) = out ++ (if first then [] else B " ")).
      { destruct first; cbn [negb andb]; [symmetry; apply app_nil_r|]. destruct Hf as [Hf|Hf]; [discriminate|].
        inversion Hf; subst. destruct (Z.ltb_spec pos (ck_pos c)); [reflexivity|lia]. }
      rewrite EO. set (o1 := out ++ (if first then [] else B " ")).
      assert (ES : (if (0 <? ck_argLen c)%nat && true then let '(argNo', out2) := write_pg k (sl buf c) o1 in render_loop true buf false (ck_pos c) argNo' (cs ++ concat css) out2
                    else render_loop true buf false (ck_pos c) k (cs ++ concat css) (o1 ++ sl buf c))
                   = render_loop true buf false (ck_pos c) k1 (cs ++ concat css) (o1 ++ y)).
      { unfold k1, y. destruct ((0 <? ck_argLen c)%nat); cbn [andb]; [|reflexivity]. rewrite write_pg_out. reflexivity. }
      cbn zeta. etransitivity; [exact ES|]. rewrite HR, Hf2 by (right; exact HF). unfold o1. f_equal. rewrite <- !app_assoc. do 2 f_equal. cbn [orb].
      destruct ps as [|p2 ps]; [cbn; rewrite ?app_nil_r; reflexivity|].
      rewrite (join_cons _ (y ++ x)) by discriminate. cbn [is_empty]. rewrite <- ?app_assoc. reflexivity.
Qed.

Lemma render_pg_verbatim q s : Sim q s ->
  exists f, (forall p, In p (positions (s_hist s)) -> clause_args (at_pos p (s_hist s)) = [] -> f p = clause_text (at_pos p (s_hist s))) /\
  render true q = Some (trim sql_ws (join (B " ") (map f (positions (s_hist s))))).
Proof.
  intros (((css & E & H2 & _) & _) & _). destruct (render_groups_pg _ _ _ _ H2 (positions_sorted _) 1) as (f & F1 & F2).
  exists f. split; [exact F1|]. unfold render. rewrite E, F2 by (left; reflexivity). reflexivity.
Qed.

Lemma observe_pg_verbatim r did d k cs : clean r -> d_cache d = [] -> is_pg d = true -> ok_build (d_nl d) k cs = true ->
  let h := s_hist (spec_build (d_nl d) k cs) in
  exists f, (forall p, In p (positions h) -> clause_args (at_pos p h) = [] -> f p = clause_text (at_pos p h)) /\
  observe r did d k cs = Some (trim sql_ws (join (B " ") (map f (positions h))), spec_args h, s_dest (spec_build (d_nl d) k cs)).
Proof.
  intros HC Hd Hp Hok h. destruct (build_sim r did d k cs HC Hok) as (q & E & HS & Hs & _).
  destruct (render_pg_verbatim q _ HS) as (f & F1 & F2). exists f. split; [exact F1|].
  unfold observe. rewrite E. cbn [bind]. unfold shown. rewrite cold_string by assumption. rewrite Hp, F2. cbn [bind].
  destruct HS as (((css & _ & _ & EA) & _) & _ & _ & ED). rewrite EA, ED. reflexivity.
Qed.
