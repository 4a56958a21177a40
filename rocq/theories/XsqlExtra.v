(** Complements to the refuted properties C11, C15, C18: what does hold. *)
From Verif Require Import GoBase GoBaseFacts XsqlModel XsqlSpec XsqlUserSpec XsqlProofs XsqlPg XsqlSim XsqlRender
  XsqlUser XsqlValues XsqlStatic XsqlOrder XsqlInsert XsqlMore XsqlCache XsqlExec XsqlSub XsqlWorld.
From Coq Require Import ZifyBool ZifyNat.
Open Scope Z_scope.

(** ** C11: a text is only ever disturbed by a statement with the same key *)
Lemma string_other d q d1 q1 s k : stmt_string d q = Some (d1, q1, s) -> cache_key q <> k ->
  get_cached d1 k = get_cached d k /\ is_pg d1 = is_pg d.
Proof.
  unfold stmt_string. intros H Hk. destruct (is_empty (st_sql q)); [|injection H as <- _ _; auto].
  destruct (get_cached d (cache_key q)) eqn:E; [injection H as <- _ _; auto|].
  destruct (render (is_pg d) q); [|discriminate]. injection H as <- _ _. split; [|reflexivity].
  unfold get_cached, put_cached. cbn [d_cache assoc]. destruct (beqb k (cache_key q)) eqn:Eb; [apply beqb_eq in Eb; congruence|reflexivity].
Qed.
Lemma strings_other qs : forall d d1 l k, strings d qs = Some (d1, l) -> (forall q, In q qs -> cache_key q <> k) ->
  get_cached d1 k = get_cached d k /\ is_pg d1 = is_pg d.
Proof.
  induction qs as [|q qs IH]; intros d d1 l k H Hk; cbn [strings] in H; [injection H as <- _; auto|].
  destruct (stmt_string d q) as [[[d2 q2] s]|] eqn:ES; [|discriminate]. cbn [bind fst] in H.
  destruct (strings d2 qs) as [[d3 l3]|] eqn:E; [|discriminate]. cbn [bind] in H. injection H as <- _.
  destruct (string_other _ _ _ _ _ k ES) as [A1 A2]; [apply Hk; left; reflexivity|].
  destruct (IH _ _ _ k E) as [B1 B2]; [intros; apply Hk; right; assumption|]. rewrite B1, B2. auto.
Qed.
Lemma string_after d qs q d1 l d2 q2 s : strings d qs = Some (d1, l) -> (forall q', In q' qs -> cache_key q' <> cache_key q) ->
  get_cached d (cache_key q) = None -> st_sql q = [] -> stmt_string d1 q = Some (d2, q2, s) -> render (is_pg d) q = Some s.
Proof.
  intros H Hk Hn Hs E. destruct (strings_other _ _ _ _ _ H Hk) as [A1 A2]. unfold stmt_string in E. rewrite Hs in E. cbn [is_empty] in E.
  rewrite A1, Hn, A2 in E. destruct (render (is_pg d) q); [|discriminate]. injection E as _ _ ->. reflexivity.
Qed.

(** ** C15: once the clone has been positioned by a call that names a clause,
    Expr and SubQuery go where they go on the original *)
Lemma clone_same r d q : clean r -> st_nl q = d_nl d -> st_name q = [] -> clone r d q = Some (set_pos q (st_pos r)).
Proof.
  intros Hr Hn Hm. rewrite (clone_ren r d q Hr Hn). destruct q; cbn in Hm; subst; reflexivity.
Qed.
Lemma clone_positioned r d q c cs : clean r -> st_nl q = d_nl d -> st_name q = [] -> has_clause c = true ->
  (do q' <- clone r d q; calls q' (c :: cs)) = calls q (c :: cs).
Proof.
  intros Hr Hn Hm Hc. rewrite (clone_same r d q Hr Hn Hm). cbn [bind calls]. rewrite call_pos_set by exact Hc. reflexivity.
Qed.

(** ** C18: SubQuery with an empty prefix right after the expression it
    continues, when the inner statement has no arguments *)
(** The same call with [t] appended to its expression. *)
Definition continued (c : bcall) (t : bytes) : option bcall :=
  match c with
  | CSelect e a => Some (CSelect (e ++ t) a)
  | CFrom e a => Some (CFrom (e ++ t) a)
  | CWhere e a => Some (CWhere (e ++ t) a)
  | CHaving e a => Some (CHaving (e ++ t) a)
  | CReturning e => Some (CReturning (e ++ t))
  | CGroupBy e => Some (CGroupBy (e ++ t))
  | _ => None
  end.
Definition expression (c : bcall) : bytes :=
  match c with
  | CSelect e _ | CFrom e _ | CWhere e _ | CHaving e _ | CReturning e | CGroupBy e => e
  | _ => []
  end.
Definition opened_at (pos : Z) (q : stmt) (i : nat) : Prop := exists t, scan pos (rev (st_chunks q)) 0 = SMatch i t.
Lemma opened_at_mid pos q l1 c l2 : st_chunks q = rev l2 ++ c :: rev l1 -> ck_pos c = pos -> Forall (fun c => pos < ck_pos c) l1 ->
  opened_at pos q (length l2).
Proof.
  intros E Ec H. unfold opened_at. rewrite E, rev_app_distr. cbn [rev]. rewrite !rev_involutive, <- app_assoc. rewrite scan_app_gt by exact H.
  cbn [app scan]. rewrite Ec, Z.eqb_refl. eauto.
Qed.
(** addChunk returns the index of the chunk that a following search for the
    same clause finds. *)
Lemma add_chunk_at q pos kw e a sep q1 i : e <> [] -> add_chunk q pos kw e a sep = Some (q1, i) -> opened_at pos q1 i /\ st_pos q1 = pos.
Proof.
  intros He. assert (E1 : is_empty e = false) by (destruct e; [congruence|reflexivity]).
  unfold add_chunk. cbn [set_pos st_chunks st_buf st_args st_nl]. rewrite E1.
  destruct (scan_split pos (rev (st_chunks q)) 0) as (l1 & l2 & E & H1 & H2). destruct (rev_firstn_app _ _ _ E) as [F1 F2].
  destruct (scan pos (rev (st_chunks q)) 0) as [j t|j t] eqn:ES.
  - destruct H2 as (c & r & -> & Hc & ->). destruct (nth_error (st_chunks q) (length r)) as [c0|] eqn:EN; [|discriminate].
    assert (Ec : st_chunks q = rev r ++ c :: rev l1).
    { rewrite <- (rev_involutive (st_chunks q)), E, rev_app_distr. cbn [rev]. rewrite <- app_assoc. reflexivity. }
    assert (EN' : c0 = c). { rewrite Ec, nth_error_app2 in EN by (rewrite rev_length; lia). rewrite rev_length, Nat.sub_diag in EN. cbn in EN. congruence. }
    subst c0. destruct (ck_high c =? length (st_buf q))%nat; match goal with |- context [finish_chunk ?x ?b ?c ?d] => destruct (finish_chunk x b c d) as [[q2 k]|] eqn:EF end;
        try discriminate; intros H; injection H as <- <-; pose proof EF as EF'; apply finish_chunks in EF as [F3 F4]; split; try exact F4; cbn [set_chunks set_buf set_pos st_chunks] in F3.
    + assert (k = length r). { unfold finish_chunk in EF'. destruct a; [injection EF' as _ <-; reflexivity|]. destruct (insert_at _ _ _); [injection EF' as _ <-; reflexivity|discriminate]. }
      subst k. match type of F3 with _ = update_chunk _ _ ?x => apply (opened_at_mid pos q2 l1 x r) end; [rewrite F3; unfold update_chunk; rewrite Ec|exact Hc|exact H1].
      rewrite firstn_app, rev_length, Nat.sub_diag, <- (rev_length r), firstn_all. cbn [firstn]. rewrite app_nil_r. f_equal. f_equal.
      rewrite skipn_app. rewrite skipn_all2 by lia. replace (S (length (rev r)) - length (rev r))%nat with 1%nat by lia. reflexivity.
    + assert (k = S (length r)). { unfold finish_chunk in EF'. destruct a; [injection EF' as _ <-; reflexivity|]. destruct (insert_at _ _ _); [injection EF' as _ <-; reflexivity|discriminate]. }
      subst k. cbn [length] in F1, F2. eapply (opened_at_mid pos q2 l1 _ (c :: r)); [rewrite F3; unfold insert_chunk; rewrite F1, F2; reflexivity|reflexivity|exact H1].
  - subst j. match goal with |- context [finish_chunk ?x ?b ?c ?d] => destruct (finish_chunk x b c d) as [[q2 k]|] eqn:EF end; [|discriminate].
    intros H; injection H as <- <-; pose proof EF as EF'; apply finish_chunks in EF as [F3 F4]. split; [|exact F4]. cbn [set_chunks set_buf set_pos st_chunks] in F3.
    assert (k = length l2). { unfold finish_chunk in EF'. destruct a; [injection EF' as _ <-; reflexivity|]. destruct (insert_at _ _ _); [injection EF' as _ <-; reflexivity|discriminate]. }
    subst k. eapply (opened_at_mid pos q2 l1 _ l2); [rewrite F3; unfold insert_chunk; rewrite F1, F2; reflexivity|reflexivity|exact H1].
Qed.
Lemma add_then_tail_kw q pos kw p a sep text : p <> [] ->
  (do (q1, i) <- add_chunk q pos kw p a sep; write_tail q1 i text) = addc q pos kw (p ++ text) a sep.
Proof.
  intros Hp. assert (E1 : is_empty p = false) by (destruct p; [congruence|reflexivity]).
  assert (E2 : is_empty (p ++ text) = false) by (destruct p; [congruence|reflexivity]).
  unfold addc, add_chunk. cbn [set_pos st_chunks st_buf st_args st_nl]. rewrite E1, E2. cbn [negb].
  destruct (scan pos (rev (st_chunks q)) 0) as [i t|i t] eqn:ES.
  - destruct (nth_error (st_chunks q) i) as [c|] eqn:EN; [|reflexivity].
    destruct (ck_high c =? length (st_buf q))%nat.
    + erewrite finish_tail; [|eapply nth_update; exact EN|reflexivity]. erewrite update_update by exact EN.
      cbn [ck_pos ck_low ck_has ck_argLen]. rewrite <- !app_assoc. unfold bind. destruct (finish_chunk _ _ _ _) as [[? ?]|]; reflexivity.
    + apply scan_match_lt in ES. rewrite rev_length in ES.
      erewrite finish_tail; [|apply nth_insert; lia|reflexivity]. rewrite update_insert by lia.
      cbn [ck_pos ck_low ck_has ck_argLen]. rewrite <- !app_assoc. unfold bind. destruct (finish_chunk _ _ _ _) as [[? ?]|]; reflexivity.
  - apply scan_insert_le in ES. rewrite rev_length in ES.
    erewrite finish_tail; [|apply nth_insert; lia|reflexivity]. rewrite update_insert by lia.
    cbn [ck_pos ck_low ck_has ck_argLen app]. rewrite <- !app_assoc. unfold bind. destruct (finish_chunk _ _ _ _) as [[? ?]|]; reflexivity.
Qed.
Lemma empty_prefix_addc q pos kw e a sep q1 t x : e <> [] -> addc q pos kw e a sep = Some q1 ->
  call q1 (CSubQuery [] x t []) = addc q pos kw (e ++ t ++ x) a sep.
Proof.
  intros He H. rewrite <- add_then_tail_kw by exact He. unfold addc in H. destruct (add_chunk q pos kw e a sep) as [[q2 i]|] eqn:EA; [|discriminate].
  injection H as ->. destruct (add_chunk_at _ _ _ _ _ _ _ _ He EA) as [(tl & HS) HP]. cbn [call bind]. unfold sub_query_raw. rewrite HP.
  assert (EE : forall s, add_chunk q1 pos [] [] [] s = Some (q1, i)).
  { intros s. unfold add_chunk. cbn [set_pos st_chunks st_buf st_args st_nl]. rewrite HS. pose proof (scan_match_lt _ _ _ _ _ HS) as Hl. rewrite rev_length in Hl.
    destruct (nth_error (st_chunks q1) i) eqn:EN; [|apply nth_error_None in EN; lia]. cbn [is_empty length Nat.ltb Nat.leb].
    f_equal. f_equal. destruct q1; cbn in *; subst; reflexivity. }
  rewrite EE. reflexivity.
Qed.
Lemma addc_none q pos kw e a sep t : e <> [] -> addc q pos kw e a sep = None -> addc q pos kw (e ++ t) a sep = None.
Proof.
  intros He H. rewrite <- add_then_tail_kw by exact He. unfold addc in H. destruct (add_chunk q pos kw e a sep) as [[? ?]|]; [discriminate|reflexivity].
Qed.
Lemma empty_prefix_continues r did d k cs1 c c' t x cs2 : continued c (t ++ x) = Some c' -> expression c <> [] ->
  observe r did d k (cs1 ++ c :: CSubQuery [] x t [] :: cs2) = observe r did d k (cs1 ++ c' :: cs2).
Proof.
  intros Hc He. unfold observe, build. destruct (construct _ k) as [q0|] eqn:EK; [|reflexivity]. cbn [bind]. rewrite !calls_app.
  destruct (calls q0 cs1) as [q1|] eqn:E1; [|reflexivity]. cbn [bind].
  rewrite !calls_cons. destruct (call q1 c) as [q2|] eqn:E2; cycle 1.
  { replace (call q1 c') with (@None stmt); [reflexivity|]. symmetry.
    destruct c; cbn [continued expression] in *; try discriminate; injection Hc as <-; cbn [call] in *; apply addc_none; assumption. }
  cbn [bind calls].
  assert (EE : call q2 (CSubQuery [] x t []) = call q1 c').
  { destruct c; cbn [continued expression] in *; try discriminate; injection Hc as <-; cbn [call] in E2;
      rewrite (empty_prefix_addc _ _ _ _ _ _ _ t x He E2); reflexivity. }
  rewrite EE. reflexivity.
Qed.

(** ** Union appends after everything written so far *)
Lemma union_last r did d k cs all t a : clean r -> d_cache d = [] -> renderable d k (cs ++ [CUnion all t a]) = true ->
  ok_build (d_nl d) k cs = true ->
  let s := spec_build (d_nl d) k cs in
  observe r did d k (cs ++ [CUnion all t a]) =
  Some (numbered d (trim sql_ws (spec_text (s_hist s) ++ B " " ++ (if s_nl s then [ch 10] else []) ++ (if all then B "UNION ALL " else B "UNION ") ++ t)),
        spec_args (s_hist s) ++ a, s_dest s).
Proof.
  intros HC Hd Hp Hok s. assert (Hh : s_hist s <> []).
  { assert (G : forall cs s0, s_hist s0 <> [] -> s_hist (spec_calls s0 cs) <> []).
    { clear. induction cs as [|c cs IH]; intros s0 H; [exact H|]. unfold spec_calls in *. cbn [fold_left]. apply IH. cbn [spec_call s_hist].
      intros E. apply app_eq_nil in E as [E _]. auto. }
    apply G. destruct k; discriminate. }
  set (w := mkWrite (match max_pos (s_hist s) with None => 1500 | Some l => if 1500 <=? l then l + 1 else 1500 end) (nlkw s ((if all then B "UNION ALL " else B "UNION ") ++ t)) [] a []).
  assert (EH : s_hist (spec_build (d_nl d) k (cs ++ [CUnion all t a])) = s_hist s ++ [w]).
  { rewrite spec_build_app. reflexivity. }
  assert (HL : forall p, In p (positions (s_hist s)) -> p < w_pos w).
  { intros p Hin. unfold w; cbn [w_pos]. destruct (max_pos (s_hist s)) as [l|] eqn:E.
    - pose proof (max_pos_spec _ _ E p Hin). destruct (Z.leb_spec 1500 l); lia.
    - rewrite (max_pos_none _ E) in Hin. destruct Hin. }
  destruct (spec_text_snoc (s_hist s) w HL) as (T & A & _).
  rewrite observe_hist; try assumption.
  - unfold shown_hist. rewrite EH. unfold spec_sql. rewrite T, A. assert (ED : s_dest (spec_build (d_nl d) k (cs ++ [CUnion all t a])) = s_dest s).
    { rewrite spec_build_app. cbn. apply app_nil_r. }
    rewrite ED. replace (is_empty (s_hist s)) with false by (destruct (s_hist s); [congruence|reflexivity]).
    unfold first_text, w; cbn [w_kw w_expr w_args is_empty orb]. rewrite orb_true_r. cbn [app]. rewrite app_nil_r.
    unfold nlkw. destruct all; reflexivity.
  - unfold ok_build in *. apply andb_true_iff in Hok as [O1 O2]. rewrite O1. cbn [andb].
    assert (G : forall cs s0, ok_calls s0 cs = true -> ok_calls s0 (cs ++ [CUnion all t a]) = ok_call (spec_calls s0 cs) (CUnion all t a)).
    { clear. induction cs as [|c cs IH]; intros s0 H; [cbn [app ok_calls]; rewrite andb_true_r; reflexivity|].
      cbn [app ok_calls] in *. apply andb_true_iff in H as [-> H2]. cbn [andb]. rewrite IH by exact H2. reflexivity. }
    rewrite G by exact O2. unfold ok_call. rewrite andb_true_r. fold (spec_build (d_nl d) k cs). fold s. cbn [emits ok_writes]. rewrite andb_true_r.
    fold w. unfold ok_write.
    assert (EN : at_pos (w_pos w) (s_hist s) = []).
    { destruct (at_pos (w_pos w) (s_hist s)) eqn:E; [reflexivity|]. exfalso. assert (In (w_pos w) (positions (s_hist s))) by (apply positions_in; rewrite E; discriminate).
      specialize (HL _ H). lia. }
    rewrite EN. apply orb_true_r.
Qed.

(** ** A named statement keeps its first text *)
Definition keeps (q q' : stmt) : Prop := st_name q' = st_name q /\ (st_sql q' = st_sql q \/ st_sql q' = []).
Lemma keeps_refl q : keeps q q. Proof. split; auto. Qed.
Lemma keeps_trans a b c : keeps a b -> keeps b c -> keeps a c.
Proof. intros [N1 [A|A]] [N2 [C|C]]; (split; [congruence|]); [left|right|right|right]; congruence. Qed.
Lemma add_chunk_keeps q pos kw e a sep q' i : add_chunk q pos kw e a sep = Some (q', i) -> keeps q q'.
Proof.
  unfold add_chunk. destruct (scan _ _ _) as [j tail|j tail].
  - destruct (nth_error _ j) as [c|]; [|discriminate]. destruct (is_empty e).
    + destruct (0 <? length a)%nat.
      * destruct (_ <? 0); [discriminate|]. intros H; injection H as <- _. split; [reflexivity|left; reflexivity].
      * intros H; injection H as <- _. split; [reflexivity|left; reflexivity].
    + destruct (_ =? _)%nat; intros H; apply finish_fields in H as (F1 & _ & _ & F4); (split; [rewrite F1; reflexivity|right; exact F4]).
  - intros H; apply finish_fields in H as (F1 & _ & _ & F4); (split; [rewrite F1; reflexivity|right; exact F4]).
Qed.
Lemma addc_keeps q pos kw e a sep q' : addc q pos kw e a sep = Some q' -> keeps q q'.
Proof.
  unfold addc. destruct (add_chunk _ _ _ _ _ _) as [[q1 i]|] eqn:E; [|discriminate]. intros H; injection H as <-. eapply add_chunk_keeps; exact E.
Qed.
Lemma write_tail_keeps q i t q' : write_tail q i t = Some q' -> keeps q q'.
Proof. unfold write_tail. destruct (nth_error _ i); [|discriminate]. intros H; injection H as <-. split; [reflexivity|left; reflexivity]. Qed.
Lemma bind_some {A B} (o : option A) (f : A -> option B) b : bind o f = Some b -> exists a, o = Some a /\ f a = Some b.
Proof. destruct o; [|discriminate]. cbn. eauto. Qed.
Lemma sub_query_keeps q p s t a q' : sub_query_raw q p s t a = Some q' -> keeps q q'.
Proof.
  unfold sub_query_raw. intros H. apply bind_some in H as ([q1 i] & E1 & E2). eapply keeps_trans; [eapply add_chunk_keeps; exact E1|eapply write_tail_keeps; exact E2].
Qed.
Lemma row_sets_keeps l : forall q r q', row_sets q r l = Some q' -> keeps q q'.
Proof.
  induction l as [|[[f e] a] l IH]; intros q r q' H; [injection H as <-; apply keeps_refl|].
  cbn [row_sets] in H. apply bind_some in H as ([q1 r1] & E1 & E2). apply IH in E2. eapply keeps_trans; [|exact E2].
  unfold row_set_expr in E1. destruct (row_first r).
  - apply bind_some in E1 as (q2 & A1 & A2). apply bind_some in A2 as (q3 & A2 & A3). injection A3 as <- _.
    eapply keeps_trans; eapply addc_keeps; eassumption.
  - apply bind_some in E1 as (q2 & A1 & A2). injection A2 as <- _. eapply addc_keeps; eassumption.
Qed.
Lemma bind_field_keeps : forall f q q', bind_field f q = Some q' -> keeps q q'.
Proof.
  fix IH 1. intros [fs|tag addr] q q' H.
  - cbn [bind_field] in H. revert q q' H. induction fs as [|f fs IHf]; intros q q' H; [injection H as <-; apply keeps_refl|].
    apply bind_some in H as (q1 & E1 & E2). eapply keeps_trans; [apply (IH f); exact E1|apply IHf; exact E2].
  - cbn [bind_field] in H. destruct (is_empty tag); [injection H as <-; apply keeps_refl|].
    apply bind_some in H as (q1 & E1 & E2). injection E2 as <-. apply addc_keeps in E1. exact E1.
Qed.
Lemma bind_fields_keeps fs : forall q q', bind_fields fs q = Some q' -> keeps q q'.
Proof.
  induction fs as [|f fs IH]; intros q q' H; [injection H as <-; apply keeps_refl|].
  cbn [bind_fields] in H. apply bind_some in H as (q1 & E1 & E2). eapply keeps_trans; [eapply bind_field_keeps; exact E1|apply IH; exact E2].
Qed.
Lemma call_keeps q c q' : (forall n, c <> CSetName n) -> call q c = Some q' -> keeps q q'.
Proof.
  intros Hn. destruct c; cbn [call]; unfold limit, offset; try apply addc_keeps.
  - intros H; injection H as <-; split; [reflexivity|left; reflexivity].
  - unfold insert_into. intros H. repeat (apply bind_some in H as (? & ?E & H)). injection H as <-.
    repeat match goal with E : addc _ _ _ _ _ _ = _ |- _ => apply addc_keeps in E end.
    eapply keeps_trans; [eassumption|]. eapply keeps_trans; [eassumption|]. eapply keeps_trans; eassumption.
  - unfold set_expr. destruct (_ =? posInsert).
    + intros H. apply bind_some in H as (q1 & E1 & E2). eapply keeps_trans; eapply addc_keeps; eassumption.
    + destruct (_ =? posUpdate); [apply addc_keeps|intros H; injection H as <-; apply keeps_refl].
  - unfold set_expr. destruct (_ =? posInsert).
    + intros H. apply bind_some in H as (q1 & E1 & E2). eapply keeps_trans; eapply addc_keeps; eassumption.
    + destruct (_ =? posUpdate); [apply addc_keeps|intros H; injection H as <-; apply keeps_refl].
  - unfold paginate. intros H. apply bind_some in H as (q1 & E1 & E2). apply addc_keeps in E2. eapply keeps_trans; [|exact E2].
    destruct (1 <? _); [apply addc_keeps in E1; exact E1|injection E1 as <-; apply keeps_refl].
  - unfold with_raw. intros H. apply bind_some in H as (q1 & E1 & E2). eapply keeps_trans; [eapply addc_keeps; exact E1|eapply sub_query_keeps; exact E2].
  - apply sub_query_keeps.
  - unfold union_raw. intros H. apply bind_some in H as ([q1 i] & E1 & E2). eapply keeps_trans; [eapply add_chunk_keeps; exact E1|eapply write_tail_keeps; exact E2].
  - intros H. apply bind_some in H as ([q1 r] & E1 & E2). apply row_sets_keeps in E2. eapply keeps_trans; [|exact E2].
    unfold new_row in E1. destruct (row_is_first _); [injection E1 as <- _; apply keeps_refl|].
    apply bind_some in E1 as (q2 & A1 & A2). injection A2 as <- _. eapply addc_keeps; exact A1.
  - apply bind_fields_keeps.
  - intros H; injection H as <-; split; [reflexivity|left; reflexivity].
  - exfalso. apply (Hn n). reflexivity.
  - intros H; injection H as <-; split; [reflexivity|right; reflexivity].
Qed.
Lemma calls_keep cs : forall q q', (forall n, ~ In (CSetName n) cs) -> calls q cs = Some q' -> keeps q q'.
Proof.
  induction cs as [|c cs IH]; intros q q' Hn H; [injection H as <-; apply keeps_refl|].
  cbn [calls] in H. apply bind_some in H as (q1 & E1 & E2). eapply keeps_trans.
  - eapply call_keeps; [|exact E1]. intros n ->. apply (Hn n). left; reflexivity.
  - apply IH; [|exact E2]. intros n Hin. apply (Hn n). right; exact Hin.
Qed.
Lemma named_frozen d q d1 q1 s cs q2 : st_name q <> [] -> st_sql q = [] -> stmt_string d q = Some (d1, q1, s) ->
  (forall n, ~ In (CSetName n) cs) -> calls q1 cs = Some q2 -> exists q3, stmt_string d1 q2 = Some (d1, q3, s).
Proof.
  intros Hn Hs ES Hc EC. apply calls_keep in EC; [|exact Hc]. destruct EC as [N S].
  assert (K : forall x, st_name x <> [] -> cache_key x = st_name x) by (intros x Hx; unfold cache_key, strings_coalesce; destruct (st_name x); [congruence|reflexivity]).
  unfold stmt_string in ES. rewrite Hs in ES. cbn [is_empty] in ES.
  assert (G : get_cached d1 (st_name q) = Some s /\ q1 = set_sql q s).
  { rewrite (K q Hn) in ES. destruct (get_cached d (st_name q)) as [s0|] eqn:EG; [injection ES as <- <- <-; split; [exact EG|reflexivity]|].
    destruct (render _ q) as [s0|]; [|discriminate]. injection ES as <- <- <-. split; [apply put_get|reflexivity]. }
  destruct G as [G ->]. cbn [set_sql st_name st_sql] in N, S. unfold stmt_string. destruct (is_empty (st_sql q2)) eqn:Ee.
  - rewrite K by congruence. rewrite N, G. eexists; reflexivity.
  - destruct S as [S|S]; [|rewrite S in Ee; discriminate]. rewrite S. eexists; reflexivity.
Qed.

(** ** SubQuery with an empty prefix never adds an argument *)
(** Two statements that differ at most in the values of their arguments. *)
Definition alike (q q' : stmt) : Prop := exists a, q' = set_args q a /\ length a = length (st_args q).
Definition oalike (o o' : option stmt) : Prop :=
  match o, o' with Some q, Some q' => alike q q' | None, None => True | _, _ => False end.
Definition oalike2 {T} (o o' : option (stmt * T)) : Prop :=
  match o, o' with Some (q, i), Some (q', j) => alike q q' /\ i = j | None, None => True | _, _ => False end.
Lemma alike_refl q : alike q q.
Proof. exists (st_args q). split; [destruct q; reflexivity|reflexivity]. Qed.
Lemma oalike_bind o o' f : oalike o o' -> (forall q q', alike q q' -> oalike (f q) (f q')) -> oalike (bind o f) (bind o' f).
Proof. destruct o as [q|], o' as [q'|]; cbn; try contradiction; auto. Qed.
Lemma oalike2_bind {T} (o o' : option (stmt * T)) (f : stmt * T -> option stmt) : oalike2 o o' -> (forall q q' i, alike q q' -> oalike (f (q, i)) (f (q', i))) ->
  oalike (bind o f) (bind o' f).
Proof. destruct o as [[q i]|], o' as [[q' j]|]; cbn; try contradiction; auto. intros [H ->]; auto. Qed.
Lemma copy_at_length {T} (l src : list T) k : (k <= length l)%nat -> length (copy_at l k src) = length l.
Proof. intros H. unfold copy_at. rewrite !app_length, !firstn_length, skipn_length. lia. Qed.
Lemma insert_at_length {T} (l l' src : list T) k : length l = length l' ->
  match insert_at l src k, insert_at l' src k with Some x, Some y => length x = length y | None, None => True | _, _ => False end.
Proof.
  intros H. unfold insert_at. destruct src as [|s src]; [exact H|]. cbn zeta. rewrite H. destruct (k <? Z.of_nat (length l')) eqn:E.
  - destruct (k <? 0) eqn:E0; [exact I|].
    assert (K : forall z : list T, length z = length l' -> length (copy_at (copy_at (z ++ s :: src) (Z.to_nat k + length (s :: src)) (skipn (Z.to_nat k) (z ++ s :: src))) (Z.to_nat k) (s :: src)) = (length l' + S (length src))%nat).
    { intros z Hz. assert (L : length (z ++ s :: src) = (length l' + S (length src))%nat) by (rewrite app_length, Hz; reflexivity).
      rewrite copy_at_length; rewrite copy_at_length; rewrite ?L; cbn [length]; lia. }
    rewrite !K; auto.
  - rewrite !app_length, H. reflexivity.
Qed.
Lemma finish_alike q q' a t i : alike q q' -> oalike2 (finish_chunk q a t i) (finish_chunk q' a t i).
Proof.
  intros (b & -> & Hb). unfold finish_chunk. destruct a as [|x a].
  - split; [|reflexivity]. exists b. split; [destruct q; reflexivity|exact Hb].
  - cbn [set_args st_args]. rewrite Hb. pose proof (insert_at_length b (st_args q) (x :: a) (Z.of_nat (length (st_args q)) - Z.of_nat t) Hb) as HI.
    destruct (insert_at b _ _) as [u|], (insert_at (st_args q) _ _) as [v|]; try contradiction; [|exact I].
    split; [|reflexivity]. exists u. split; [destruct q; reflexivity|exact HI].
Qed.
Lemma add_chunk_alike q q' pos kw e a sep : alike q q' -> oalike2 (add_chunk q pos kw e a sep) (add_chunk q' pos kw e a sep).
Proof.
  intros (b & -> & Hb). unfold add_chunk. cbn [set_pos set_args st_chunks st_buf st_nl st_args]. rewrite Hb.
  destruct (scan _ _ _) as [i t|i t].
  - destruct (nth_error _ i) as [c|]; [|exact I]. destruct (is_empty e).
    + destruct (0 <? length a)%nat; cycle 1.
      { split; [|reflexivity]. exists b. split; [destruct q; reflexivity|exact Hb]. }
      destruct (_ <? 0) eqn:E0; [exact I|]. split; [|reflexivity]. eexists. split; [destruct q; reflexivity|].
      cbn [set_args set_pos st_args]. rewrite !copy_at_length; lia.
    + destruct (_ =? _)%nat; apply finish_alike; exists b; (split; [destruct q; reflexivity|exact Hb]).
  - apply finish_alike; exists b; (split; [destruct q; reflexivity|exact Hb]).
Qed.
Lemma addc_alike q q' pos kw e a sep : alike q q' -> oalike (addc q pos kw e a sep) (addc q' pos kw e a sep).
Proof.
  intros H. unfold addc. pose proof (add_chunk_alike q q' pos kw e a sep H) as HA.
  destruct (add_chunk q _ _ _ _ _) as [[x i]|], (add_chunk q' _ _ _ _ _) as [[y j]|]; try contradiction; [apply HA|exact I].
Qed.
Lemma write_tail_alike q q' i t : alike q q' -> oalike (write_tail q i t) (write_tail q' i t).
Proof.
  intros (b & -> & Hb). unfold write_tail. cbn [set_args st_chunks st_buf]. destruct (nth_error _ i); [|exact I].
  exists b. split; [destruct q; reflexivity|exact Hb].
Qed.
Lemma sub_query_alike q q' p s t a : alike q q' -> oalike (sub_query_raw q p s t a) (sub_query_raw q' p s t a).
Proof.
  intros H. unfold sub_query_raw. assert (HP : st_pos q' = st_pos q) by (destruct H as (b & -> & _); destruct q; reflexivity). rewrite HP.
  apply oalike2_bind; [apply add_chunk_alike; exact H|]. intros. apply write_tail_alike; assumption.
Qed.
Lemma row_set_alike q q' r f e a : alike q q' -> oalike2 (row_set_expr q r f e a) (row_set_expr q' r f e a).
Proof.
  intros H. unfold row_set_expr.
  assert (K : forall (o o' : option stmt) (r' : row), oalike o o' -> oalike2 (do q <- o; Some (q, r')) (do q <- o'; Some (q, r'))).
  { intros [x|] [y|] r'; cbn; try contradiction; auto. }
  destruct (row_first r); [|apply K, addc_alike, H].
  pose proof (addc_alike q q' posInsertFields [] f [] (B ", ") H) as HA.
  destruct (addc q posInsertFields _ _ _ _) as [x|], (addc q' posInsertFields _ _ _ _) as [y|]; try contradiction; [|exact I].
  cbn [bind]. apply K, addc_alike, HA.
Qed.
Lemma row_sets_alike l : forall q q' r, alike q q' -> oalike (row_sets q r l) (row_sets q' r l).
Proof.
  induction l as [|[[f e] a] l IH]; intros q q' r H; [exact H|]. cbn [row_sets].
  apply oalike2_bind; [apply row_set_alike; exact H|]. intros; apply IH; assumption.
Qed.
Lemma bind_field_alike : forall f q q', alike q q' -> oalike (bind_field f q) (bind_field f q').
Proof.
  fix IH 1. intros [fs|tag addr] q q' H.
  - cbn [bind_field]. revert q q' H. induction fs as [|f fs IHf]; intros q q' H; [exact H|].
    apply oalike_bind; [apply (IH f); exact H|]. intros; apply IHf; assumption.
  - cbn [bind_field]. destruct (is_empty tag); [exact H|]. apply oalike_bind; [apply addc_alike; exact H|].
    intros x y (b & -> & Hb). exists b. split; [destruct x; reflexivity|exact Hb].
Qed.
Lemma bind_fields_alike fs : forall q q', alike q q' -> oalike (bind_fields fs q) (bind_fields fs q').
Proof.
  induction fs as [|f fs IH]; intros q q' H; [exact H|]. cbn [bind_fields]. apply oalike_bind; [apply bind_field_alike; exact H|]. intros; apply IH; assumption.
Qed.
Lemma alike_chunks q q' : alike q q' -> st_chunks q' = st_chunks q. Proof. intros (b & -> & _); reflexivity. Qed.
Lemma set_expr_alike q q' f e a : alike q q' -> oalike (set_expr q f e a) (set_expr q' f e a).
Proof.
  intros H. unfold set_expr. rewrite (alike_chunks _ _ H). destruct (_ =? posInsert).
  - apply oalike_bind; [apply addc_alike; exact H|]. intros; apply addc_alike; assumption.
  - destruct (_ =? posUpdate); [apply addc_alike; exact H|exact H].
Qed.
Lemma call_alike q q' c : alike q q' -> oalike (call q c) (call q' c).
Proof.
  intros H. pose proof H as (b & Eq & Hb).
  destruct c; cbn [call]; unfold limit, offset; try (apply addc_alike; exact H); try (apply set_expr_alike; exact H); try (apply sub_query_alike; exact H); try (apply bind_fields_alike; exact H);
    try (exists b; subst q'; split; [destruct q; reflexivity|exact Hb]).
  - unfold insert_into. apply oalike_bind; [apply addc_alike; exact H|]. intros x1 y1 H1. apply oalike_bind; [apply addc_alike; exact H1|]. intros x2 y2 H2.
    apply oalike_bind; [apply addc_alike; exact H2|]. intros x3 y3 H3. apply oalike_bind; [apply addc_alike; exact H3|]. intros x4 y4 (u & -> & Hu).
    exists u. split; [destruct x4; reflexivity|exact Hu].
  - unfold paginate. apply oalike_bind; [destruct (1 <? _); [unfold offset; apply addc_alike; exact H|exact H]|]. intros x y Hxy. apply (addc_alike x y). exact Hxy.
  - replace (st_pos q') with (st_pos q) by (subst q'; reflexivity). apply addc_alike; exact H.
  - unfold clause. rewrite (alike_chunks _ _ H). apply addc_alike; exact H.
  - unfold with_raw. apply oalike_bind; [apply addc_alike; exact H|]. intros; apply sub_query_alike; assumption.
  - unfold union_raw. rewrite (alike_chunks _ _ H). apply oalike2_bind; [apply add_chunk_alike; exact H|]. intros; apply write_tail_alike; assumption.
  - assert (HN : oalike2 (new_row q) (new_row q')).
    { unfold new_row. rewrite (alike_chunks _ _ H). destruct (row_is_first _); [split; [exact H|reflexivity]|].
      pose proof (addc_alike q q' posValues [] (B " ") [] (B " ), (") H) as HA.
      destruct (addc q _ _ _ _ _) as [x|], (addc q' _ _ _ _ _) as [y|]; try contradiction; [split; [exact HA|reflexivity]|exact I]. }
    apply oalike2_bind; [exact HN|]. intros; apply row_sets_alike; assumption.
Qed.
Lemma calls_alike cs : forall q q', alike q q' -> oalike (calls q cs) (calls q' cs).
Proof. induction cs as [|c cs IH]; intros q q' H; [exact H|]. cbn [calls]. apply oalike_bind; [apply call_alike; exact H|]. intros; apply IH; assumption. Qed.

Lemma empty_prefix_alike q pos kw e a0 sep q1 t x a : e <> [] -> addc q pos kw e a0 sep = Some q1 ->
  match call q1 (CSubQuery [] x t a), call q1 (CSubQuery [] x t []) with Some u, Some v => alike v u | None, _ => True | Some _, None => False end.
Proof.
  intros He H. unfold addc in H. destruct (add_chunk q pos kw e a0 sep) as [[q2 i]|] eqn:EA; [|discriminate].
  injection H as ->. destruct (add_chunk_at _ _ _ _ _ _ _ _ He EA) as [(tl & HS) HP]. cbn [call]. unfold sub_query_raw. rewrite HP.
  unfold add_chunk. cbn [set_pos st_chunks st_buf st_args st_nl]. rewrite HS. pose proof (scan_match_lt _ _ _ _ _ HS) as Hl. rewrite rev_length in Hl.
  destruct (nth_error (st_chunks q1) i) eqn:EN; [|apply nth_error_None in EN; lia]. cbn [is_empty length].
  destruct (0 <? length a)%nat; cbn [Nat.ltb Nat.leb].
  - destruct (_ <? 0) eqn:E0; [exact I|]. cbn [bind]. unfold write_tail. cbn [set_args set_pos st_chunks st_buf]. rewrite EN.
    match goal with |- alike _ (set_chunks (set_buf (set_args _ ?z) _) _) => exists z end. split; [destruct q1; reflexivity|]. cbn [set_chunks set_buf set_pos st_args]. apply copy_at_length; lia.
  - cbn [bind]. unfold write_tail. cbn [set_args set_pos st_chunks st_buf]. rewrite EN. apply alike_refl.
Qed.
Lemma empty_prefix_loses r did d k cs1 c c' t x a cs2 s args ds : continued c (t ++ x) = Some c' -> expression c <> [] ->
  observe r did d k (cs1 ++ c :: CSubQuery [] x t a :: cs2) = Some (s, args, ds) ->
  exists args', observe r did d k (cs1 ++ c' :: cs2) = Some (s, args', ds) /\ length args' = length args.
Proof.
  intros Hc He. rewrite <- (empty_prefix_continues r did d k cs1 c c' t x cs2 Hc He).
  unfold observe, build. destruct (construct _ k) as [q0|] eqn:EK; [|discriminate]. cbn [bind]. rewrite !calls_app.
  destruct (calls q0 cs1) as [q1|] eqn:E1; [|discriminate]. cbn [bind].
  rewrite !calls_cons. destruct (call q1 c) as [q2|] eqn:E2; [|discriminate]. cbn [bind calls].
  assert (HA : match call q2 (CSubQuery [] x t a), call q2 (CSubQuery [] x t []) with Some u, Some v => alike v u | None, _ => True | Some _, None => False end).
  { destruct c; cbn [continued expression] in *; try discriminate; eapply empty_prefix_alike; try exact He; exact E2. }
  destruct (call q2 (CSubQuery [] x t a)) as [u|]; [|discriminate]. destruct (call q2 (CSubQuery [] x t [])) as [v|]; [|contradiction].
  cbn [bind]. pose proof (calls_alike cs2 v u HA) as HR. destruct (calls u cs2) as [u2|]; [|discriminate].
  destruct (calls v cs2) as [v2|]; [|contradiction]. destruct HR as (b & -> & Hb). cbn [bind]. unfold shown, stmt_string.
  change (st_sql (set_args v2 b)) with (st_sql v2). change (cache_key (set_args v2 b)) with (cache_key v2).
  change (render (is_pg d) (set_args v2 b)) with (render (is_pg d) v2).
  destruct (is_empty (st_sql v2)).
  - destruct (get_cached d (cache_key v2)) as [s0|]; cbn [bind].
    + intros [= <- <- <-]. eexists. split; [reflexivity|]. symmetry; exact Hb.
    + destruct (render (is_pg d) v2) as [s0|]; [|discriminate]. cbn [bind]. intros [= <- <- <-]. eexists. split; [reflexivity|]. symmetry; exact Hb.
  - cbn [bind]. intros [= <- <- <-]. eexists. split; [reflexivity|]. symmetry; exact Hb.
Qed.
