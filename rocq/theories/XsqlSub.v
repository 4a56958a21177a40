(** Sub-queries: SubQuery/With/Union behave as Expr/Where/Clause calls carrying
    the inner statement's text and arguments. *)
From Verif Require Import GoBase GoBaseFacts XsqlModel XsqlSpec XsqlUserSpec XsqlProofs XsqlPg XsqlSim XsqlRender XsqlUser XsqlStatic XsqlOrder.
From Coq Require Import ZifyBool ZifyNat.
Open Scope Z_scope.

Lemma nth_update l i c (x : chunk) : nth_error l i = Some x -> nth_error (update_chunk l i c) i = Some c.
Proof.
  revert i; induction l as [|y l IH]; intros [|i] H; try discriminate; [reflexivity|].
  unfold update_chunk in *. cbn. apply (IH i). exact H.
Qed.
Lemma update_update l i c c' (x : chunk) : nth_error l i = Some x -> update_chunk (update_chunk l i c) i c' = update_chunk l i c'.
Proof.
  revert i; induction l as [|y l IH]; intros [|i] H; try discriminate; [reflexivity|].
  unfold update_chunk in *. cbn. f_equal. apply (IH i). exact H.
Qed.
Lemma nth_insert l i (c : chunk) : (i <= length l)%nat -> nth_error (insert_chunk l i c) i = Some c.
Proof.
  revert i; induction l as [|y l IH]; intros [|i] H; try reflexivity; cbn in H; [lia|].
  unfold insert_chunk in *. cbn. apply IH. lia.
Qed.
Lemma update_insert l i (c c' : chunk) : (i <= length l)%nat -> update_chunk (insert_chunk l i c) i c' = insert_chunk l i c'.
Proof.
  revert i; induction l as [|y l IH]; intros [|i] H; try reflexivity; cbn in H; [lia|].
  unfold insert_chunk, update_chunk in *. cbn. f_equal. apply IH. lia.
Qed.
Lemma scan_insert_le pos rc : forall t i t', scan pos rc t = SInsert i t' -> (i <= length rc)%nat.
Proof.
  induction rc as [|c rc IH]; intros t i t'; cbn [scan]; [intros H; injection H as <- _; cbn; lia|].
  destruct (_ =? pos); [discriminate|]. destruct (_ <? pos); [intros H; injection H as <- _; cbn; lia|].
  intros H. apply IH in H. cbn; lia.
Qed.
Lemma scan_match_lt pos rc : forall t i t', scan pos rc t = SMatch i t' -> (i < length rc)%nat.
Proof.
  induction rc as [|c rc IH]; intros t i t'; cbn [scan]; [discriminate|].
  destruct (_ =? pos); [intros H; injection H as <- _; cbn; lia|]. destruct (_ <? pos); [discriminate|].
  intros H. apply IH in H. cbn; lia.
Qed.

(** Appending to the chunk just written is the same as writing the longer
    expression at once. *)
Lemma finish_tail q b cs a t i x text : nth_error cs i = Some x -> ck_high x = length b ->
  (do (q1, j) <- finish_chunk (set_chunks (set_buf q b) cs) a t i; write_tail q1 j text) =
  (do (q1, _) <- finish_chunk (set_chunks (set_buf q (b ++ text))
      (update_chunk cs i (mkChunk (ck_pos x) (ck_low x) (length (b ++ text)) (ck_has x) (ck_argLen x)))) a t i; Some q1).
Proof.
  intros Hn Hh. unfold finish_chunk. destruct a as [|a0 al].
  - cbn [bind]. unfold write_tail. cbn [invalidate set_sql set_chunks set_buf st_chunks st_buf]. rewrite Hn. reflexivity.
  - cbn [set_chunks set_buf st_args]. destruct (insert_at _ _ _) as [al'|]; [|reflexivity]. cbn [bind]. unfold write_tail.
    cbn [invalidate set_sql set_args set_chunks set_buf st_chunks st_buf]. rewrite Hn. reflexivity.
Qed.

Lemma add_then_tail q pos p a sep text : p <> [] ->
  (do (q1, i) <- add_chunk q pos [] p a sep; write_tail q1 i text) = addc q pos [] (p ++ text) a sep.
Proof.
  intros Hp. assert (E1 : is_empty p = false) by (destruct p; [congruence|reflexivity]).
  assert (E2 : is_empty (p ++ text) = false) by (destruct p; [congruence|reflexivity]).
  unfold addc, add_chunk. cbn [set_pos st_chunks st_buf st_args st_nl]. rewrite E1, E2. cbn [is_empty negb].
  destruct (scan pos (rev (st_chunks q)) 0) as [i t|i t] eqn:ES.
  - destruct (nth_error (st_chunks q) i) as [c|] eqn:EN; [|reflexivity].
    destruct (ck_high c =? length (st_buf q))%nat.
    + erewrite finish_tail; [|eapply nth_update; exact EN|reflexivity]. erewrite update_update by exact EN.
      cbn [ck_pos ck_low ck_has ck_argLen]. rewrite <- !app_assoc. unfold bind. destruct (finish_chunk _ _ _ _) as [[? ?]|]; reflexivity.
    + apply scan_match_lt in ES. rewrite rev_length in ES.
      erewrite finish_tail; [|apply nth_insert; lia|reflexivity]. rewrite update_insert by lia.
      cbn [ck_pos ck_low ck_has ck_argLen]. rewrite <- !app_assoc. unfold bind. destruct (finish_chunk _ _ _ _) as [[? ?]|]; reflexivity.
  - apply scan_insert_le in ES. rewrite rev_length in ES.
    erewrite finish_tail; [|apply nth_insert; lia|reflexivity]. rewrite update_insert by lia.
    cbn [ck_pos ck_low ck_has ck_argLen app]. rewrite <- !app_assoc. unfold bind. destruct (finish_chunk _ _ _ _) as [[? ?]|]; reflexivity.
Qed.

Lemma subquery_expr q p x t a : p <> [] -> st_pos q <> posWhere -> call q (CSubQuery p x t a) = call q (CExpr (p ++ t ++ x) a).
Proof.
  intros Hp Hq. cbn [call]. unfold sub_query_raw. replace (st_pos q =? posWhere) with false by lia. apply add_then_tail; exact Hp.
Qed.
Lemma subquery_where q p x t a : p <> [] -> st_pos q = posWhere -> call q (CSubQuery p x t a) = addc q posWhere [] (p ++ t ++ x) a (B " AND ").
Proof.
  intros Hp Hq. cbn [call]. unfold sub_query_raw. rewrite Hq. apply add_then_tail; exact Hp.
Qed.

(** Once a clause exists, its keyword is not written again. *)
Lemma scan_app_gt pos l1 : forall l2 t, Forall (fun c => pos < ck_pos c) l1 ->
  scan pos (l1 ++ l2) t = scan pos l2 (t + fold_right (fun c s => (ck_argLen c + s)%nat) 0%nat l1).
Proof.
  induction l1 as [|c l1 IH]; intros l2 t H; [cbn; f_equal; lia|]. inversion H; subst. cbn [app scan].
  replace (ck_pos c =? pos) with false by lia. replace (ck_pos c <? pos) with false by lia. rewrite IH by assumption. cbn [fold_right]. f_equal. lia.
Qed.
Lemma scan_split pos rc : forall t, exists l1 l2, rc = l1 ++ l2 /\ Forall (fun c => pos < ck_pos c) l1 /\
  match scan pos rc t with
  | SMatch i t' => exists c r, l2 = c :: r /\ ck_pos c = pos /\ i = length r
  | SInsert i t' => i = length l2
  end.
Proof.
  induction rc as [|c rc IH]; intros t; [exists [], []; repeat split; constructor|]. cbn [scan].
  destruct (Z.eqb_spec (ck_pos c) pos) as [E|E]; [exists [], (c :: rc); repeat split; [constructor|]; exists c, rc; repeat split; assumption|].
  destruct (Z.ltb_spec (ck_pos c) pos); [exists [], (c :: rc); repeat split; constructor|].
  destruct (IH (t + ck_argLen c)%nat) as (l1 & l2 & -> & H1 & H2). exists (c :: l1), l2. split; [reflexivity|]. split; [constructor; [lia|exact H1]|exact H2].
Qed.
Lemma rev_firstn_app {A} (l l1 l2 : list A) : rev l = l1 ++ l2 -> firstn (length l2) l = rev l2 /\ skipn (length l2) l = rev l1.
Proof.
  intros H. assert (E : l = rev l2 ++ rev l1) by (rewrite <- (rev_involutive l), H, rev_app_distr; reflexivity).
  rewrite E. rewrite <- (rev_length l2). split; [rewrite firstn_app, Nat.sub_diag, firstn_all; cbn; rewrite app_nil_r; reflexivity|].
  rewrite skipn_app, Nat.sub_diag, skipn_all. reflexivity.
Qed.

(** [opened pos q]: the search for clause [pos] succeeds. *)
Definition opened (pos : Z) (q : stmt) : Prop := exists i t, scan pos (rev (st_chunks q)) 0 = SMatch i t.
Lemma finish_chunks q a t i q' j : finish_chunk q a t i = Some (q', j) -> st_chunks q' = st_chunks q /\ st_pos q' = st_pos q.
Proof.
  unfold finish_chunk. destruct a; [intros H; injection H as <- _; auto|].
  destruct (insert_at _ _ _); [|discriminate]. intros H; injection H as <- _; auto.
Qed.
Lemma opened_mid pos q l1 c l2 : st_chunks q = rev l2 ++ c :: rev l1 -> ck_pos c = pos -> Forall (fun c => pos < ck_pos c) l1 -> opened pos q.
Proof.
  intros E Ec H. unfold opened. rewrite E, rev_app_distr. cbn [rev]. rewrite !rev_involutive, <- app_assoc. rewrite scan_app_gt by exact H.
  cbn [app scan]. rewrite Ec, Z.eqb_refl. eauto.
Qed.
Lemma addc_opens q pos kw e a sep q1 : addc q pos kw e a sep = Some q1 -> opened pos q1 /\ st_pos q1 = pos.
Proof.
  unfold addc, add_chunk. cbn [set_pos st_chunks st_buf st_args st_nl].
  destruct (scan_split pos (rev (st_chunks q)) 0) as (l1 & l2 & E & H1 & H2). destruct (rev_firstn_app _ _ _ E) as [F1 F2].
  destruct (scan pos (rev (st_chunks q)) 0) as [i t|i t] eqn:ES.
  - destruct H2 as (c & r & -> & Hc & ->). destruct (nth_error (st_chunks q) (length r)) as [c0|] eqn:EN; [|discriminate].
    assert (Ec : st_chunks q = rev r ++ c :: rev l1).
    { rewrite <- (rev_involutive (st_chunks q)), E, rev_app_distr. cbn [rev]. rewrite <- app_assoc. reflexivity. }
    assert (EN' : c0 = c). { rewrite Ec, nth_error_app2 in EN by (rewrite rev_length; lia). rewrite rev_length, Nat.sub_diag in EN. cbn in EN. congruence. }
    subst c0. destruct (is_empty e).
    + assert (O : opened pos q) by (exists (length r), t; exact ES).
      destruct (0 <? length a)%nat; [destruct (_ <? 0); [discriminate|]|]; intros H; injection H as <-; split; auto.
    + destruct (ck_high c =? length (st_buf q))%nat; match goal with |- context [finish_chunk ?x ?b ?c ?d] => destruct (finish_chunk x b c d) as [[q2 j]|] eqn:EF end;
        try discriminate; intros H; injection H as <-; apply finish_chunks in EF as [F3 F4]; split; try exact F4; cbn [set_chunks set_buf set_pos st_chunks] in F3.
      * match type of F3 with _ = update_chunk _ _ ?x => apply (opened_mid pos q2 l1 x r) end; [rewrite F3; unfold update_chunk; rewrite Ec|exact Hc|exact H1].
        rewrite firstn_app, rev_length, Nat.sub_diag, <- (rev_length r), firstn_all. cbn [firstn]. rewrite app_nil_r. f_equal. f_equal.
        rewrite skipn_app. rewrite skipn_all2 by lia. replace (S (length (rev r)) - length (rev r))%nat with 1%nat by lia. reflexivity.
      * cbn [length] in F1, F2. eapply (opened_mid pos q2 l1 _ (c :: r)); [rewrite F3; unfold insert_chunk; rewrite F1, F2; reflexivity|reflexivity|exact H1].
  - subst i. match goal with |- context [finish_chunk ?x ?b ?c ?d] => destruct (finish_chunk x b c d) as [[q2 j]|] eqn:EF end; [|discriminate].
    intros H; injection H as <-; apply finish_chunks in EF as [F3 F4]. split; [|exact F4]. cbn [set_chunks set_buf set_pos st_chunks] in F3.
    eapply (opened_mid pos q2 l1 _ l2); [rewrite F3; unfold insert_chunk; rewrite F1, F2; reflexivity|reflexivity|exact H1].
Qed.
Lemma opened_kw pos q kw e a sep : opened pos q -> addc q pos kw e a sep = addc q pos [] e a sep.
Proof. intros (i & t & H). unfold addc, add_chunk. cbn [set_pos st_chunks st_buf st_args st_nl]. rewrite H. reflexivity. Qed.

(** SubQuery right after a WHERE condition is one more condition. *)
Lemma subquery_after_where q c q1 p x t a : p <> [] -> is_clause (B "WHERE") c = true -> call q c = Some q1 ->
  call q1 (CSubQuery p x t a) = call q1 (CWhere (p ++ t ++ x) a).
Proof.
  intros Hp Hc E. assert (O : opened posWhere q1 /\ st_pos q1 = posWhere).
  { destruct c; try discriminate; cbn [call] in E; eapply addc_opens; exact E. }
  destruct O as [O P]. rewrite subquery_where by assumption. cbn [call]. symmetry. apply opened_kw; exact O.
Qed.

Lemma calls_cons q c cs : calls q (c :: cs) = (do q1 <- call q c; calls q1 cs).
Proof. reflexivity. Qed.

Lemma observe_where_sub r did d k cs1 c p x t a cs2 : p <> [] -> is_clause (B "WHERE") c = true ->
  observe r did d k (cs1 ++ c :: CSubQuery p x t a :: cs2) = observe r did d k (cs1 ++ c :: CWhere (p ++ t ++ x) a :: cs2).
Proof.
  intros Hp Hc. unfold observe, build. destruct (construct _ k) as [q0|]; [|reflexivity]. cbn [bind]. rewrite !calls_app.
  destruct (calls q0 cs1) as [q1|]; [|reflexivity]. cbn [bind calls]. destruct (call q1 c) as [q2|] eqn:E; [|reflexivity]. cbn [bind].
  rewrite (subquery_after_where q1 c q2) by assumption. reflexivity.
Qed.

(** A call of a clause other than WHERE leaves the statement's position there. *)
Lemma clause_pos q c q1 cl : clause_of c = Some cl -> cl <> B "WHERE" -> call q c = Some q1 -> st_pos q1 <> posWhere.
Proof.
  intros Hc Hn E. destruct c; cbn [clause_of] in Hc; try discriminate; cbn [call] in E; unfold limit, offset in E;
    try (apply addc_opens in E as [_ ->]; discriminate); try (exfalso; apply Hn; congruence).
  unfold with_raw in E. destruct (addc q posWith _ _ _ _) as [q2|] eqn:E2; [|discriminate]. apply addc_opens in E2 as [_ P]. cbn [bind] in E.
  unfold sub_query_raw in E. rewrite P in E. rewrite add_then_tail in E by (destruct name; discriminate). apply addc_opens in E as [_ ->]. discriminate.
Qed.
Lemma observe_expr_sub r did d k cs1 c cl p x t a cs2 : p <> [] -> clause_of c = Some cl -> cl <> B "WHERE" ->
  observe r did d k (cs1 ++ c :: CSubQuery p x t a :: cs2) = observe r did d k (cs1 ++ c :: CExpr (p ++ t ++ x) a :: cs2).
Proof.
  intros Hp Hc Hn. unfold observe, build. destruct (construct _ k) as [q0|]; [|reflexivity]. cbn [bind]. rewrite !calls_app.
  destruct (calls q0 cs1) as [q1|]; [|reflexivity]. cbn [bind calls]. destruct (call q1 c) as [q2|] eqn:E; [|reflexivity]. cbn [bind].
  rewrite subquery_expr; [reflexivity|exact Hp|]. eapply clause_pos; eassumption.
Qed.

(** Union is a Clause placed after everything written so far. *)
Lemma last_pos_scan cs p : (match last_pos cs with None => True | Some l => l < p end) -> scan p (rev cs) 0 = SInsert (length cs) 0.
Proof.
  intros H. destruct cs as [|c cs] using rev_ind; [reflexivity|]. rewrite rev_app_distr. cbn [rev app scan].
  assert (E : last_pos (cs ++ [c]) = Some (ck_pos c)).
  { clear. induction cs as [|x cs IH]; [reflexivity|]. cbn [app last_pos]. rewrite IH. destruct (cs ++ [c]) eqn:E; [destruct cs; discriminate|reflexivity]. }
  rewrite E in H. replace (ck_pos c =? p) with false by lia. replace (ck_pos c <? p) with true by lia. rewrite rev_length, app_length. cbn. f_equal. lia.
Qed.
Definition union_pos (q : stmt) : Z := match last_pos (st_chunks q) with None => posUnion | Some l => if posUnion <=? l then l + 1 else posUnion end.
Lemma union_clause q all t a : call q (CUnion all t a) = addc q (union_pos q) ((if all then B "UNION ALL " else B "UNION ") ++ t) [] a [].
Proof.
  cbn [call]. unfold union_raw. fold (union_pos q).
  assert (ES : scan (union_pos q) (rev (st_chunks q)) 0 = SInsert (length (st_chunks q)) 0).
  { apply last_pos_scan. unfold union_pos. destruct (last_pos (st_chunks q)) as [l|]; [|exact I]. destruct (Z.leb_spec posUnion l); lia. }
  unfold addc, add_chunk. cbn [set_pos st_chunks st_buf st_args st_nl]. rewrite ES.
  destruct all.
  - change (is_empty (B "UNION ALL " ++ t)) with false. change (is_empty (B "UNION ALL ")) with false. cbn [is_empty negb].
    erewrite finish_tail; [|apply nth_insert; lia|reflexivity]. rewrite update_insert by lia.
    cbn [ck_pos ck_low ck_has ck_argLen]. rewrite !app_nil_r, <- !app_assoc.
    unfold bind. destruct (finish_chunk _ _ _ _) as [[? ?]|]; reflexivity.
  - change (is_empty (B "UNION " ++ t)) with false. change (is_empty (B "UNION ")) with false. cbn [is_empty negb].
    erewrite finish_tail; [|apply nth_insert; lia|reflexivity]. rewrite update_insert by lia.
    cbn [ck_pos ck_low ck_has ck_argLen]. rewrite !app_nil_r, <- !app_assoc.
    unfold bind. destruct (finish_chunk _ _ _ _) as [[? ?]|]; reflexivity.
Qed.
