(** INSERT statements: column list, value list, bulk rows; UPDATE SET. *)
From Verif Require Import GoBase GoBaseFacts XsqlModel XsqlSpec XsqlUserSpec XsqlProofs XsqlPg XsqlSim XsqlRender XsqlUser XsqlStatic XsqlOrder.
From Coq Require Import ZifyBool ZifyNat Sorted.
Open Scope Z_scope.

Definition iw (nl : bool) (t : bytes) : list write :=
  let n := if nl then [ch 10] else [] in
  [mkWrite 300 (n ++ B "INSERT INTO") t [] (B ", "); mkWrite 399 (n ++ B "(") [] [] [];
   mkWrite 499 (n ++ B ") VALUES (") [] [] []; mkWrite 501 (n ++ B ")") [] [] []].
Definition fw (f : bytes) : write := mkWrite 400 [] f [] (B ", ").

Lemma insert_init nl t : s_hist (spec_ctor (init_state nl) (KInsertInto t)) = iw nl t.
Proof. reflexivity. Qed.

Lemma more_text_fw fs : Forall (fun f => f <> []) fs -> fs <> [] -> more_text true (map fw fs) = B ", " ++ join (B ", ") fs.
Proof.
  induction 1 as [|f fs Hf H IH]; intros Hne; [congruence|]. cbn [map more_text fw w_expr w_sep].
  apply is_empty_false in Hf. rewrite Hf. destruct fs as [|g fs]; [cbn; rewrite app_nil_r; reflexivity|].
  rewrite IH by discriminate. rewrite (join_cons _ f) by discriminate. reflexivity.
Qed.
Lemma clause_fw fs : Forall (fun f => f <> []) fs -> clause_text (map fw fs) = join (B ", ") fs.
Proof.
  intros H. destruct fs as [|f fs]; [reflexivity|]. inversion H as [|? ? H1 H2]; subst.
  cbn [map clause_text]. unfold first_text; cbn [fw w_kw w_expr is_empty orb app].
  apply is_empty_false in H1. rewrite H1. cbn [negb]. destruct fs as [|g fs]; [cbn; rewrite app_nil_r; reflexivity|].
  rewrite more_text_fw by (assumption || discriminate). rewrite (join_cons _ f) by discriminate. reflexivity.
Qed.
Lemma args_fw fs : clause_args (map fw fs) = [].
Proof.
  destruct fs as [|f fs]; [reflexivity|]. cbn [map clause_args fw w_args].
  induction fs as [|g fs IH]; [reflexivity|]. cbn [map more_args fw w_args w_expr]. destruct (is_empty g); exact IH.
Qed.

(** Any history made of the INSERT writes, column writes and value writes. *)
Lemma insert_hist nl t fs x : (t <> [] -> Forall (fun f => f <> []) fs -> fs <> [] ->
  Forall (fun w => w_pos w = 400 \/ w_pos w = 500) x -> at_pos 400 x = map fw fs -> at_pos 500 x <> [] ->
  spec_sql (iw nl t ++ x) = insert_text nl t fs (clause_text (at_pos 500 x)) /\
  spec_args (iw nl t ++ x) = clause_args (at_pos 500 x)).
Proof.
  intros Ht HF Hne HX H4 H5. set (h := iw nl t ++ x).
  assert (EP : positions h = [300; 399; 400; 499; 500; 501]).
  { rewrite (positions_filter [300; 399; 400; 499; 500; 501]).
    - assert (P : forall p, p <> 300 -> p <> 399 -> p <> 499 -> p <> 501 -> has_pos p h = has_pos p x).
      { intros p N1 N2 N3 N4. unfold h, has_pos, at_pos. rewrite filter_app. unfold iw. cbn [filter w_pos].
        replace (300 =? p) with false by lia. replace (399 =? p) with false by lia. replace (499 =? p) with false by lia.
        replace (501 =? p) with false by lia. reflexivity. }
      cbn [filter]. rewrite (P 400), (P 500) by lia. unfold has_pos at 3 5. rewrite H4.
      destruct fs; [congruence|]. destruct (at_pos 500 x); [congruence|]. reflexivity.
    - repeat (constructor; [|repeat (constructor; [lia|]); constructor]). constructor.
    - apply Forall_app. split; [repeat (constructor; [cbn; tauto|]); constructor|].
      eapply Forall_impl; [|exact HX]. intros w [->| ->]; cbn; tauto. }
  assert (A0 : forall p, p <> 400 -> p <> 500 -> at_pos p x = []).
  { intros p N1 N2. clear - HX N1 N2. unfold at_pos. induction HX as [|w x Hw HX IH]; [reflexivity|]. cbn [filter].
    destruct (Z.eqb_spec (w_pos w) p); [lia|]. exact IH. }
  assert (A300 : at_pos 300 h = [mkWrite 300 ((if nl then [ch 10] else []) ++ B "INSERT INTO") t [] (B ", ")]).
  { unfold h, at_pos. rewrite filter_app. fold (at_pos 300 x). rewrite A0 by lia. reflexivity. }
  assert (A399 : at_pos 399 h = [mkWrite 399 ((if nl then [ch 10] else []) ++ B "(") [] [] []]).
  { unfold h, at_pos. rewrite filter_app. fold (at_pos 399 x). rewrite A0 by lia. reflexivity. }
  assert (A499 : at_pos 499 h = [mkWrite 499 ((if nl then [ch 10] else []) ++ B ") VALUES (") [] [] []]).
  { unfold h, at_pos. rewrite filter_app. fold (at_pos 499 x). rewrite A0 by lia. reflexivity. }
  assert (A501 : at_pos 501 h = [mkWrite 501 ((if nl then [ch 10] else []) ++ B ")") [] [] []]).
  { unfold h, at_pos. rewrite filter_app. fold (at_pos 501 x). rewrite A0 by lia. reflexivity. }
  assert (A400 : at_pos 400 h = map fw fs).
  { rewrite <- H4. reflexivity. }
  assert (A500 : at_pos 500 h = at_pos 500 x) by reflexivity.
  unfold spec_sql, spec_text, spec_args. rewrite EP. cbn [map]. rewrite A300, A399, A400, A499, A500, A501.
  rewrite clause_fw by exact HF. rewrite args_fw. split.
  - unfold insert_text. f_equal. cbn [clause_text first_text more_text w_kw w_expr join].
    unfold first_text; cbn [w_kw w_expr]. apply is_empty_false in Ht. rewrite Ht. rewrite !orb_false_r, !orb_true_r.
    replace (is_empty ((if nl then [ch 10] else []) ++ B "INSERT INTO")) with false by (destruct nl; reflexivity).
    rewrite ?app_nil_r. rewrite <- ?app_assoc. reflexivity.
  - cbn [concat clause_args more_args w_args app]. rewrite app_nil_r. reflexivity.
Qed.

(** ** Rows *)
Definition set3 := (bytes * bytes * list goany)%type.
Definition good_set (x : set3) : Prop := snd (fst x) <> [].

Lemma row_true_400 sets ne : at_pos 400 (row_writes true ne sets) = map fw (row_cols sets).
Proof.
  revert ne. induction sets as [|[[f e] a] sets IH]; intros ne; [reflexivity|].
  cbn [row_writes row_cols map fst]. fold (row_writes true). unfold at_pos in *. rewrite filter_app, IH. reflexivity.
Qed.
Definition vw (x : set3) : write := mkWrite 500 [] (snd (fst x)) (snd x) (B ", ").
Lemma row_true_500 sets ne : at_pos 500 (row_writes true ne sets) = map vw sets.
Proof.
  revert ne. induction sets as [|[[f e] a] sets IH]; intros ne; [reflexivity|].
  cbn [row_writes map]. fold (row_writes true). unfold at_pos in *. rewrite filter_app, IH. reflexivity.
Qed.
Lemma row_true_pos sets ne : Forall (fun w => w_pos w = 400 \/ w_pos w = 500) (row_writes true ne sets).
Proof.
  revert ne. induction sets as [|[[f e] a] sets IH]; intros ne; [constructor|].
  cbn [row_writes]. fold (row_writes true). apply Forall_app. split; [constructor; [left; reflexivity|constructor; [right; reflexivity|constructor]]|apply IH].
Qed.
Lemma row_false_500 sets ne : at_pos 500 (row_writes false ne sets) = row_writes false ne sets.
Proof.
  revert ne. induction sets as [|[[f e] a] sets IH]; intros ne; [reflexivity|].
  cbn [row_writes]. fold (row_writes false). unfold at_pos in *. rewrite filter_app, IH. reflexivity.
Qed.
Lemma row_false_pos sets ne : Forall (fun w => w_pos w = 500) (row_writes false ne sets).
Proof.
  revert ne. induction sets as [|[[f e] a] sets IH]; intros ne; [constructor|].
  cbn [row_writes]. fold (row_writes false). apply Forall_app. split; [repeat constructor|apply IH].
Qed.

Lemma more_text_app a b has : more_text has (a ++ b) = more_text has a ++ more_text (has || clause_has a) b.
Proof.
  revert has. induction a as [|w a IH]; intros has; cbn [app more_text clause_has existsb].
  - rewrite orb_false_r. reflexivity.
  - fold (clause_has a). destruct (is_empty (w_expr w)) eqn:E; cbn [negb orb].
    + apply IH.
    + rewrite IH. rewrite orb_true_r. rewrite <- !app_assoc. reflexivity.
Qed.
Lemma more_args_app a b acc : more_args acc (a ++ b) = more_args (more_args acc a) b.
Proof. revert acc. induction a as [|w a IH]; intros acc; [reflexivity|]. cbn [app more_args]. apply IH. Qed.

Lemma row_false_tail sets : Forall good_set sets -> sets <> [] ->
  more_text true (row_writes false true sets) = B ", " ++ row_text sets.
Proof.
  induction 1 as [|[[f e] a] sets Hx H IH]; intros Hne; [congruence|].
  unfold good_set in Hx; cbn [fst snd] in Hx. cbn [row_writes]. fold (row_writes false). cbn [app more_text w_expr w_sep].
  apply is_empty_false in Hx. rewrite Hx. destruct sets as [|y sets]; [cbn; rewrite app_nil_r; reflexivity|].
  rewrite IH by discriminate. unfold row_text at 2. cbn [map fst snd]. rewrite (join_cons _ e) by discriminate. reflexivity.
Qed.
Lemma row_false_text sets : Forall good_set sets -> sets <> [] ->
  more_text true (row_writes false false sets) = row_text sets.
Proof.
  intros H Hne. destruct sets as [|[[f e] a] sets]; [congruence|]. inversion H as [|? ? Hx H']; subst.
  unfold good_set in Hx; cbn [fst snd] in Hx. cbn [row_writes]. fold (row_writes false). cbn [app more_text w_expr w_sep].
  apply is_empty_false in Hx. rewrite Hx. destruct sets as [|y sets]; [cbn; rewrite app_nil_r; reflexivity|].
  rewrite row_false_tail by (assumption || discriminate). unfold row_text at 2. cbn [map fst snd]. rewrite (join_cons _ e) by discriminate. reflexivity.
Qed.
Lemma row_false_args sets ne : Forall good_set sets -> forall acc,
  more_args acc (row_writes false ne sets) = acc ++ concat (map snd sets).
Proof.
  intros H. revert ne. induction H as [|[[f e] a] sets Hx H IH]; intros ne acc; [cbn; rewrite app_nil_r; reflexivity|].
  unfold good_set in Hx; cbn [fst snd] in Hx. cbn [row_writes]. fold (row_writes false). cbn [app more_args w_expr w_args].
  apply is_empty_false in Hx. rewrite Hx, IH. cbn [map concat snd]. rewrite app_assoc. reflexivity.
Qed.
Lemma clause_vw sets : Forall good_set sets -> sets <> [] ->
  clause_text (map vw sets) = row_text sets /\ clause_args (map vw sets) = concat (map snd sets).
Proof.
  intros H Hne. destruct sets as [|[[f e] a] sets]; [congruence|]. inversion H as [|? ? Hx H']; subst.
  unfold good_set in Hx; cbn [fst snd] in Hx. apply is_empty_false in Hx.
  assert (G : forall l, Forall good_set l -> l <> [] -> more_text true (map vw l) = B ", " ++ row_text l).
  { clear. induction 1 as [|[[f e] a] l Hx H IH]; intros Hne; [congruence|]. unfold good_set in Hx; cbn [fst snd] in Hx.
    cbn [map more_text vw w_expr w_sep fst snd]. apply is_empty_false in Hx. rewrite Hx.
    destruct l as [|y l]; [cbn; rewrite app_nil_r; reflexivity|]. rewrite IH by discriminate.
    unfold row_text at 2. cbn [map fst snd]. rewrite (join_cons _ e) by discriminate. reflexivity. }
  assert (GA : forall l, Forall good_set l -> forall acc, more_args acc (map vw l) = acc ++ concat (map snd l)).
  { clear. induction 1 as [|[[f e] a] l Hx H IH]; intros acc; [cbn; rewrite app_nil_r; reflexivity|]. unfold good_set in Hx; cbn [fst snd] in Hx.
    cbn [map more_args vw w_expr w_args fst snd]. apply is_empty_false in Hx. rewrite Hx, IH. cbn [concat map snd]. rewrite app_assoc. reflexivity. }
  split.
  - cbn [map clause_text]. unfold first_text; cbn [vw w_kw w_expr fst snd is_empty orb app]. rewrite Hx. cbn [negb].
    destruct sets as [|y sets]; [cbn; rewrite app_nil_r; reflexivity|]. rewrite G by (assumption || discriminate).
    unfold row_text at 2. cbn [map fst snd]. rewrite (join_cons _ e) by discriminate. reflexivity.
  - cbn [map clause_args vw w_args snd concat]. rewrite GA by exact H'. reflexivity.
Qed.

Definition sepw : write := mkWrite 500 [] (B " ") [] (B " ), (").
Definition later (sets : list set3) : list write := sepw :: row_writes false false sets.

Lemma later_text rows : Forall (fun sets => Forall good_set sets /\ sets <> []) rows -> rows <> [] ->
  more_text true (flat_map later rows) = B " ), ( " ++ rows_text rows.
Proof.
  induction 1 as [|sets rows [H1 H2] H IH]; intros Hne; [congruence|]. cbn [flat_map]. unfold later at 1. cbn [app].
  cbn [more_text sepw w_expr w_sep]. cbn [is_empty B list_ascii_of_string]. rewrite more_text_app, row_false_text by assumption.
  cbn [orb]. unfold rows_text. cbn [map]. destruct rows as [|r2 rows].
  - cbn [flat_map more_text map join]. rewrite app_nil_r. reflexivity.
  - rewrite IH by discriminate. rewrite (join_cons _ (row_text sets)) by discriminate. unfold rows_text. reflexivity.
Qed.
Lemma later_args rows : Forall (fun sets => Forall good_set sets /\ sets <> []) rows -> forall acc,
  more_args acc (flat_map later rows) = acc ++ rows_args rows.
Proof.
  induction 1 as [|sets rows [H1 H2] H IH]; intros acc; [cbn; rewrite app_nil_r; reflexivity|]. cbn [flat_map]. unfold later at 1. cbn [app].
  cbn [more_args sepw w_expr w_args]. cbn [is_empty B list_ascii_of_string]. rewrite app_nil_r, more_args_app, row_false_args by exact H1.
  rewrite IH. unfold rows_args. cbn [concat]. rewrite map_app, concat_app, app_assoc. reflexivity.
Qed.

Lemma later_hist rows : forall s, has_pos 500 (s_hist s) = true -> 
  s_hist (spec_calls s (map CNewRow rows)) = s_hist s ++ flat_map later rows.
Proof.
  induction rows as [|sets rows IH]; intros s Hs; [cbn; rewrite app_nil_r; reflexivity|].
  unfold spec_calls in *. cbn [map fold_left]. assert (E : emits s (CNewRow sets) = later sets) by (cbn [emits]; rewrite Hs; reflexivity).
  rewrite IH; cbn [spec_call s_hist]; rewrite E.
  - cbn [flat_map]. rewrite <- app_assoc. reflexivity.
  - rewrite has_pos_app, Hs. reflexivity.
Qed.

Lemma calls_dest_rows rows : forall s, s_dest (spec_calls s (map CNewRow rows)) = s_dest s.
Proof. induction rows as [|x rows IH]; intros s; [reflexivity|]. unfold spec_calls in *. cbn [map fold_left]. rewrite IH. cbn. apply app_nil_r. Qed.

Lemma rows_hist nl t row rows : row <> [] -> 
  s_hist (spec_build nl (KInsertInto t) (map CNewRow (row :: rows))) = iw nl t ++ row_writes true false row ++ flat_map later rows.
Proof.
  intros Hne. unfold spec_build. change (spec_calls (spec_ctor (init_state nl) (KInsertInto t)) (map CNewRow (row :: rows)))
    with (spec_calls (spec_call (spec_ctor (init_state nl) (KInsertInto t)) (CNewRow row)) (map CNewRow rows)).
  rewrite later_hist.
  - cbn [spec_call s_hist]. rewrite insert_init. assert (E : emits (spec_ctor (init_state nl) (KInsertInto t)) (CNewRow row) = row_writes true false row).
    { cbn [emits]. rewrite insert_init. destruct nl; reflexivity. }
    rewrite E, <- app_assoc. reflexivity.
  - cbn [spec_call s_hist]. rewrite has_pos_app. assert (E : emits (spec_ctor (init_state nl) (KInsertInto t)) (CNewRow row) = row_writes true false row).
    { cbn [emits]. rewrite insert_init. destruct nl; reflexivity. }
    rewrite E. apply orb_true_iff; right. unfold has_pos. rewrite row_true_500. destruct row; [congruence|reflexivity].
Qed.

Lemma later_500 rows : at_pos 500 (flat_map later rows) = flat_map later rows.
Proof.
  unfold at_pos. rewrite filter_flat_map. apply flat_map_in. intros y _. unfold later. cbn [filter sepw w_pos].
  change (500 =? 500) with true. cbn iota. f_equal. apply row_false_500.
Qed.
Lemma later_400 rows : at_pos 400 (flat_map later rows) = [].
Proof.
  unfold at_pos. rewrite filter_flat_map. induction rows as [|y rows IH]; [reflexivity|]. cbn [flat_map]. rewrite IH, app_nil_r.
  unfold later. cbn [filter sepw w_pos]. change (500 =? 400) with false. cbn iota. pose proof (row_false_pos y false) as HP.
  induction HP as [|w l Hw HP IHP]; [reflexivity|]. cbn [filter]. rewrite Hw. exact IHP.
Qed.

Lemma bulk_spec nl t row rows : t <> [] -> Forall (fun f => f <> []) (row_cols row) ->
  Forall (fun sets => Forall good_set sets /\ sets <> []) (row :: rows) ->
  spec_sql (s_hist (spec_build nl (KInsertInto t) (map CNewRow (row :: rows)))) = insert_text nl t (row_cols row) (rows_text (row :: rows)) /\
  spec_args (s_hist (spec_build nl (KInsertInto t) (map CNewRow (row :: rows)))) = rows_args (row :: rows).
Proof.
  intros Ht Hc HR. inversion HR as [|? ? [R1 R2] R3]; subst. rewrite rows_hist by exact R2.
  set (x := row_writes true false row ++ flat_map later rows).
  pose proof (later_500 rows) as L5. pose proof (later_400 rows) as L4.
  assert (A5 : at_pos 500 x = map vw row ++ flat_map later rows).
  { unfold x, at_pos in *. rewrite filter_app. fold (at_pos 500 (row_writes true false row)). rewrite row_true_500, L5. reflexivity. }
  assert (A4 : at_pos 400 x = map fw (row_cols row)).
  { unfold x, at_pos in *. rewrite filter_app. fold (at_pos 400 (row_writes true false row)). rewrite row_true_400, L4. apply app_nil_r. }
  destruct (insert_hist nl t (row_cols row) x Ht Hc) as [T A].
  - destruct row; [exfalso; apply R2; reflexivity|discriminate].
  - apply Forall_app. split; [apply row_true_pos|]. apply Forall_forall. intros w Hw. apply in_flat_map in Hw as (y & _ & Hw).
    right. destruct Hw as [<-|Hw]; [reflexivity|]. pose proof (row_false_pos y false) as HP. rewrite Forall_forall in HP. auto.
  - exact A4.
  - rewrite A5. destruct row; [exfalso; apply R2; reflexivity|discriminate].
  - rewrite T, A, A5. destruct (clause_vw row R1 R2) as [C1 C2].
    destruct row as [|y row]; [exfalso; apply R2; reflexivity|]. cbn [map app]. 
    assert (ET : clause_text (vw y :: map vw row ++ flat_map later rows) = rows_text ((y :: row) :: rows)).
    { unfold rows_text. cbn [map]. rewrite <- C1. cbn [map clause_text]. rewrite more_text_app.
      assert (Hh : negb (is_empty (w_expr (vw y))) = true).
      { inversion R1; subst. cbn [vw w_expr]. unfold good_set in *. destruct (snd (fst y)); [congruence|reflexivity]. }
      rewrite Hh. cbn [orb]. destruct rows as [|r2 rows]; [cbn [map flat_map more_text join]; rewrite app_nil_r; reflexivity|].
      rewrite later_text by (assumption || discriminate). rewrite (join_cons _ (first_text _ ++ _)) by discriminate.
      rewrite <- !app_assoc. reflexivity. }
    assert (EA : clause_args (vw y :: map vw row ++ flat_map later rows) = rows_args ((y :: row) :: rows)).
    { cbn [clause_args]. rewrite more_args_app, later_args by exact R3. unfold rows_args. cbn [concat]. rewrite map_app, concat_app.
      f_equal. rewrite <- C2. reflexivity. }
    rewrite ET, EA. split; reflexivity.
Qed.

Lemma bulk_observe r did d t row rows : clean r -> d_cache d = [] -> renderable d (KInsertInto t) (map CNewRow (row :: rows)) = true -> t <> [] -> Forall (fun f => f <> []) (row_cols row) ->
  Forall (fun sets => Forall good_set sets /\ sets <> []) (row :: rows) ->
  observe r did d (KInsertInto t) (map CNewRow (row :: rows)) =
    Some (numbered d (insert_text (d_nl d) t (row_cols row) (rows_text (row :: rows))), rows_args (row :: rows), []).
Proof.
  intros HC Hd Hp Ht Hc HR. destruct (bulk_spec (d_nl d) t row rows Ht Hc HR) as [T A].
  rewrite observe_hist; try assumption.
  - unfold shown_hist. rewrite T, A. f_equal. f_equal. unfold spec_build. rewrite calls_dest_rows. reflexivity.
  - apply standard_ok; [reflexivity|]. apply forallb_forall. intros c Hin. apply in_map_iff in Hin as (sets & <- & Hin).
    rewrite Forall_forall in HR. destruct (HR _ Hin) as [H1 _]. cbn [standard]. apply forallb_forall. intros y Hy.
    rewrite Forall_forall in H1. specialize (H1 y Hy). unfold good_set in H1. unfold arg_ok. apply is_empty_false in H1. rewrite H1. apply orb_true_r.
Qed.

(** A rectangle of values. *)
Lemma row_call_set cols vals : row_call cols vals = CNewRow (map (fun cv => (fst cv, B "?", [snd cv])) (combine cols vals)).
Proof. reflexivity. Qed.
Definition rect_row (cols : list bytes) (vals : list goany) : list set3 := map (fun cv => (fst cv, B "?", [snd cv])) (combine cols vals).
Lemma rect_cols cols : forall vals, length vals = length cols -> row_cols (rect_row cols vals) = cols.
Proof.
  induction cols as [|c cols IH]; intros [|v vals] H; try discriminate; [reflexivity|].
  unfold rect_row, row_cols in *. cbn [combine map fst]. f_equal. apply IH. cbn in H; lia.
Qed.
Lemma rect_text cols : forall vals, length vals = length cols -> row_text (rect_row cols vals) = row_marks (length cols).
Proof.
  intros vals H. unfold row_text, row_marks. f_equal. revert vals H. induction cols as [|c cols IH]; intros [|v vals] H; try discriminate; [reflexivity|].
  unfold rect_row in *. cbn [combine map fst snd length repeat]. f_equal. apply IH. cbn in H; lia.
Qed.
Lemma rect_args cols : forall vals, length vals = length cols -> concat (map snd (rect_row cols vals)) = vals.
Proof.
  induction cols as [|c cols IH]; intros [|v vals] H; try discriminate; [reflexivity|].
  unfold rect_row in *. cbn [combine map fst snd concat app]. f_equal. apply IH. cbn in H; lia.
Qed.
Lemma rect_observe r did d t cols vals vss : clean r -> d_cache d = [] ->
  (is_pg d = true -> pg_fragment t [] = true /\ forallb (fun c => pg_fragment c []) cols = true) ->
  t <> [] -> cols <> [] -> Forall (fun f => f <> []) cols -> Forall (fun v => length v = length cols) (vals :: vss) ->
  observe r did d (KInsertInto t) (map (row_call cols) (vals :: vss)) =
    Some (numbered d (insert_sql (d_nl d) t cols (S (length vss))), concat (vals :: vss), []).
Proof.
  intros HC Hd Hp Ht Hn Hf HL.
  replace (map (row_call cols) (vals :: vss)) with (map CNewRow (rect_row cols vals :: map (rect_row cols) vss))
    by (cbn [map]; rewrite map_map; reflexivity).
  assert (HL0 : length vals = length cols) by (inversion HL; assumption).
  rewrite bulk_observe; try assumption.
  - assert (E1 : rows_text (rect_row cols vals :: map (rect_row cols) vss) = join (B " ), ( ") (repeat (row_marks (length cols)) (S (length vss)))).
    { unfold rows_text. f_equal. cbn [map repeat]. rewrite rect_text by exact HL0. f_equal. inversion HL; subst. clear -H2. induction vss as [|v vss IH]; [reflexivity|].
      inversion H2; subst. cbn [map length repeat]. rewrite rect_text by assumption. f_equal. apply IH. assumption. }
    assert (E2 : rows_args (rect_row cols vals :: map (rect_row cols) vss) = concat (vals :: vss)).
    { unfold rows_args. rewrite <- (map_cons (rect_row cols)). clear -HL. induction (vals :: vss) as [|v l IH]; [reflexivity|].
      inversion HL; subst. cbn [map concat]. rewrite map_app, concat_app, rect_args by assumption. f_equal. apply IH; assumption. }
    rewrite rect_cols by exact HL0.
    exact (f_equal2 (fun a b => Some (numbered d (insert_text (d_nl d) t cols a), b, @nil Z)) E1 E2).
  - unfold renderable. destruct (is_pg d) eqn:Ep; [|reflexivity]. destruct (Hp eq_refl) as [P1 P2]. cbn [negb orb pg_ready_ctor pg_ready]. rewrite P1. cbn [andb].
    rewrite <- (map_cons (rect_row cols)), map_map. apply forallb_forall. intros c Hin. apply in_map_iff in Hin as (v & <- & Hin). cbn [pg_ready].
    apply forallb_forall. intros x Hx. unfold rect_row in Hx. apply in_map_iff in Hx as ([a b] & <- & Hx). apply in_combine_l in Hx.
    unfold pg_set. cbn [fst snd]. rewrite forallb_forall in P2. rewrite (P2 a Hx). reflexivity.
  - rewrite rect_cols by exact HL0. exact Hf.
  - rewrite <- (map_cons (rect_row cols)). apply Forall_forall. intros x Hx. apply in_map_iff in Hx as (v & <- & Hin).
    rewrite Forall_forall in HL. specialize (HL v Hin). split.
    + apply Forall_forall. intros y Hy. unfold rect_row in Hy. apply in_map_iff in Hy as (z & <- & _). unfold good_set. discriminate.
    + destruct cols; [congruence|]. destruct v; discriminate.
Qed.
