(** C141, C142, C146, C147: executing and releasing, Row values, the default dialect. *)
From Verif Require Import GoBase GoBaseFacts XsqlModel XsqlProofs XsqlSub XsqlRender XsqlExec XsqlHandles.
Open Scope Z_scope.
Definition ex_stmt (d : dialect) k cs : stmt := match build new_stmt 1 d k cs with Some q => q | None => new_stmt end.
Definition ex_plain : dialect := mkDialect (B "") [] false.

(** ** C141: what is sent is String() and Args(); AndClose releases exactly once *)
Lemma string_parts d q d2 q2 s : stmt_string d q = Some (d2, q2, s) -> shown d q = Some (s, st_args q2, st_dest q2).
Proof.
  intros ES. unfold shown. rewrite ES. cbn [bind]. enough (st_args q2 = st_args q /\ st_dest q2 = st_dest q) as [-> ->] by reflexivity.
  unfold stmt_string in ES. destruct (is_empty (st_sql q)); [|injection ES as <- <- <-; auto].
  destruct (get_cached _ _); [injection ES as <- <- <-; auto|]. destruct (render _ _); [injection ES as <- <- <-; auto|discriminate].
Qed.
Theorem C141_exec : forall d q db text args dest, shown d q = Some (text, args, dest) ->
  exists d1 q1, exec d q db = Some (d1, q1, [EvExec text args], db text args) /\ st_args q1 = args /\ st_dest q1 = dest.
Proof.
  intros d q db text args dest H. unfold exec. destruct (stmt_string d q) as [[[d2 q2] s]|] eqn:E; [|unfold shown in H; rewrite E in H; discriminate].
  rewrite (string_parts _ _ _ _ _ E) in H. injection H as <- <- <-. eexists _, _. split; [reflexivity|]. split; reflexivity.
Qed.
Theorem C141_query_row : forall d q db text args dest, shown d q = Some (text, args, dest) ->
  exists d1 q1, query_row d q db = Some (d1, q1, [EvQueryRow text args; EvScan 0 dest], db text args) /\ st_args q1 = args /\ st_dest q1 = dest.
Proof.
  intros d q db text args dest H. unfold query_row. destruct (stmt_string d q) as [[[d2 q2] s]|] eqn:E; [|unfold shown in H; rewrite E in H; discriminate].
  rewrite (string_parts _ _ _ _ _ E) in H. injection H as <- <- <-. eexists _, _. split; [reflexivity|]. split; reflexivity.
Qed.
(** The AndClose variants make the same calls and return the same error; then the
    statement is released, once, whether or not the call failed, and what goes back
    to the pool is empty. *)
Theorem C141_exec_and_close : forall d q db text args dest, shown d q = Some (text, args, dest) ->
  exists d1 q1, exec_and_close d q db = Some (d1, q1, [EvExec text args; EvRelease], db text args) /\ clean q1.
Proof.
  intros d q db text args dest H. destruct (C141_exec d q db text args dest H) as (d1 & q1 & E & _). unfold exec_and_close. rewrite E. eexists _, _. split; [reflexivity|]. repeat split; reflexivity.
Qed.
Theorem C141_query_row_and_close : forall d q db text args dest, shown d q = Some (text, args, dest) ->
  exists d1 q1, query_row_and_close d q db = Some (d1, q1, [EvQueryRow text args; EvScan 0 dest; EvRelease], db text args) /\ clean q1.
Proof.
  intros d q db text args dest H. destruct (C141_query_row d q db text args dest H) as (d1 & q1 & E & _). unfold query_row_and_close. rewrite E. eexists _, _. split; [reflexivity|]. repeat split; reflexivity.
Qed.
Theorem C141_query_and_close : forall d q db handler text args dest, shown d q = Some (text, args, dest) ->
  exists d1 q0 q1 t e, query d q db handler = Some (d1, q0, t, e) /\ query_and_close d q db handler = Some (d1, q1, t ++ [EvRelease], e) /\ queries t = [(text, args)] /\ releases t = 0%nat /\ clean q1.
Proof.
  intros d q db handler text args dest H. unfold query_and_close. destruct (query d q db handler) as [[[[d1 q1] t] e]|] eqn:E.
  - exists d1, q1, (reuse_stmt q1), t, e. split; [reflexivity|]. split; [reflexivity|]. destruct (query_spec _ _ _ _ _ _ _ _ E) as (s & Sh & Q & _). rewrite Sh in H. injection H as H1 H2 _. split; [rewrite <- H1, <- H2; exact Q|]. split; [|repeat split; reflexivity].
    revert E. unfold query. destruct (stmt_string d q) as [[[d2 q2] s2]|]; [|discriminate]. destruct (db s2 (st_args q2)) as [rs|x]; [|intros E; injection E as _ _ <- _; reflexivity].
    destruct (query_loop (st_dest q2) handler 0 (rs_rows rs)) as [tl er] eqn:EL. intros E; injection E as _ _ <- _. unfold releases. cbn [filter].
    assert (L : forall rows n t e, query_loop (st_dest q2) handler n rows = (t, e) -> filter (fun e => match e with EvRelease => true | _ => false end) t = []).
    { clear. induction rows as [|r rows IH]; intros n t e; cbn [query_loop]; [intros X; injection X as <- _; reflexivity|]. destruct (st_dest q2) as [|z ds].
      - destruct (query_loop [] handler (S n) rows) as [t1 e1] eqn:E1. intros X; injection X as <- _. specialize (IH _ _ _ E1). destruct handler; exact IH.
      - destruct r; [intros X; injection X as <- _; reflexivity|]. destruct (query_loop (z :: ds) handler (S n) rows) as [t1 e1] eqn:E1. intros X; injection X as <- _. specialize (IH _ _ _ E1). destruct handler; exact IH. }
    rewrite filter_app, (L _ _ _ _ EL). reflexivity.
  - unfold query in E. unfold shown in H. destruct (stmt_string d q) as [[[d2 q2] s2]|]; [|discriminate H]. destruct (db s2 (st_args q2)); [|discriminate E]. destruct (query_loop _ _ _ _); discriminate E.
Qed.
Example ex_C141 : exists d1 q1, exec_and_close ex_plain (ex_stmt ex_plain (KDeleteFrom (B "t")) [CWhere (B "id = ?") [AInt 4]]) (fun _ _ => Some 3) =
  Some (d1, q1, [EvExec (B "DELETE FROM t WHERE id = ?") [AInt 4]; EvRelease], Some 3).
Proof. eexists _, _. vm_compute. reflexivity. Qed.

(** ** C142: rows are closed and the statement is released however the query ends *)
(** Refuted: a handler that panics on some row leaves the rows open and the statement
    unreleased, for every statement and every result that reaches that row. *)
Theorem C142_panic_refuted : forall d q db text args dest rs bad k, shown d q = Some (text, args, dest) -> db text args = inl rs ->
  nth_error (rs_rows rs) k <> None -> (forall j, (j <= k)%nat -> nth_error (rs_rows rs) j = Some None) -> bad k = true -> (forall j, (j < k)%nat -> bad j = false) ->
  exists t, query_and_close_p d q db bad = Some (t, true, None) /\ closes t = 0%nat /\ releases t = 0%nat.
Proof.
  intros d q db text args dest rs bad k H Hd N G Hb Hs. unfold query_and_close_p. destruct (stmt_string d q) as [[[d2 q2] s]|] eqn:E; [|unfold shown in H; rewrite E in H; discriminate].
  rewrite (string_parts _ _ _ _ _ E) in H. injection H as <- <- <-. rewrite Hd. destruct (loop_p_reached bad (rs_rows rs) 0 k (st_dest q2) N G Hb Hs) as [t L]. rewrite L.
  eexists. split; [reflexivity|]. destruct (loop_p_quiet _ _ _ _ _ _ _ L) as [L1 L2]. unfold closes, releases in *. cbn [filter]. auto.
Qed.
(** A query that does not panic: closed once if it returned rows, released once. *)
Theorem C142_no_panic_partial : forall d q db bad t e, query_and_close_p d q db bad = Some (t, false, e) ->
  releases t = 1%nat /\ exists text args dest, shown d q = Some (text, args, dest) /\ closes t = match db text args with inl _ => 1%nat | inr _ => 0%nat end.
Proof.
  intros d q db bad t e. unfold query_and_close_p. destruct (stmt_string d q) as [[[d2 q2] s]|] eqn:E; [|discriminate]. intros H. split.
  - destruct (db s (st_args q2)) as [rs|x]; [|injection H as <- _; reflexivity]. destruct (query_loop_p (st_dest q2) bad 0 (rs_rows rs)) as [[tl [|]] er] eqn:L; [discriminate|]. injection H as <- _.
    destruct (loop_p_quiet _ _ _ _ _ _ _ L) as [L1 L2]. unfold closes, releases in *. cbn [filter app]. rewrite !filter_app, !app_length. cbn [filter length]. rewrite L2. reflexivity.
  - exists s, (st_args q2), (st_dest q2). split; [apply (string_parts _ _ _ _ _ E)|]. destruct (db s (st_args q2)) as [rs|x]; [|injection H as <- _; reflexivity].
    destruct (query_loop_p (st_dest q2) bad 0 (rs_rows rs)) as [[tl [|]] er] eqn:L; [discriminate|]. injection H as <- _.
    destruct (loop_p_quiet _ _ _ _ _ _ _ L) as [L1 L2]. unfold closes, releases in *. cbn [filter app]. rewrite !filter_app, !app_length. cbn [filter length]. rewrite L1. reflexivity.
Qed.
Example ex_C142 : query_and_close_p ex_plain (ex_stmt ex_plain (KSelect (B "a") []) [CTo [5]]) (fun _ _ => inl (mkRows [None; None] None None)) (Nat.eqb 1) =
  Some ([EvQuery (B "SELECT a") []; EvScan 0 [5]; EvHandle 0; EvScan 1 [5]; EvHandle 1], true, None).
Proof. vm_compute. reflexivity. Qed.

(** ** C146: a Row may be kept in a variable *)
(** Refuted: on any row but the first, calling Set twice on the value NewRow returned
    loses the separator. *)
Theorem C146_kept_row_refuted : exists rows q1 q2, insert_rows true (ex_stmt ex_plain (KInsertInto (B "t")) []) rows = Some q1 /\ insert_rows false (ex_stmt ex_plain (KInsertInto (B "t")) []) rows = Some q2 /\
  shown ex_plain q1 = Some (B "INSERT INTO t ( a, b ) VALUES ( ?, ? ), ( ?, ? )", [AInt 1; AInt 2; AInt 3; AInt 4], []) /\
  shown ex_plain q2 = Some (B "INSERT INTO t ( a, b ) VALUES ( ?, ? ), ( ?? )", [AInt 1; AInt 2; AInt 3; AInt 4], []).
Proof.
  exists [[(B "a", B "?", [AInt 1]); (B "b", B "?", [AInt 2])]; [(B "a", B "?", [AInt 3]); (B "b", B "?", [AInt 4])]]. eexists _, _. split; [vm_compute; reflexivity|]. split; [vm_compute; reflexivity|]. split; vm_compute; reflexivity.
Qed.
(** Refuted: a second NewRow before the first Set starts no second row. *)
Theorem C146_two_rows_refuted : exists q0 q1 r1 q2 r2 q3 r3 q4 r4, q0 = ex_stmt ex_plain (KInsertInto (B "t")) [] /\ new_row q0 = Some (q1, r1) /\ new_row q1 = Some (q2, r2) /\
  row_set_expr q2 r1 (B "a") (B "?") [AInt 1] = Some (q3, r3) /\ row_set_expr q3 r2 (B "a") (B "?") [AInt 2] = Some (q4, r4) /\
  shown ex_plain q4 = Some (B "INSERT INTO t ( a, a ) VALUES ( ?, ? )", [AInt 1; AInt 2], []).
Proof. eexists _, _, _, _, _, _, _, _, _. split; [reflexivity|]. repeat (split; [vm_compute; reflexivity|]). vm_compute. reflexivity. Qed.
(** One row, or rows of one value: kept or chained is the same. *)
Theorem C146_kept_row_partial : forall q rows, match rows with [] => True | _ :: more => Forall (fun r => length r = 1%nat) more end ->
  row_is_first (rev (st_chunks q)) = true -> insert_rows false q rows = insert_rows true q rows.
Proof.
  intros q [|r more] H F; [reflexivity|]. cbn [insert_rows]. unfold new_row at 1 2. rewrite F. cbv iota. rewrite first_row_unchained.
  destruct (row_sets q (mkRow true false) r) as [q2|]; [|reflexivity]. clear F r. revert q2. induction H as [|r more Hr _ IH]; intros q2; [reflexivity|]. cbn [insert_rows].
  destruct (new_row q2) as [[q3 h]|]; [|reflexivity]. destruct r as [|[[f e] a] [|y r]]; try discriminate Hr. rewrite one_value_unchained. destruct (row_sets q3 h [(f, e, a)]) as [q4|]; [apply IH|reflexivity].
Qed.
Example ex_C146 : row_is_first (rev (st_chunks (ex_stmt ex_plain (KInsertInto (B "t")) []))) = true.
Proof. vm_compute. reflexivity. Qed.

(** ** C147: package level functions use the dialect set last *)
(** After any history of SetDialect calls (failed ones included): the last standard
    dialect, NoDialect if there was none. *)
Theorem C147_last_set : forall ops, fst (drun initial_dialect ops) = DStd (last_set 0 ops).
Proof. intros ops. apply drun_cell. Qed.
Theorem C147_started : forall ops more c r, drun initial_dialect (ops ++ OStart :: more) = (c, r) -> nth_error r (length ops) = Some (false, Some (DStd (last_set 0 ops))).
Proof.
  intros ops more. change 0%nat with (match initial_dialect with DStd n => n | _ => 0%nat end). assert (W : exists n, initial_dialect = DStd n) by (eexists; reflexivity). revert W. generalize initial_dialect as cell.
  induction ops as [|o ops IH]; intros cell [n ->] c r; cbn [app drun dstep length last_set nth_error].
  - destruct (drun (DStd n) more) as [c0 r0]. intros [= _ <-]. reflexivity.
  - destruct o as [[m|ty id|]|]; cbn [dstep set_dialect same_type last_set].
    + destruct (drun (DStd m) (ops ++ OStart :: more)) as [c2 xs] eqn:E. intros [= _ <-]. apply (IH (DStd m) (ex_intro _ m eq_refl) _ _ E).
    + destruct (drun (DStd n) (ops ++ OStart :: more)) as [c2 xs] eqn:E. intros [= _ <-]. apply (IH (DStd n) (ex_intro _ n eq_refl) _ _ E).
    + destruct (drun (DStd n) (ops ++ OStart :: more)) as [c2 xs] eqn:E. intros [= _ <-]. apply (IH (DStd n) (ex_intro _ n eq_refl) _ _ E).
    + destruct (drun (DStd n) (ops ++ OStart :: more)) as [c2 xs] eqn:E. intros [= _ <-]. apply (IH (DStd n) (ex_intro _ n eq_refl) _ _ E).
Qed.
(** Refuted: no other implementation of SQLDialect can ever be set; SetDialect panics. *)
Theorem C147_custom_refuted : forall ops ty id, dstep (fst (drun initial_dialect ops)) (OSet (DOther ty id)) = (DStd (last_set 0 ops), (true, None)).
Proof. intros ops ty id. rewrite C147_last_set. reflexivity. Qed.
Example ex_C147 : drun initial_dialect [OStart; OSet (DStd 1); OSet (DOther 7 0); OStart] = (DStd 1, [(false, Some (DStd 0)); (false, None); (true, None); (false, Some (DStd 1))]).
Proof. reflexivity. Qed.

(** Exactly what is written: a kept row is the row of one value whose expression is all
    of its expressions together. *)
Lemma insert_at_twice {A} (d a1 a2 : list A) t : match insert_at d a1 (Z.of_nat (length d) - Z.of_nat t) with Some x => insert_at x a2 (Z.of_nat (length x) - Z.of_nat t) | None => None end =
  if match a1 with [] => true | _ => false end then insert_at d a2 (Z.of_nat (length d) - Z.of_nat t) else insert_at d (a1 ++ a2) (Z.of_nat (length d) - Z.of_nat t).
Proof.
  destruct a1 as [|x a1]; [reflexivity|]. destruct (Nat.le_gt_cases t (length d)) as [L|L].
  - rewrite <- (firstn_skipn (length d - t) d). set (u := firstn (length d - t) d). set (v := skipn (length d - t) d).
    assert (Hv : length v = t) by (unfold v; rewrite skipn_length; lia).
    assert (I : forall s, Z.of_nat (length (u ++ s ++ v)) - Z.of_nat t = Z.of_nat (length (u ++ s))) by (intros s; rewrite !app_length; lia).
    replace (Z.of_nat (length (u ++ v)) - Z.of_nat t) with (Z.of_nat (length u)) by (rewrite app_length; lia). rewrite !insert_at_app. rewrite I. rewrite app_assoc, insert_at_app, <- !app_assoc. reflexivity.
  - assert (N : forall s : list A, s <> [] -> insert_at d s (Z.of_nat (length d) - Z.of_nat t) = None).
    { intros s Hs. destruct s as [|y s]; [congruence|]. unfold insert_at. destruct (Z.ltb_spec (Z.of_nat (length d) - Z.of_nat t) (Z.of_nat (length d))); [|lia]. destruct (Z.ltb_spec (Z.of_nat (length d) - Z.of_nat t) 0); [reflexivity|lia]. }
    rewrite !N by discriminate. reflexivity.
Qed.
Lemma addc_shape q pos s : exists l r low n pre, Forall (fun c => pos < ck_pos c) r /\ forall e a, e <> [] ->
  addc q pos [] e a s = match insert_at (st_args q) a (Z.of_nat (length (st_args q)) - Z.of_nat (sum_args r)) with
    | Some x => Some (invalidate (set_args (set_chunks (set_buf (set_pos q pos) (st_buf q ++ pre ++ e)) (l ++ mkChunk pos low (length (st_buf q ++ pre ++ e)) true (n + length a) :: r)) x))
    | None => None end.
Proof.
  assert (F : forall q a t i, match finish_chunk q a t i with Some (q', _) => Some q' | None => None end = match insert_at (st_args q) a (Z.of_nat (length (st_args q)) - Z.of_nat t) with Some x => Some (invalidate (set_args q x)) | None => None end).
  { intros q0 a t i. unfold finish_chunk. destruct a as [|x a]; [destruct q0; reflexivity|]. destruct (insert_at _ _ _); reflexivity. }
  assert (NE : forall e : bytes, e <> [] -> is_empty e = false) by (intros [|c e]; [congruence|reflexivity]).
  assert (SUM : forall l, fold_right (fun c s => (ck_argLen c + s)%nat) 0%nat l = sum_args (rev l)).
  { induction l as [|c l IH]; [reflexivity|]. cbn [fold_right rev]. rewrite sum_args_app, IH. unfold sum_args. cbn [map list_sum fold_right]. unfold list_sum. lia. }
  destruct (scan_split pos (rev (st_chunks q)) 0) as (l1 & l2 & E & G & C). assert (Ch : st_chunks q = rev l2 ++ rev l1) by (rewrite <- (rev_involutive (st_chunks q)), E, rev_app_distr; reflexivity).
  assert (GR : Forall (fun c => pos < ck_pos c) (rev l1)) by (apply Forall_rev, G).
  destruct (scan pos (rev (st_chunks q)) 0) as [i t|i t] eqn:Sc.
  - destruct C as (c & r & -> & Pc & ->). cbn [rev] in Ch. rewrite <- app_assoc in Ch. cbn [app] in Ch. pose proof (scan_match pos (rev r) c (rev l1) GR Pc) as SM. rewrite <- Ch, Sc in SM. injection SM as Ei Et.
    assert (Nt : nth_error (st_chunks q) (length r) = Some c) by (rewrite Ch, Ei; apply nth_error_mid).
    destruct (Nat.eqb_spec (ck_high c) (length (st_buf q))) as [Eh|Nh].
    + exists (rev r), (rev l1), (ck_low c), (ck_argLen c), (if ck_has c then s else B " "). split; [exact GR|]. intros e a He. unfold addc, add_chunk. change (st_chunks (set_pos q pos)) with (st_chunks q). rewrite Sc, Nt, (NE _ He).
      change (st_buf (set_pos q pos)) with (st_buf q). rewrite (proj2 (Nat.eqb_eq _ _) Eh), F. cbn [st_args set_chunks set_buf set_pos]. rewrite Et, Ch, Ei, update_chunk_mid, Pc, <- !app_assoc. reflexivity.
    + exists (rev r ++ [c]), (rev l1), (length (st_buf q)), 0%nat, (if ck_has c then s else B " "). split; [exact GR|]. intros e a He. unfold addc, add_chunk. change (st_chunks (set_pos q pos)) with (st_chunks q). rewrite Sc, Nt, (NE _ He).
      change (st_buf (set_pos q pos)) with (st_buf q). rewrite (proj2 (Nat.eqb_neq _ _) Nh), F. cbn [st_args set_chunks set_buf set_pos]. rewrite Et, Ch, Ei.
      replace (rev r ++ c :: rev l1) with ((rev r ++ [c]) ++ rev l1) by (rewrite <- app_assoc; reflexivity). replace (S (length (rev r))) with (length (rev r ++ [c])) by (rewrite app_length; cbn; lia). rewrite insert_chunk_mid, <- !app_assoc. reflexivity.
  - subst i. assert (Et : t = sum_args (rev l1)).
    { rewrite E, scan_app_gt in Sc by exact G. rewrite Nat.add_0_l, SUM in Sc. destruct l2 as [|c r]; [cbn [scan] in Sc; congruence|]. cbn [scan] in Sc. destruct (ck_pos c =? pos); [discriminate|]. destruct (ck_pos c <? pos); [congruence|].
      apply scan_insert_le in Sc. cbn [length] in Sc. lia. }
    exists (rev l2), (rev l1), (length (st_buf q)), 0%nat, []. split; [exact GR|]. intros e a He. unfold addc, add_chunk. change (st_chunks (set_pos q pos)) with (st_chunks q). rewrite Sc, F. cbn [st_args st_buf set_chunks set_buf set_pos is_empty]. rewrite (NE _ He), Et, Ch.
    rewrite <- (rev_length l2), insert_chunk_mid. reflexivity.
Qed.
Lemma addc_twice q pos e1 a1 e2 a2 s : e1 <> [] -> e2 <> [] -> match addc q pos [] e1 a1 s with Some q1 => addc q1 pos [] e2 a2 [] | None => None end = addc q pos [] (e1 ++ e2) (a1 ++ a2) s.
Proof.
  intros H1 H2. destruct (addc_shape q pos s) as (l & r & low & n & pre & G & A). rewrite (A e1 a1 H1), (A (e1 ++ e2) (a1 ++ a2)) by (destruct e1; [congruence|discriminate]).
  pose proof (insert_at_twice (st_args q) a1 a2 (sum_args r)) as T.
  assert (K : match a1 with [] => true | _ => false end = true -> a1 ++ a2 = a2) by (destruct a1; [reflexivity|discriminate]).
  assert (T' : match insert_at (st_args q) a1 (Z.of_nat (length (st_args q)) - Z.of_nat (sum_args r)) with Some x => insert_at x a2 (Z.of_nat (length x) - Z.of_nat (sum_args r)) | None => None end = insert_at (st_args q) (a1 ++ a2) (Z.of_nat (length (st_args q)) - Z.of_nat (sum_args r))).
  { rewrite T. destruct a1; reflexivity. }
  rewrite <- T'. destruct (insert_at (st_args q) a1 (Z.of_nat (length (st_args q)) - Z.of_nat (sum_args r))) as [x|]; [|reflexivity].
  set (c := mkChunk pos low (length (st_buf q ++ pre ++ e1)) true (n + length a1)). unfold addc, add_chunk.
  cbn [st_chunks st_buf st_args set_pos invalidate set_sql set_args set_chunks set_buf]. rewrite (scan_match pos l c r G eq_refl), nth_error_mid. destruct e2 as [|y e2]; [congruence|]. cbn [is_empty]. unfold c at 1. cbn [ck_high]. rewrite Nat.eqb_refl.
  unfold c at 1 2 3 4. cbn [ck_has ck_pos ck_low ck_argLen]. rewrite update_chunk_mid, app_nil_r. rewrite <- !app_assoc. unfold finish_chunk. cbn [st_args set_chunks set_buf set_pos set_args invalidate set_sql].
  replace (n + length (a1 ++ a2))%nat with (n + length a1 + length a2)%nat by (rewrite (app_length a1); lia). destruct a2 as [|z a2]; [reflexivity|]. destruct (insert_at x (z :: a2) (Z.of_nat (length x) - Z.of_nat (sum_args r))); reflexivity.
Qed.

Lemma addc_not_first q e a s q' : e <> [] -> addc q posValues [] e a s = Some q' -> row_is_first (rev (st_chunks q')) = false.
Proof.
  intros He. destruct (addc_shape q posValues s) as (l & r & low & n & pre & G & A). rewrite (A e a He). destruct (insert_at _ _ _) as [x|]; [|discriminate]. intros [= <-].
  cbn [st_chunks invalidate set_sql set_args set_chunks]. rewrite rev_app_distr. cbn [rev]. rewrite <- app_assoc. cbn [app].
  apply Forall_rev in G. induction G as [|c t Hc _ IH]; cbn [row_is_first app].
  - cbn [ck_pos]. rewrite Z.eqb_refl. reflexivity.
  - destruct (Z.eqb_spec (ck_pos c) posValues); [lia|]. destruct (Z.ltb_spec (ck_pos c) posValues); [lia|]. exact IH.
Qed.
(** The values of a row as one value: all the expressions, then all the arguments. *)
Definition together (r : list (bytes * bytes * list goany)) : list (bytes * bytes * list goany) :=
  [(B "", concat (map (fun v => snd (fst v)) r), concat (map snd r))].
Lemma unchained_together r : forall q, r <> [] -> Forall (fun v => snd (fst v) <> []) r -> row_sets_unchained q (mkRow false false) r = row_sets q (mkRow false false) (together r).
Proof.
  induction r as [|[[f e] a] r IH]; intros q N H; [congruence|]. inversion H as [|? ? He Hr]; subst. cbn [fst snd] in He. destruct r as [|v r].
  - unfold together. cbn [map concat fst snd]. rewrite !app_nil_r. cbn [row_sets_unchained row_sets]. unfold row_set_expr. cbn [row_first row_notEmpty]. destruct (addc q posValues [] e a []); reflexivity.
  - assert (H2 : concat (map (fun v => snd (fst v)) (v :: r)) <> []) by (destruct v as [[f' e'] a']; inversion Hr; subst; cbn [fst snd map concat] in *; destruct e'; [congruence|discriminate]).
    unfold together. rewrite !(map_cons _ (f, e, a)). rewrite !(concat_cons). cbn [fst snd row_sets]. unfold row_set_expr at 1. cbn [row_first row_notEmpty].
    pose proof (addc_twice q posValues e a _ (concat (map snd (v :: r))) [] He H2) as T. unfold bytes in *. rewrite <- T. clear T.
    change (row_sets_unchained q (mkRow false false) ((f, e, a) :: v :: r)) with (match row_set_expr q (mkRow false false) f e a with Some (q1, _) => row_sets_unchained q1 (mkRow false false) (v :: r) | None => None end).
    unfold row_set_expr at 1. cbn [row_first row_notEmpty]. destruct (addc q posValues [] e a []) as [q1|]; [|reflexivity]. cbn [bind]. rewrite (IH q1) by (congruence || exact Hr).
    unfold together. cbn [row_sets]. unfold row_set_expr. cbn [row_first row_notEmpty]. destruct (addc q1 posValues [] _ _ []); reflexivity.
Qed.
Lemma sets_not_first r : forall q h q', r <> [] -> Forall (fun v => snd (fst v) <> []) r -> row_sets q h r = Some q' -> row_is_first (rev (st_chunks q')) = false.
Proof.
  induction r as [|[[f e] a] r IH]; intros q h q' N H; [congruence|]. inversion H as [|? ? He Hr]; subst. cbn [fst snd] in He. cbn [row_sets]. unfold row_set_expr.
  destruct (row_first h).
  - destruct (addc q posInsertFields [] f [] (B ", ")) as [q1|]; [|discriminate]. cbn [bind]. destruct (addc q1 posValues [] e a (B ", ")) as [q2|] eqn:E2; [|discriminate]. cbn [bind].
    destruct r as [|v r]; [intros [= <-]; apply (addc_not_first _ _ _ _ _ He E2)|]. apply IH; [discriminate|exact Hr].
  - destruct (addc q posValues [] e a _) as [q2|] eqn:E2; [|discriminate]. cbn [bind].
    destruct r as [|v r]; [intros [= <-]; apply (addc_not_first _ _ _ _ _ He E2)|]. apply IH; [discriminate|exact Hr].
Qed.
(** Every row with values, none of them empty text: from the second row on, a kept Row
    writes its values with nothing between them, as one value made of all of them. *)
Theorem C146_exact_partial : forall q r more, row_is_first (rev (st_chunks q)) = true -> r <> [] -> Forall (fun v => snd (fst v) <> []) r ->
  Forall (fun r => r <> [] /\ Forall (fun v => snd (fst v) <> []) r) more ->
  insert_rows false q (r :: more) = insert_rows true q (r :: map together more).
Proof.
  intros q r more F N H M. cbn [insert_rows]. unfold new_row at 1 2. rewrite F. cbv iota. rewrite first_row_unchained.
  destruct (row_sets q (mkRow true false) r) as [q2|] eqn:E; [|reflexivity]. pose proof (sets_not_first _ _ _ _ N H E) as F2. clear E F N H r q. revert q2 F2.
  induction M as [|r more [N H] _ IH]; intros q2 F2; [reflexivity|]. cbn [insert_rows map]. unfold new_row at 1 2. rewrite F2. cbv iota.
  destruct (addc q2 posValues [] (B " ") [] (B " ), (")) as [q3|]; [|reflexivity]. cbn [bind]. rewrite (unchained_together r q3 N H).
  destruct (row_sets q3 (mkRow false false) (together r)) as [q4|] eqn:E; [|reflexivity]. apply IH. refine (sets_not_first _ _ _ _ _ _ E); [discriminate|].
  constructor; [|constructor]. cbn [fst snd]. destruct r as [|[[f e] a] r]; [congruence|]. inversion H; subst. cbn [fst snd map concat] in *. destruct e; [congruence|discriminate].
Qed.
Example ex_C146_exact : exists q1 q2, let rows := [[(B "a", B "?", [AInt 1]); (B "b", B "?", [AInt 2])]; [(B "a", B "?", [AInt 3]); (B "b", B "?", [AInt 4])]] in
  insert_rows false (ex_stmt ex_plain (KInsertInto (B "t")) []) rows = Some q1 /\
  insert_rows true (ex_stmt ex_plain (KInsertInto (B "t")) []) [nth 0 rows []; [(B "", B "??", [AInt 3; AInt 4])]] = Some q2 /\ q1 = q2.
Proof. eexists _, _. split; [vm_compute; reflexivity|]. split; vm_compute; reflexivity. Qed.

(** ** Assumptions *)
Print Assumptions C141_exec.
Print Assumptions C141_query_row.
Print Assumptions C141_exec_and_close.
Print Assumptions C141_query_row_and_close.
Print Assumptions C141_query_and_close.
Print Assumptions C142_panic_refuted.
Print Assumptions C142_no_panic_partial.
Print Assumptions C146_kept_row_refuted.
Print Assumptions C146_two_rows_refuted.
Print Assumptions C146_kept_row_partial.
Print Assumptions C147_last_set.
Print Assumptions C147_started.
Print Assumptions C147_custom_refuted.
Print Assumptions C146_exact_partial.
