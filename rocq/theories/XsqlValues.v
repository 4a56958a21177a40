(** Argument values never influence the text. *)
From Verif Require Import GoBase GoBaseFacts XsqlModel XsqlSpec XsqlProofs XsqlPg XsqlSim XsqlRender.
From Coq Require Import ZifyBool ZifyNat Sorted.
Open Scope Z_scope.

(** Forget the values of the arguments of a call, keep their number. *)
Definition hide (a : list goany) : list goany := repeat ANil (length a).
Definition hide_set (x : bytes * bytes * list goany) := let '(f, e, a) := x in (f, e, hide a).
Definition hide_call (c : bcall) : bcall :=
  match c with
  | CSelect e a => CSelect e (hide a)
  | CSet f v => CSet f ANil
  | CSetExpr f e a => CSetExpr f e (hide a)
  | CFrom e a => CFrom e (hide a)
  | CWhere e a => CWhere e (hide a)
  | CIn a => CIn (hide a)
  | CHaving e a => CHaving e (hide a)
  | CLimit v => CLimit ANil
  | COffset v => COffset ANil
  | CExpr e a => CExpr e (hide a)
  | CClause e a => CClause e (hide a)
  | CWith n t a => CWith n t (hide a)
  | CSubQuery p s t a => CSubQuery p s t (hide a)
  | CUnion all t a => CUnion all t (hide a)
  | CNewRow sets => CNewRow (map hide_set sets)
  | _ => c
  end.
Definition hide_ctor (k : ctor) : ctor :=
  match k with
  | KNew v a => KNew v (hide a)
  | KWith n t a => KWith n t (hide a)
  | KFrom e a => KFrom e (hide a)
  | KSelect e a => KSelect e (hide a)
  | _ => k
  end.

(** Equal up to the values of the arguments. *)
Definition alike (q q' : stmt) : Prop :=
  length (st_args q) = length (st_args q') /\
  q = set_args q' (st_args q).
Definition oalike (o o' : option stmt) : Prop :=
  match o, o' with Some q, Some q' => alike q q' | None, None => True | _, _ => False end.

Lemma alike_refl q : alike q q.
Proof. split; [reflexivity|]. destruct q; reflexivity. Qed.

Lemma length_copy_at {A} (l : list A) k s : (k <= length l)%nat -> length (copy_at l k s) = length l.
Proof.
  intros H. unfold copy_at. rewrite !app_length, !firstn_length, skipn_length. lia.
Qed.

Lemma insert_at_alike {A B} (d : list A) (d' : list B) s s' i : length d = length d' -> length s = length s' ->
  match insert_at d s i, insert_at d' s' i with
  | Some r, Some r' => length r = length r' | None, None => True | _, _ => False end.
Proof.
  intros Hd Hs. unfold insert_at. destruct s as [|x s], s' as [|y s']; try discriminate; [exact Hd|].
  rewrite Hd. destruct (Z.ltb_spec i (Z.of_nat (length d'))).
  - destruct (Z.ltb_spec i 0); [exact I|].
    assert (L : forall T (l m : list T), (Z.to_nat i < length l)%nat ->
       length (copy_at (copy_at (l ++ m) (Z.to_nat i + length m) (skipn (Z.to_nat i) (l ++ m))) (Z.to_nat i) m) = (length l + length m)%nat).
    { intros T l m Hl. assert (E : length (copy_at (l ++ m) (Z.to_nat i + length m) (skipn (Z.to_nat i) (l ++ m))) = (length l + length m)%nat)
        by (rewrite length_copy_at; rewrite app_length; lia).
      rewrite length_copy_at; rewrite E; lia. }
    rewrite (L A d (x :: s)), (L B d' (y :: s')); lia.
  - rewrite !app_length. cbn [length] in *. lia.
Qed.

Lemma finish_chunk_alike q q' a a' tail i : alike q q' -> length a = length a' ->
  match finish_chunk q a tail i, finish_chunk q' a' tail i with
  | Some (r, ix), Some (r', ix') => alike r r' /\ ix = ix' | None, None => True | _, _ => False end.
Proof.
  intros [H1 H2] Ha. unfold finish_chunk. rewrite H2. cbn [set_args st_args].
  destruct a as [|x a], a' as [|y a']; try discriminate.
  - split; [|reflexivity]. split; [exact H1|reflexivity].
  - rewrite H1. pose proof (insert_at_alike (st_args q) (st_args q') (x :: a) (y :: a')
      (Z.of_nat (length (st_args q')) - Z.of_nat tail) H1 Ha) as HI.
    destruct (insert_at (st_args q) _ _), (insert_at (st_args q') _ _); try contradiction; [|exact I].
    split; [|reflexivity]. split; [exact HI|reflexivity].
Qed.

Lemma add_chunk_alike q q' pos kw e a a' sep : alike q q' -> length a = length a' ->
  match add_chunk q pos kw e a sep, add_chunk q' pos kw e a' sep with
  | Some (r, ix), Some (r', ix') => alike r r' /\ ix = ix' | None, None => True | _, _ => False end.
Proof.
  intros [H1 H2] Ha. unfold add_chunk.
  rewrite H2. cbn [set_pos set_args st_chunks st_buf st_args st_nl st_name st_dialect st_sql st_dest].
  rewrite Ha.
  assert (HF : forall c b i t, match finish_chunk (set_chunks (set_buf (mkStmt (st_name q') (st_dialect q') pos (st_chunks q') (st_buf q') (st_sql q') (st_args q) (st_dest q') (st_nl q')) b) c) a t i,
                    finish_chunk (set_chunks (set_buf (set_pos q' pos) b) c) a' t i with
     | Some (r, ix), Some (r', ix') => alike r r' /\ ix = ix' | None, None => True | _, _ => False end).
  { intros c b i t. apply finish_chunk_alike; [|exact Ha]. split; [exact H1|reflexivity]. }
  destruct (scan pos (rev (st_chunks q')) 0) as [i t|i t]; [|apply HF].
  destruct (nth_error (st_chunks q') i) as [c|]; [|exact I].
  destruct (is_empty e).
  - destruct (0 <? length a')%nat.
    + rewrite H1. match goal with |- context[?x <? 0] => set (n := x) end.
      destruct (Z.ltb_spec n 0); [exact I|]. split; [|reflexivity].
      split; [|reflexivity]. cbn [st_args set_args].
      assert (Hn : (Z.to_nat n <= length (st_args q'))%nat) by (unfold n; lia).
      rewrite !length_copy_at by lia. exact H1.
    + split; [|reflexivity]. split; [exact H1|reflexivity].
  - destruct (ck_high c =? length (st_buf q'))%nat; apply HF.
Qed.

Lemma addc_alike q q' pos kw e a a' sep : alike q q' -> length a = length a' ->
  oalike (addc q pos kw e a sep) (addc q' pos kw e a' sep).
Proof.
  intros H Ha. pose proof (add_chunk_alike q q' pos kw e a a' sep H Ha) as HA. unfold addc, oalike.
  destruct (add_chunk q pos kw e a sep) as [[? ?]|], (add_chunk q' pos kw e a' sep) as [[? ?]|]; tauto.
Qed.

Lemma bind_alike (o o' : option stmt) f f' : oalike o o' -> (forall q q', alike q q' -> oalike (f q) (f' q')) ->
  oalike (bind o f) (bind o' f').
Proof. intros H Hf. destruct o, o'; try contradiction; cbn; auto. Qed.

Lemma write_tail_alike q q' i t : alike q q' -> oalike (write_tail q i t) (write_tail q' i t).
Proof.
  intros [H1 H2]. unfold write_tail. rewrite H2. cbn [set_args st_chunks st_buf].
  destruct (nth_error (st_chunks q') i); [|exact I]. split; [exact H1|reflexivity].
Qed.

Lemma add_write_alike q q' pos kw e a a' sep t : alike q q' -> length a = length a' ->
  oalike (do (q1, ix) <- add_chunk q pos kw e a sep; write_tail q1 ix t)
         (do (q1, ix) <- add_chunk q' pos kw e a' sep; write_tail q1 ix t).
Proof.
  intros H Ha. pose proof (add_chunk_alike q q' pos kw e a a' sep H Ha) as HA.
  destruct (add_chunk q pos kw e a sep) as [[? ?]|], (add_chunk q' pos kw e a' sep) as [[? ?]|]; try contradiction; [|exact I].
  destruct HA as [HA ->]. cbn [bind]. apply write_tail_alike; exact HA.
Qed.

Lemma alike_field {A} (f : stmt -> A) q q' : (forall x a, f (set_args x a) = f x) -> alike q q' -> f q = f q'.
Proof. intros Hf [_ H]. rewrite H. apply Hf. Qed.
Ltac same H f := rewrite (alike_field f _ _ (fun _ _ => eq_refl) H).

Lemma hide_length a : length a = length (hide a).
Proof. unfold hide. rewrite repeat_length. reflexivity. Qed.

Lemma set_expr_alike q q' f e a a' : alike q q' -> length a = length a' -> oalike (set_expr q f e a) (set_expr q' f e a').
Proof.
  intros H Ha. unfold set_expr. same H st_chunks.
  destruct (find_verb (st_chunks q') =? posInsert).
  - apply bind_alike; [apply addc_alike; auto|]. intros. apply addc_alike; assumption.
  - destruct (find_verb (st_chunks q') =? posUpdate); [apply addc_alike; assumption|exact H].
Qed.

Lemma sub_query_alike q q' p s t a a' : alike q q' -> length a = length a' ->
  oalike (sub_query_raw q p s t a) (sub_query_raw q' p s t a').
Proof. intros H Ha. unfold sub_query_raw. same H st_pos. apply add_write_alike; assumption. Qed.

Lemma row_sets_alike sets : forall q q' r, alike q q' -> oalike (row_sets q r sets) (row_sets q' r (map hide_set sets)).
Proof.
  induction sets as [|[[f e] a] sets IH]; intros q q' r H; [exact H|]. cbn [map hide_set row_sets].
  unfold row_set_expr. destruct (row_first r).
  - pose proof (addc_alike q q' posInsertFields [] f [] [] (B ", ") H eq_refl) as H1.
    destruct (addc q posInsertFields [] f [] (B ", ")) as [q1|], (addc q' posInsertFields [] f [] (B ", ")) as [q1'|];
      try contradiction; [|exact I]. cbn [bind].
    pose proof (addc_alike q1 q1' posValues [] e a (hide a) (B ", ") H1 (hide_length a)) as H2.
    destruct (addc q1 posValues [] e a (B ", ")) as [q2|], (addc q1' posValues [] e (hide a) (B ", ")) as [q2'|];
      try contradiction; [|exact I]. cbn [bind]. apply IH; exact H2.
  - match goal with |- context[addc q posValues [] e a ?sp] =>
      pose proof (addc_alike q q' posValues [] e a (hide a) sp H (hide_length a)) as H2;
      destruct (addc q posValues [] e a sp) as [q2|], (addc q' posValues [] e (hide a) sp) as [q2'|] end;
      try contradiction; [|exact I]. cbn [bind]. apply IH; exact H2.
Qed.

Lemma bind_list_alike l : forall q q', alike q q' -> oalike (bind_list l q) (bind_list l q').
Proof.
  induction l as [|[n d] l IH]; intros q q' H; [exact H|]. cbn [bind_list].
  apply bind_alike; [apply addc_alike; auto|]. intros x y [H1 H2]. apply IH. rewrite H2. split; [exact H1|reflexivity].
Qed.

Lemma call_alike q q' c : alike q q' -> oalike (call q c) (call q' (hide_call c)).
Proof.
  intros H. destruct c; cbn [call hide_call];
    try (apply addc_alike; [exact H|first [reflexivity|apply hide_length]]).
  - split; [apply H|]. destruct H as [_ H]. unfold to_dest. rewrite H. reflexivity.
  - unfold insert_into. apply bind_alike; [apply addc_alike; auto|]. intros x1 y1 H1.
    apply bind_alike; [apply addc_alike; auto|]. intros x2 y2 H2.
    apply bind_alike; [apply addc_alike; auto|]. intros x3 y3 H3.
    apply bind_alike; [apply addc_alike; auto|]. intros x4 y4 [H4 H5]. split; [exact H4|]. rewrite H5. reflexivity.
  - apply set_expr_alike; [exact H|reflexivity].
  - apply set_expr_alike; [exact H|apply hide_length].
  - rewrite <- (hide_length a). apply addc_alike; [exact H|apply hide_length].
  - unfold paginate. destruct (1 <? (if page <? 1 then 1 else page)).
    + apply bind_alike; [apply addc_alike; auto|]. intros. apply addc_alike; auto.
    + cbn [bind]. apply addc_alike; auto.
  - same H st_pos. apply addc_alike; [exact H|apply hide_length].
  - unfold clause. same H st_chunks. apply addc_alike; [exact H|apply hide_length].
  - unfold with_raw. apply bind_alike; [apply addc_alike; auto|]. intros. apply sub_query_alike; [assumption|apply hide_length].
  - apply sub_query_alike; [exact H|apply hide_length].
  - unfold union_raw. same H st_chunks. apply add_write_alike; [exact H|apply hide_length].
  - unfold new_row. same H st_chunks. destruct (row_is_first (rev (st_chunks q'))).
    + cbn [bind]. apply row_sets_alike; exact H.
    + pose proof (addc_alike q q' posValues [] (B " ") [] [] (B " ), (") H eq_refl) as H1.
      destruct (addc q posValues [] (B " ") [] (B " ), (")) as [q1|], (addc q' posValues [] (B " ") [] (B " ), (")) as [q1'|];
      try contradiction; [|exact I]. cbn [bind]. apply row_sets_alike; exact H1.
  - rewrite !bind_fields_list. apply bind_list_alike; exact H.
  - split; [apply H|]. destruct H as [_ H]. rewrite H. reflexivity.
  - split; [apply H|]. destruct H as [_ H]. rewrite H. reflexivity.
  - split; [apply H|]. destruct H as [_ H]. rewrite H. reflexivity.
Qed.

Lemma calls_alike cs : forall q q', alike q q' -> oalike (calls q cs) (calls q' (map hide_call cs)).
Proof.
  induction cs as [|c cs IH]; intros q q' H; [exact H|]. cbn [calls map].
  apply bind_alike; [apply call_alike; exact H|]. exact IH.
Qed.

Lemma build_alike r did d k cs : oalike (build r did d k cs) (build r did d (hide_ctor k) (map hide_call cs)).
Proof.
  unfold build. apply bind_alike; [|intros; apply calls_alike; assumption].
  pose proof (alike_refl (get_stmt r did d)) as H.
  destruct k; cbn [construct hide_ctor]; 
    try (match goal with |- oalike (call _ ?c) _ => exact (call_alike _ _ c H) end).
  apply addc_alike; [exact H|apply hide_length].
Qed.

Lemma string_alike d q q' : alike q q' ->
  match stmt_string d q, stmt_string d q' with
  | Some (d1, _, s), Some (d1', _, s') => d1 = d1' /\ s = s'
  | None, None => True
  | _, _ => False
  end.
Proof.
  intros H. unfold stmt_string, cache_key, render. same H st_sql. same H st_name. same H st_buf. same H st_chunks.
  destruct (is_empty (st_sql q')); [|auto].
  destruct (get_cached d _); [auto|].
  destruct (render_loop _ _ _ _ _ _ _); auto.
Qed.

(** Text of a whole statement: constructor, calls, String(). *)
Definition text_of (r : stmt) (did : nat) (d : dialect) (k : ctor) (cs : list bcall) : option bytes :=
  do q <- build r did d k cs; do (_, s) <- stmt_string d q; Some s.

Lemma text_alike r did d k cs : text_of r did d k cs = text_of r did d (hide_ctor k) (map hide_call cs).
Proof.
  unfold text_of. pose proof (build_alike r did d k cs) as H.
  destruct (build r did d k cs) as [q|], (build r did d (hide_ctor k) (map hide_call cs)) as [q'|]; try contradiction; [|reflexivity].
  cbn [bind]. pose proof (string_alike d q q' H) as HS.
  destruct (stmt_string d q) as [[[? ?] ?]|], (stmt_string d q') as [[[? ?] ?]|]; try contradiction; [|reflexivity].
  cbn. destruct HS as [_ ->]. reflexivity.
Qed.
