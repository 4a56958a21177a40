(** C188: paging through a table that changes between the pages (query.go,
    params.go).  The database of the n-th request is [db n], over the contents
    [hist n] of the table at that time. *)
From Verif Require Import GoBase GoBaseFacts TypeModel TypeSpec TypeProofs ParamModel ParamSpec ParamProofs QueryProofs ParamProps.
From Coq Require Import Permutation Sorted.
Open Scope Z_scope.

(** Pages fetched one after the other; [fetch n c] is request number n, asking for
    what follows key [c] (or, below, for offset [c]). *)
Inductive follow_changing {R} (key : R -> Z) (fetch : nat -> Z -> outcome (list R * bool)) : nat -> Z -> list (list R) -> Prop :=
| ch_last n c l : fetch n c = ROk (l, false) -> follow_changing key fetch n c [l]
| ch_more n c l r ps : fetch n c = ROk (l ++ [r], true) -> follow_changing key fetch (S n) (key r) ps -> follow_changing key fetch n c ((l ++ [r]) :: ps).
Inductive follow_offsets {R} (fetch : nat -> Z -> outcome (list R * bool * Z)) : nat -> Z -> list (list R) -> Prop :=
| of_last n off l x : fetch n off = ROk (l, false, x) -> follow_offsets fetch n off [l]
| of_more n off l x ps : fetch n off = ROk (l, true, x) -> follow_offsets fetch (S n) x ps -> follow_offsets fetch n off (l :: ps).

(** The table at one time: rows in strictly increasing key order. *)
Definition ordered {R} (key : R -> Z) (l : list R) : Prop := StronglySorted (fun x y => key x < key y) l.

Lemma in_firstn {A} n (l : list A) x : In x (firstn n l) -> In x l.
Proof. intro H. rewrite <- (firstn_skipn n l). apply in_or_app. left. exact H. Qed.
Lemma sorted_firstn {R} (key : R -> Z) : forall l n, ordered key l -> ordered key (firstn n l).
Proof.
  induction l as [|x l IH]; intros n H; destruct n; cbn [firstn]; try constructor.
  - apply IH. inversion H; assumption.
  - inversion H as [|? ? H1 H2]; subst. rewrite Forall_forall in *. intros y Hy. apply H2. eapply in_firstn; eauto.
Qed.
Lemma sorted_app {R} (key : R -> Z) a : forall b, ordered key a -> ordered key b -> (forall x y, In x a -> In y b -> key x < key y) -> ordered key (a ++ b).
Proof.
  induction a as [|x a IH]; intros b Ha Hb H; cbn [app]; [exact Hb|]. inversion Ha as [|? ? H1 H2]; subst. constructor.
  - apply IH; auto. intros; apply H; cbn; auto.
  - rewrite Forall_forall in *. intros y Hy. apply in_app_or in Hy. destruct Hy; [apply H2|apply H; cbn]; auto.
Qed.

Section Cursor.
Context {R : Type} (key : R -> Z) (hist : nat -> list R) (fetch : nat -> Z -> outcome (list R * bool)) (lim : Z).
Context (Hlim : 1 <= lim) (Hs : forall n, ordered key (hist n)) (Hf : forall n, cpage_spec key (hist n) lim (fetch n)).
Lemma page_full n c l r : fetch n c = ROk (l ++ [r], true) ->
  ordered key (l ++ [r]) /\ (forall x, In x (l ++ [r]) -> c < key x /\ key x <= key r /\ In x (hist n))
  /\ (forall x, In x (hist n) -> c < key x -> key x <= key r -> In x (l ++ [r])).
Proof.
  intros E. rewrite (Hf n c) in E. injection E as E1 E2.
  pose proof (filter_sorted key (fun x => c <? key x) _ (Hs n)) as SF.
  assert (P1 : ordered key (l ++ [r])) by (rewrite <- E1; apply sorted_firstn; exact SF).
  split; [exact P1|]. pose proof (sorted_split key l r [] P1) as [S1 _]. rewrite Forall_forall in S1.
  split.
  - intros x Hx. assert (Hx' : In x (filter (fun x => c <? key x) (hist n))) by (apply (in_firstn (Z.to_nat lim)); rewrite E1; exact Hx).
    apply filter_In in Hx' as [A B]. apply Z.ltb_lt in B. repeat split; auto.
    apply in_app_or in Hx. destruct Hx as [Hx|[->|[]]]; [specialize (S1 x Hx)|]; lia.
  - intros x Hx Hc Hr. assert (Hx' : In x (filter (fun x => c <? key x) (hist n))) by (apply filter_In; split; [exact Hx|apply Z.ltb_lt; exact Hc]).
    pose proof (firstn_skipn (Z.to_nat lim) (filter (fun x => c <? key x) (hist n))) as FS. rewrite E1, <- app_assoc in FS. cbn [app] in FS.
    unfold ordered in SF. fold (key_lt key) in SF. rewrite <- FS in SF. destruct (sorted_split key _ _ _ SF) as [_ S2]. rewrite Forall_forall in S2.
    rewrite <- FS in Hx'. apply in_app_or in Hx'. apply in_or_app. destruct Hx' as [A|[A|A]]; [left; exact A|right; left; exact A|].
    specialize (S2 x A). lia.
Qed.
Lemma page_last n c l : fetch n c = ROk (l, false) -> l = filter (fun x => c <? key x) (hist n).
Proof.
  intros E. rewrite (Hf n c) in E. injection E as E1 E2. rewrite E1 in E2. apply Z.leb_gt in E2. rewrite <- E1.
  apply firstn_all2. rewrite <- E1 in E2. rewrite firstn_length in E2. lia.
Qed.
Lemma changing_spec n c ps : follow_changing key fetch n c ps ->
  ordered key (concat ps) /\ (forall x, In x (concat ps) -> c < key x)
  /\ (forall i p, nth_error ps i = Some p -> incl p (hist (n + i)))
  /\ (forall k, c < k -> (forall i, (i < length ps)%nat -> exists r, In r (hist (n + i)) /\ key r = k) -> exists r, In r (concat ps) /\ key r = k).
Proof.
  intros H. induction H as [n c l E|n c l r ps E H IH].
  - pose proof (page_last _ _ _ E) as ->. cbn [concat]. rewrite app_nil_r. split; [apply (filter_sorted key); apply Hs|]. split; [|split].
    + intros x Hx. apply filter_In in Hx as [_ Hx]. apply Z.ltb_lt. exact Hx.
    + intros [|[|i]] p Hp; try discriminate. inversion Hp; subst. rewrite Nat.add_0_r. intros x Hx. apply filter_In in Hx. apply Hx.
    + intros k Hk Hx. destruct (Hx 0%nat) as (r & A & B); [cbn; lia|]. rewrite Nat.add_0_r in A. exists r. split; [|exact B].
      apply filter_In. split; [exact A|]. apply Z.ltb_lt. lia.
  - destruct (page_full _ _ _ _ E) as (P1 & P2 & P3). destruct IH as (I1 & I2 & I3 & I4). cbn [concat].
    assert (Hcr : c < key r) by (apply P2; apply in_or_app; right; left; reflexivity).
    split; [|split; [|split]].
    + apply sorted_app; auto. intros x y Hx Hy. specialize (I2 y Hy). destruct (P2 x Hx) as (_ & X & _). lia.
    + intros x Hx. apply in_app_or in Hx. destruct Hx as [Hx|Hx]; [apply P2; exact Hx|]. specialize (I2 x Hx). lia.
    + intros [|i] p Hp; cbn [nth_error] in Hp.
      * inversion Hp; subst. rewrite Nat.add_0_r. intros x Hx. apply P2. exact Hx.
      * replace (n + S i)%nat with (S n + i)%nat by lia. apply I3. exact Hp.
    + intros k Hk Hx. destruct (Z_le_gt_dec k (key r)) as [L|L].
      * destruct (Hx 0%nat) as (x & A & B); [cbn; lia|]. rewrite Nat.add_0_r in A. exists x. split; [|exact B].
        apply in_or_app. left. apply P3; auto; lia.
      * destruct (I4 k) as (x & A & B); [lia| |exists x; split; [apply in_or_app; right; exact A|exact B]].
        intros i Hi. destruct (Hx (S i)) as (x & A & B); [cbn [length]; lia|]. exists x. split; [|exact B].
        replace (S n + i)%nat with (n + S i)%nat by lia. exact A.
Qed.
Lemma changing_exists K : (forall n r, In r (hist n) -> key r <= K) -> forall k n c, (Z.to_nat (K - c) <= k)%nat -> exists ps, follow_changing key fetch n c ps.
Proof.
  intros HK. induction k as [|k IH]; intros n c Hk; pose proof (Hf n c) as E; cbv zeta in E;
    set (p := firstn (Z.to_nat lim) (filter (fun x => c <? key x) (hist n))) in E; destruct (lim <=? Z.of_nat (length p)) eqn:L.
  - exfalso. apply Z.leb_le in L. destruct p as [|x p'] eqn:Ep; [cbn in L; lia|]. assert (Hx : In x (filter (fun x => c <? key x) (hist n))).
    { apply (in_firstn (Z.to_nat lim)). fold p. rewrite Ep. left. reflexivity. }
    apply filter_In in Hx as [A B]. apply Z.ltb_lt in B. specialize (HK n x A). lia.
  - exists [p]. apply ch_last. exact E.
  - assert (N : p <> []) by (intros X; apply Z.leb_le in L; rewrite X in L; cbn in L; lia). destruct (exists_last N) as (l & r & Epr). rewrite Epr in E.
    destruct (page_full _ _ _ _ E) as (_ & P2 & _). destruct (P2 r) as (A & _ & B); [apply in_or_app; right; left; reflexivity|]. specialize (HK n r B).
    destruct (IH (S n) (key r)) as [ps Hps]; [lia|]. exists ((l ++ [r]) :: ps). apply ch_more; assumption.
  - exists [p]. apply ch_last. exact E.
Qed.
End Cursor.

(** ** C188 Paging visits every row that stays exactly once *)
(** By cursor, whatever rows are inserted, changed and deleted between the pages:
    the keys visited increase (so no row comes twice), every page shows rows the
    table had when it was read, and every key the table has at each of the requests
    is visited. *)
Theorem C188_cursor : forall R (key : R -> Z) (hist : nat -> list R) (db : nat -> qdb R) sql b lim pos c0,
  (forall n, cursor_db key (hist n) (db n) sql) -> (forall n, Z.of_nat (length (hist n)) < 2 ^ 32) -> (forall n, ordered key (hist n)) ->
  qb_limit b = 0 -> 0 <= lim < 2 ^ 32 -> 0 <= pos <= 63 ->
  forall ps, follow_changing key (fun n c => snd (query_cursor (db n) sql [QP (cursor_builder b lim pos c)])) 0 c0 ps ->
  ordered key (concat ps)
  /\ (forall i p, nth_error ps i = Some p -> incl p (hist i))
  /\ forall k, c0 < k -> (forall i, (i < length ps)%nat -> exists r, In r (hist i) /\ key r = k) -> exists r, In r (concat ps) /\ key r = k.
Proof.
  intros R key hist db sql b lim pos c0 Hdb Hlen Hs Hb Hlim Hpos ps H.
  assert (L1 : 1 <= limit_used lim) by (unfold limit_used; destruct (lim =? 0) eqn:E; [lia|apply Z.eqb_neq in E; lia]).
  assert (PS : forall n, cpage_spec key (hist n) (limit_used lim) (fun c => snd (query_cursor (db n) sql [QP (cursor_builder b lim pos c)]))).
  { intros n c p. apply (query_cursor_spec key (hist n) (db n) sql _ (map QV (qb_args b))); auto. unfold cursor_builder, pb_cursor, pb_set, check_page. rewrite Hb. cbn [Z.ltb Z.compare].
    destruct (63 <? pos) eqn:E; [apply Z.ltb_lt in E; lia|]. cbn [cursor_args qb_limit qb_offset qb_args]. rewrite !map_app, <- app_assoc. reflexivity. }
  destruct (changing_spec key hist _ _ L1 Hs PS 0 c0 ps H) as (A & _ & C & D). auto.
Qed.
(** ... and with the cursor and the limit as the last two arguments. *)
Theorem C188_cursor_args : forall R (key : R -> Z) (hist : nat -> list R) (db : nat -> qdb R) sql pre lim c0,
  (forall n, cursor_db key (hist n) (db n) sql) -> (forall n, Z.of_nat (length (hist n)) < 2 ^ 32) -> (forall n, ordered key (hist n)) -> 1 <= lim < 2 ^ 32 ->
  forall ps, follow_changing key (fun n c => snd (query_cursor (db n) sql (pre ++ [QV (AInt64 c); QV (AUint32 lim)]))) 0 c0 ps ->
  ordered key (concat ps)
  /\ (forall i p, nth_error ps i = Some p -> incl p (hist i))
  /\ forall k, c0 < k -> (forall i, (i < length ps)%nat -> exists r, In r (hist i) /\ key r = k) -> exists r, In r (concat ps) /\ key r = k.
Proof.
  intros R key hist db sql pre lim c0 Hdb Hlen Hs Hlim ps H.
  assert (PS : forall n, cpage_spec key (hist n) lim (fun c => snd (query_cursor (db n) sql (pre ++ [QV (AInt64 c); QV (AUint32 lim)])))).
  { intros n c p. apply (query_cursor_spec key (hist n) (db n) sql _ pre); auto.
    assert (L2 : last2 (pre ++ [QV (AInt64 c); QV (AUint32 lim)]) = Some (QV (AInt64 c), QV (AUint32 lim))) by (unfold last2; rewrite rev_app_distr; reflexivity).
    unfold cursor_args. rewrite L2. destruct pre as [|x [|y pre]]; [reflexivity| |]; cbn [app]; [destruct x|destruct x; destruct pre]; reflexivity. }
  destruct (changing_spec key hist _ _ (proj1 Hlim) Hs PS 0 c0 ps H) as (A & _ & C & D). auto.
Qed.
(** The loop ends as soon as the keys have a bound (rows may still come and go). *)
Theorem C188_cursor_ends : forall R (key : R -> Z) (hist : nat -> list R) (db : nat -> qdb R) sql pre lim c0 K,
  (forall n, cursor_db key (hist n) (db n) sql) -> (forall n, Z.of_nat (length (hist n)) < 2 ^ 32) -> (forall n, ordered key (hist n)) -> 1 <= lim < 2 ^ 32 ->
  (forall n r, In r (hist n) -> key r <= K) ->
  exists ps, follow_changing key (fun n c => snd (query_cursor (db n) sql (pre ++ [QV (AInt64 c); QV (AUint32 lim)]))) 0 c0 ps.
Proof.
  intros R key hist db sql pre lim c0 K Hdb Hlen Hs Hlim HK.
  assert (PS : forall n, cpage_spec key (hist n) lim (fun c => snd (query_cursor (db n) sql (pre ++ [QV (AInt64 c); QV (AUint32 lim)])))).
  { intros n c p. apply (query_cursor_spec key (hist n) (db n) sql _ pre); auto.
    assert (L2 : last2 (pre ++ [QV (AInt64 c); QV (AUint32 lim)]) = Some (QV (AInt64 c), QV (AUint32 lim))) by (unfold last2; rewrite rev_app_distr; reflexivity).
    unfold cursor_args. rewrite L2. destruct pre as [|x [|y pre]]; [reflexivity| |]; cbn [app]; [destruct x|destruct x; destruct pre]; reflexivity. }
  apply (changing_exists key hist _ lim (proj1 Hlim) Hs PS K HK (Z.to_nat (K - c0)) 0 c0 (Nat.le_refl _)).
Qed.

(** By offset: with any page size, one row deleted between the first and the second
    page hides a row that was there all the time ... *)
Definition upto (a : Z) (n : nat) : list Z := map (fun i => a + Z.of_nat i) (seq 0 n).
Lemma upto_len a n : length (upto a n) = n.
Proof. unfold upto. rewrite map_length, seq_length. reflexivity. Qed.
Lemma upto_S a n : upto a (S n) = a :: upto (a + 1) n.
Proof. unfold upto. cbn [seq map]. f_equal; [lia|]. rewrite <- seq_shift, map_map. apply map_ext. intro i. lia. Qed.
Lemma upto_snoc a n : upto a (S n) = upto a n ++ [a + Z.of_nat n].
Proof. unfold upto. rewrite seq_S, map_app. reflexivity. Qed.
Lemma upto_in a n x : In x (upto a n) <-> a <= x < a + Z.of_nat n.
Proof.
  unfold upto. rewrite in_map_iff. split.
  - intros (i & <- & Hi). apply in_seq in Hi. lia.
  - intros H. exists (Z.to_nat (x - a)). split; [lia|]. apply in_seq. lia.
Qed.
Definition offset_fetch {R} (db : nat -> qdb R) sql lim : nat -> Z -> outcome (list R * bool * Z) :=
  fun n off => snd (query_paged (db n) sql [QV (AUint32 lim); QV (AUint32 off)]).
Lemma offset_page {R} (hist : list R) db sql lim off : offset_db hist db sql -> Z.of_nat (length hist) < 2 ^ 32 -> 0 <= off <= Z.of_nat (length hist) ->
  let p := firstn (Z.to_nat lim) (skipn (Z.to_nat off) hist) in
  snd (query_paged db sql [QV (AUint32 lim); QV (AUint32 off)]) = ROk (p, lim <=? Z.of_nat (length p), if lim <=? Z.of_nat (length p) then off + Z.of_nat (length p) else 0).
Proof. intros A B1 C. apply (query_paged_spec hist db sql _ []); auto. Qed.
Theorem C188_offset_missed_refuted : forall sql lim, 1 <= lim < 2 ^ 32 - 1 -> exists (hist : nat -> list Z) (db : nat -> qdb Z) ps x,
  (forall n, offset_db (hist n) (db n) sql) /\ (forall n, ordered (fun r => r) (hist n)) /\ (forall n, Z.of_nat (length (hist n)) < 2 ^ 32)
  /\ follow_offsets (offset_fetch db sql lim) 0 0 ps /\ (forall n, In x (hist n)) /\ ~ In x (concat ps).
Proof.
  intros sql lim Hlim. set (m := Z.to_nat lim).
  set (hist := fun n : nat => match n with O => upto 1 (S m) | _ => upto 2 m end).
  assert (Hl : forall n, Z.of_nat (length (hist n)) < 2 ^ 32) by (intros [|n]; cbn [hist]; rewrite upto_len; lia).
  assert (Hdb : forall n, offset_db (hist n) (sample_db (hist n)) sql) by (intros n pre l o; unfold sample_db; rewrite rev_app_distr; reflexivity).
  assert (P0 : offset_fetch (fun n => sample_db (hist n)) sql lim 0 0 = ROk (upto 1 m, true, lim)).
  { unfold offset_fetch. rewrite (offset_page (hist 0%nat) _ sql lim 0 (Hdb 0%nat) (Hl 0%nat)) by lia. cbn [hist Z.to_nat skipn]. fold m.
    rewrite upto_snoc, firstn_app, upto_len, Nat.sub_diag, firstn_O, app_nil_r, firstn_all2 by (rewrite upto_len; lia).
    rewrite upto_len. replace (lim <=? Z.of_nat m) with true by (symmetry; apply Z.leb_le; unfold m; lia). do 2 f_equal. unfold m. lia. }
  assert (P1 : offset_fetch (fun n => sample_db (hist n)) sql lim 1 lim = ROk ([], false, 0)).
  { unfold offset_fetch. rewrite (offset_page (hist 1%nat) _ sql lim lim (Hdb 1%nat) (Hl 1%nat)) by (cbn [hist]; rewrite upto_len; unfold m; lia). cbn [hist]. fold m.
    rewrite skipn_all2 by (rewrite upto_len; lia). rewrite firstn_nil. cbn [length Z.of_nat]. replace (lim <=? 0) with false by (symmetry; apply Z.leb_gt; lia). reflexivity. }
  exists hist, (fun n => sample_db (hist n)), [upto 1 m; []], (lim + 1). split; [exact Hdb|]. split; [|split; [exact Hl|split; [|split]]].
  - assert (U : forall a n, ordered (fun r => r) (upto a n)).
    { intros a n. revert a. induction n as [|n IH]; intro a; [constructor|]. rewrite upto_S. constructor; [apply IH|]. apply Forall_forall. intros y Hy. apply upto_in in Hy. lia. }
    intros [|n]; apply U.
  - eapply of_more; [exact P0|]. eapply of_last. exact P1.
  - intros [|n]; cbn [hist]; apply upto_in; unfold m; lia.
  - cbn [concat]. rewrite app_nil_r, upto_in. unfold m. lia.
Qed.
(** ... and one row inserted in front shows a row twice. *)
Theorem C188_offset_twice_refuted : forall sql lim, 1 <= lim < 2 ^ 32 - 1 -> exists (hist : nat -> list Z) (db : nat -> qdb Z) ps,
  (forall n, offset_db (hist n) (db n) sql) /\ (forall n, ordered (fun r => r) (hist n)) /\ (forall n, Z.of_nat (length (hist n)) < 2 ^ 32)
  /\ follow_offsets (offset_fetch db sql lim) 0 0 ps /\ ~ NoDup (concat ps).
Proof.
  intros sql lim Hlim. set (m := Z.to_nat lim).
  set (hist := fun n : nat => match n with O => upto 1 m | 1%nat => upto 0 (S m) | _ => [] end).
  assert (Hl : forall n, Z.of_nat (length (hist n)) < 2 ^ 32) by (intros [|[|n]]; cbn [hist]; rewrite ?upto_len; cbn [length]; unfold m; lia).
  assert (Hdb : forall n, offset_db (hist n) (sample_db (hist n)) sql) by (intros n pre l o; unfold sample_db; rewrite rev_app_distr; reflexivity).
  assert (P0 : offset_fetch (fun n => sample_db (hist n)) sql lim 0 0 = ROk (upto 1 m, true, lim)).
  { unfold offset_fetch. rewrite (offset_page (hist 0%nat) _ sql lim 0 (Hdb 0%nat) (Hl 0%nat)) by lia. cbn [hist Z.to_nat skipn]. fold m.
    rewrite firstn_all2 by (rewrite upto_len; lia).
    rewrite upto_len. replace (lim <=? Z.of_nat m) with true by (symmetry; apply Z.leb_le; unfold m; lia). do 2 f_equal. unfold m. lia. }
  assert (P1 : exists more x, offset_fetch (fun n => sample_db (hist n)) sql lim 1 lim = ROk ([lim], more, x) /\ (more = true -> x = lim + 1 /\ lim = 1)).
  { unfold offset_fetch. rewrite (offset_page (hist 1%nat) _ sql lim lim (Hdb 1%nat) (Hl 1%nat)) by (cbn [hist]; rewrite upto_len; unfold m; lia). cbn [hist]. fold m.
    rewrite upto_snoc, skipn_app, upto_len, Nat.sub_diag, skipn_all2 by (rewrite upto_len; lia). cbn [skipn app].
    rewrite firstn_all2 by (cbn [length]; unfold m; lia). cbn [length].
    replace (0 + Z.of_nat m) with lim by (unfold m; lia). eexists. eexists. split; [reflexivity|]. intros X. apply Z.leb_le in X.
    replace (lim <=? Z.of_nat 1) with true by (symmetry; apply Z.leb_le; lia). lia. }
  destruct P1 as (more & x & P1 & PX).
  assert (W : forall ps, ~ NoDup (concat (upto 1 m :: [lim] :: ps))).
  { intros ps ND. cbn [concat app] in ND. apply NoDup_remove_2 in ND. apply ND. apply in_or_app. left. apply upto_in. unfold m. lia. }
  assert (O : forall n, ordered (fun r => r) (hist n)).
  { assert (U : forall a n, ordered (fun r => r) (upto a n)).
    { intros a n. revert a. induction n as [|n IH]; intro a; [constructor|]. rewrite upto_S. constructor; [apply IH|]. apply Forall_forall. intros y Hy. apply upto_in in Hy. lia. }
    intros [|[|n]]; [apply U|apply U|constructor]. }
  destruct more.
  - destruct (PX eq_refl) as [-> ->].
    assert (P2 : exists y, offset_fetch (fun n => sample_db (hist n)) sql 1 2 2 = ROk ([], false, y)) by (eexists; reflexivity).
    destruct P2 as [y P2]. exists hist, (fun n => sample_db (hist n)), [upto 1 m; [1]; []]. repeat (split; [assumption|]). split; [|apply W].
    eapply of_more; [exact P0|]. eapply of_more; [exact P1|]. eapply of_last. exact P2.
  - exists hist, (fun n => sample_db (hist n)), [upto 1 m; [lim]]. repeat (split; [assumption|]). split; [|apply W].
    eapply of_more; [exact P0|]. eapply of_last. exact P1.
Qed.
(** When rows are only added behind the last one, offsets are as good: the pages
    together are the table as the last page found it. *)
Lemma offsets_appended {R} (hist : nat -> list R) db sql lim : 1 <= lim < 2 ^ 32 -> (forall n, offset_db (hist n) (db n) sql) -> (forall n, Z.of_nat (length (hist n)) < 2 ^ 32) ->
  (forall n, exists more, hist (S n) = hist n ++ more) ->
  forall n off ps, follow_offsets (offset_fetch db sql lim) n off ps -> 0 <= off <= Z.of_nat (length (hist n)) ->
  firstn (Z.to_nat off) (hist n) ++ concat ps = hist (n + (length ps - 1))%nat.
Proof.
  intros Hlim Hdb Hl Hgrow n off ps H. induction H as [n off l x E|n off l x ps E H IH]; intros Ho;
    unfold offset_fetch in E; rewrite (offset_page (hist n) _ sql lim off (Hdb n) (Hl n) Ho) in E; injection E as E1 E2 E3.
  - rewrite E1 in E2. apply Z.leb_gt in E2. rewrite <- E1 in E2. rewrite firstn_length in E2. rewrite firstn_all2 in E1 by lia. cbn [concat length Nat.sub].
    rewrite app_nil_r, Nat.add_0_r, <- E1. apply firstn_skipn.
  - rewrite E1 in E2, E3. rewrite E2 in E3. subst x. apply Z.leb_le in E2.
    assert (EL : length l = Z.to_nat lim). { assert (X : (length l <= Z.to_nat lim)%nat) by (rewrite <- E1, firstn_length; lia). lia. }
    assert (LE : (length l <= length (skipn (Z.to_nat off) (hist n)))%nat) by (rewrite <- E1; rewrite firstn_length; lia). rewrite skipn_length in LE.
    destruct (Hgrow n) as [more Em].
    assert (Ho' : 0 <= off + Z.of_nat (length l) <= Z.of_nat (length (hist (S n)))) by (rewrite Em, app_length; lia).
    specialize (IH Ho'). cbn [concat length]. destruct ps as [|p0 ps']; [inversion H|]. cbn [length] in *.
    replace (n + (S (S (length ps')) - 1))%nat with (S n + (S (length ps') - 1))%nat by lia. rewrite <- IH, app_assoc. f_equal.
    rewrite Em, firstn_app. replace (Z.to_nat (off + Z.of_nat (length l)) - length (hist n))%nat with 0%nat by lia. rewrite firstn_O, app_nil_r.
    replace (Z.to_nat (off + Z.of_nat (length l))) with (Z.to_nat off + length l)%nat by lia.
    rewrite <- (firstn_skipn (Z.to_nat off) (hist n)) at 2. rewrite firstn_app.
    rewrite firstn_length_le by lia. rewrite firstn_firstn. replace (Init.Nat.min (Z.to_nat off + length l) (Z.to_nat off)) with (Z.to_nat off) by lia.
    f_equal. replace (Z.to_nat off + length l - Z.to_nat off)%nat with (length l) by lia. rewrite EL. symmetry. exact E1.
Qed.
Theorem C188_offset_appended_partial : forall R (hist : nat -> list R) (db : nat -> qdb R) sql lim,
  1 <= lim < 2 ^ 32 -> (forall n, offset_db (hist n) (db n) sql) -> (forall n, Z.of_nat (length (hist n)) < 2 ^ 32) ->
  (forall n, exists more, hist (S n) = hist n ++ more) ->
  forall ps, follow_offsets (offset_fetch db sql lim) 0 0 ps -> concat ps = hist (length ps - 1)%nat.
Proof.
  intros R hist db sql lim Hlim Hdb Hl Hg ps H. pose proof (offsets_appended hist db sql lim Hlim Hdb Hl Hg 0 0 ps H) as X. cbn [Z.to_nat firstn app Nat.add] in X. apply X. lia.
Qed.

(** What offset paging shows exactly, for every history: page i is the i-th
    page of the table as it was then. *)
Lemma offset_page_any {R} (hist : list R) db sql lim off : 1 <= lim -> offset_db hist db sql -> Z.of_nat (length hist) < 2 ^ 32 -> 0 <= off ->
  let p := firstn (Z.to_nat lim) (skipn (Z.to_nat off) hist) in
  snd (query_paged db sql [QV (AUint32 lim); QV (AUint32 off)]) = ROk (p, lim <=? Z.of_nat (length p), if lim <=? Z.of_nat (length p) then off + Z.of_nat (length p) else 0).
Proof.
  intros Hlim Hdb Hl Ho p. destruct (Z_le_gt_dec off (Z.of_nat (length hist))) as [L|L]; [apply offset_page; auto|].
  assert (E : p = []) by (unfold p; rewrite skipn_all2 by lia; apply firstn_nil). 
  unfold query_paged. replace (page_args [QV (AUint32 lim); QV (AUint32 off)]) with (Some (lim, off, [QV (AUint32 lim); QV (AUint32 off)])) by reflexivity.
  pose proof (list_query_ok db sql _ _ (Hdb [] lim off)) as LQ. cbn [app] in LQ.
  destruct (list_query db sql [QV (AUint32 lim); QV (AUint32 off)]) as [t o]. cbn [snd] in *. rewrite LQ. fold p. rewrite E. cbn [length Z.of_nat].
  replace (u32 0) with 0 by reflexivity. replace (lim <=? 0) with false by (symmetry; apply Z.leb_gt; lia). reflexivity.
Qed.
Lemma offsets_exact {R} (hist : nat -> list R) db sql lim : 1 <= lim -> (forall n, offset_db (hist n) (db n) sql) -> (forall n, Z.of_nat (length (hist n)) < 2 ^ 32) ->
  forall n off ps, follow_offsets (offset_fetch db sql lim) n off ps -> 0 <= off ->
  forall i p, nth_error ps i = Some p -> p = firstn (Z.to_nat lim) (skipn (Z.to_nat off + i * Z.to_nat lim) (hist (n + i)%nat))
     /\ (Z.of_nat (length p) < lim <-> S i = length ps).
Proof.
  intros Hlim Hdb Hl n off ps H. induction H as [n off l x E|n off l x ps E H IH]; intros Ho i p Hp;
    unfold offset_fetch in E; rewrite (offset_page_any (hist n) _ sql lim off Hlim (Hdb n) (Hl n) Ho) in E; injection E as E1 E2 E3.
  - destruct i as [|[|i]]; try discriminate. inversion Hp; subst p. rewrite Nat.mul_0_l, !Nat.add_0_r. split; [symmetry; exact E1|].
    rewrite E1 in E2. apply Z.leb_gt in E2. cbn [length]. split; intros; [reflexivity|exact E2].
  - rewrite E1 in E2, E3. rewrite E2 in E3. subst x. apply Z.leb_le in E2.
    assert (EL : length l = Z.to_nat lim). { assert (X : (length l <= Z.to_nat lim)%nat) by (rewrite <- E1, firstn_length; lia). lia. }
    destruct i as [|i]; cbn [nth_error] in Hp.
    + inversion Hp; subst p. rewrite Nat.mul_0_l, !Nat.add_0_r. split; [symmetry; exact E1|]. cbn [length]. destruct ps; [inversion H|]. cbn [length]. split; lia.
    + destruct (IH ltac:(lia) i p Hp) as [A C]. split; [|rewrite C; cbn [length]; lia].
      rewrite A. replace (n + S i)%nat with (S n + i)%nat by lia. do 2 f_equal. lia.
Qed.
Theorem C188_offset_exact_partial : forall R (hist : nat -> list R) (db : nat -> qdb R) sql lim,
  1 <= lim < 2 ^ 32 -> (forall n, offset_db (hist n) (db n) sql) -> (forall n, Z.of_nat (length (hist n)) < 2 ^ 32) ->
  forall ps, follow_offsets (offset_fetch db sql lim) 0 0 ps -> forall i p, nth_error ps i = Some p ->
  p = firstn (Z.to_nat lim) (skipn (i * Z.to_nat lim) (hist i)) /\ (Z.of_nat (length p) < lim <-> S i = length ps).
Proof.
  intros R hist db sql lim Hlim Hdb Hl ps H i p Hp.
  exact (offsets_exact hist db sql lim (proj1 Hlim) Hdb Hl 0%nat 0 ps H (Z.le_refl 0) i p Hp).
Qed.

(** Rows 1..5, two per page; between the pages 2 goes, 9 comes, 4 stays. *)
Definition ex_hist (n : nat) : list Z := match n with O => [1; 2; 3; 4; 5] | 1%nat => [1; 3; 4; 5; 9] | _ => [0; 1; 4; 5; 6; 9] end.
Example C188_cursor_ex : forall sql, let fetch := fun n c => snd (query_cursor (sample_cdb (ex_hist n)) sql ([] ++ [QV (AInt64 c); QV (AUint32 2)])) in
  follow_changing (fun r => r) fetch 0 0 [[1; 2]; [3; 4]; [5; 6]; [9]].
Proof.
  intros sql fetch. apply (ch_more _ _ 0 0 [1] 2); [reflexivity|]. apply (ch_more _ _ 1 2 [3] 4); [reflexivity|].
  apply (ch_more _ _ 2 4 [5] 6); [reflexivity|]. apply ch_last. reflexivity.
Qed.
Example C188_cursor_ex_db : forall n sql, cursor_db (fun r => r) (ex_hist n) (sample_cdb (ex_hist n)) sql /\ ordered (fun r => r) (ex_hist n).
Proof.
  intros n sql. split; [apply C95_ex_db|]. destruct n as [|[|n]]; cbn [ex_hist]; repeat constructor; lia.
Qed.
Example C188_offset_ex : forall sql, follow_offsets (offset_fetch (fun n => sample_db (match n with O => [1; 2; 3] | _ => [1; 2; 3; 4] end)) sql 2) 0 0 [[1; 2]; [3; 4]; []].
Proof. intros sql. eapply of_more; [reflexivity|]. eapply of_more; [reflexivity|]. eapply of_last. reflexivity. Qed.

(** ** Assumptions *)
Print Assumptions C188_cursor.
Print Assumptions C188_cursor_args.
Print Assumptions C188_cursor_ends.
Print Assumptions C188_offset_missed_refuted.
Print Assumptions C188_offset_twice_refuted.
Print Assumptions C188_offset_appended_partial.
Print Assumptions C188_offset_exact_partial.
