(** Properties of goroutines that share a dialect, a TableInfo or an ID.
    [prun d (start ts) sched] runs the calls [ts], one per goroutine, on the
    shared dialect [d]; [sched] says which goroutine does the next atomic step. *)
From Verif Require Import GoBase GoBaseFacts XsqlModel XsqlSpec XsqlProps IdModel IdSpec IdProofs SchemaModel ConcModel ConcProofs.
From Coq Require Import Lia.
Open Scope Z_scope.

Definition ex_ts : list task := [TString ex_q1; TGet (B "n") ex_q1; TGet (B "n") (ex_stmt ex_plain (KSelect (B "a") []) [CFrom (B "b") []]); TString (ex_stmt ex_plain (KSelect (B "c") []) [])].

(** ** C127 Concurrent String and GetOrCreateQuery *)
(** If calls with the same key agree when each is the only one, then in every
    schedule every call returns what it returns alone. *)
Theorem C127_as_if_alone : forall d ts sched d' p i r,
  (forall t, In t ts -> ready t) ->
  (forall t t', In t ts -> In t' ts -> task_key t = task_key t' -> alone d t = alone d t') ->
  prun d (start ts) sched = (d', p) -> result p i r ->
  exists t, nth_error ts i = Some t /\ r = alone d t.
Proof. exact concurrent_alone. Qed.
(** No call waits for another: three own steps are enough. *)
Theorem C127_finishes : forall d ts sched d' p i, (i < length ts)%nat -> (3 <= count_occ Nat.eq_dec sched i)%nat ->
  prun d (start ts) sched = (d', p) -> exists r, result p i r.
Proof. exact concurrent_finish. Qed.
(** The steps of one call alone are the call. *)
Theorem C127_alone_string : forall d q, exists d', prun d (start [TString q]) [O; O; O] = (d', [(TString q, TDone (alone d (TString q)))]) /\
  d' = match stmt_string d q with Some (d1, _, _) => d1 | None => d end.
Proof. exact string_alone. Qed.
Theorem C127_alone_get : forall d n c, exists d', prun d (start [TGet n c]) [O; O; O] = (d', [(TGet n c, TDone (alone d (TGet n c)))]) /\
  d' = match get_or_create d n c with Some (d1, _, _) => d1 | None => d end.
Proof. exact get_alone. Qed.

(** Four goroutines, two of them building the query [n]: all texts. *)
Example C127_ex : (forall t, In t ex_ts -> ready t) /\
  (forall t t', In t ex_ts -> In t' ex_ts -> task_key t = task_key t' -> alone ex_plain t = alone ex_plain t') /\
  map snd (snd (prun ex_plain (start ex_ts) [0; 1; 2; 3; 1; 2; 0; 2; 1; 3]%nat)) =
  [TDone (Some (B "SELECT a FROM b")); TDone (Some (B "SELECT a FROM b")); TDone (Some (B "SELECT a FROM b")); TDone (Some (B "SELECT c"))].
Proof.
  split; [|split].
  - intros t H. cbn [In ex_ts] in H. repeat destruct H as [<-|H]; try contradiction; try reflexivity; discriminate.
  - intros t t' H H'. cbn [In ex_ts] in H, H'. repeat destruct H as [<-|H]; try contradiction; repeat destruct H' as [<-|H']; try contradiction; vm_compute; intros E; try reflexivity; discriminate.
  - vm_compute. reflexivity.
Qed.

(** ** C128 One text for one name *)
(** Two first calls whose callbacks build different queries: for any such pair
    there is a schedule in which both callbacks are called and the two callers
    get different texts. *)
Theorem C128_one_text_refuted : forall d n c1 c2 s1 s2, n <> [] -> get_cached d n = None ->
  st_sql c1 = [] -> st_sql c2 = [] ->
  render (is_pg d) (set_name c1 n) = Some s1 -> render (is_pg d) (set_name c2 n) = Some s2 ->
  exists d1 d2 p1 p2, prun d (start [TGet n c1; TGet n c2]) [0; 1]%nat = (d1, p1) /\ p1 = [(TGet n c1, TCalled); (TGet n c2, TCalled)] /\
  prun d1 p1 [0; 1; 0; 1]%nat = (d2, p2) /\ result p2 0 (Some s1) /\ result p2 1 (Some s2) /\ get_cached d2 n = Some s2.
Proof.
  intros d n c1 c2 s1 s2 Hn Hc Q1 Q2 R1 R2.
  assert (K1 : cache_key (set_name c1 n) = n) by (apply (own_key (TGet n c1)); assumption).
  assert (K2 : cache_key (set_name c2 n) = n) by (apply (own_key (TGet n c2)); assumption).
  unfold start. cbn [map prun pstep tstep]. rewrite Hc. eexists _, _, _, _. split; [reflexivity|]. split; [reflexivity|].
  cbn [prun pstep tstep own_stmt]. unfold load_step. replace (st_sql (set_name c1 n)) with (st_sql c1) by reflexivity.
  replace (st_sql (set_name c2 n)) with (st_sql c2) by reflexivity. rewrite Q1, Q2, K1, K2, Hc, R1, R2. cbn [is_empty prun pstep tstep own_stmt].
  rewrite K1, K2. split; [reflexivity|]. split; [eexists; reflexivity|]. split; [eexists; reflexivity|]. rewrite assoc_put, beqb_refl. reflexivity.
Qed.
(** What always holds: a call returns what one of the calls with the same name
    (or key) returns alone ... *)
Theorem C128_some_text_partial : forall d ts sched d' p i r,
  (forall t, In t ts -> ready t) -> prun d (start ts) sched = (d', p) -> result p i r ->
  exists t t', nth_error ts i = Some t /\ In t' ts /\ task_key t' = task_key t /\ r = alone d t'.
Proof. intros d ts sched d' p i r A H R. destruct (concurrent_some _ _ _ _ _ _ _ A H R) as (t & N & t' & X). exists t, t'. tauto. Qed.
(** ... and once a text is in the cache every later call returns it. *)
Theorem C128_after_first_partial : forall d ts sched d' p i r n s,
  (forall t, In t ts -> ready t) -> get_cached d n = Some s -> prun d (start ts) sched = (d', p) -> result p i r ->
  forall t, nth_error ts i = Some t -> task_key t = n -> r = Some s.
Proof. exact concurrent_cached. Qed.

Example C128_ex : get_cached ex_plain (B "n") = None /\ st_sql ex_q1 = [] /\ render (is_pg ex_plain) (set_name ex_q1 (B "n")) = Some (B "SELECT a FROM b")
  /\ (let c2 := ex_stmt ex_plain (KSelect (B "c") []) [] in st_sql c2 = [] /\ render (is_pg ex_plain) (set_name c2 (B "n")) = Some (B "SELECT c")).
Proof. repeat split; vm_compute; reflexivity. Qed.

(** ** C129 AllColumns of a shared TableInfo *)
(** [rprun text s_init (repeat RCheck k) sched]: [k] goroutines call AllColumns of
    a TableInfo whose list was not asked for yet. *)
Theorem C129_readable_refuted : forall t text, ti_all t = [] -> snd (all_columns t) = text -> text <> [] ->
  exists sched m p q n, rprun text s_init [RCheck; RCheck] sched = (m, p) /\ nth_error p 1 = Some (RGot q n) /\ s_value q n = None.
Proof. intros t text _ _ H. destruct (lazy_torn text H) as (s & m & p & A & q & n & C & D). exists s, m, p, q, n. auto. Qed.
(** No call returns other columns. *)
Theorem C129_no_other_text_partial : forall t text k sched m p i q n, ti_all t = [] -> snd (all_columns t) = text ->
  rprun text s_init (repeat RCheck k) sched = (m, p) -> nth_error p i = Some (RGot q n) ->
  s_value q n = Some text \/ s_value q n = None.
Proof. intros t text k sched m p i q n _ _. apply lazy_values. Qed.
(** A first call before the goroutines start makes all of them safe. *)
Theorem C129_after_first_partial : forall t text b1 b2 b3 b4 b5 m1 p1 k sched m p i q n, ti_all t = [] -> snd (all_columns t) = text -> text <> [] ->
  rprun text s_init [RCheck] [(O, b1); (O, b2); (O, b3); (O, b4); (O, b5)] = (m1, p1) ->
  rprun text m1 (repeat RCheck k) sched = (m, p) -> nth_error p i = Some (RGot q n) ->
  p1 = [RGot (Some text) (length text)] /\ s_value q n = Some text.
Proof.
  intros t text b1 b2 b3 b4 b5 m1 p1 k sched m p i q n _ _ H H1. rewrite (lazy_alone text b1 b2 b3 b4 b5 H) in H1. injection H1 as <- <-.
  intros H2 H3. split; [reflexivity|]. eapply lazy_published; eauto.
Qed.
Definition t_two : tinfo := mkTI (B "public") (B "org") (B "id") [B "id"; B "name"] [] (B "public.org") [].
Example C129_ex : ti_all t_two = [] /\ snd (all_columns t_two) = B "id, name" /\ B "id, name" <> [].
Proof. repeat split; discriminate. Qed.

(** ** C130 String of copies of an ID *)
Theorem C130_readable_refuted : forall n, 0 < n < 2 ^ 64 ->
  exists sched m p q l, fst (id_string (id_new n)) = id_string_of n /\
  rprun (id_string_of n) s_init [RCheck; RCheck] sched = (m, p) /\ nth_error p 1 = Some (RGot q l) /\ s_value q l = None.
Proof.
  intros n Hn. destruct (lazy_torn (id_string_of n)) as (s & m & p & A & q & l & C & D).
  - unfold id_string_of. apply fmt_uint_nonempty; lia.
  - exists s, m, p, q, l. split; [|auto]. unfold id_new, id_string. replace (0 <? n) with true by lia. cbn [ip_id ip_str fst is_empty].
    replace (n =? 0) with false by lia. reflexivity.
Qed.
Theorem C130_no_other_text_partial : forall v k sched m p i q l,
  rprun (id_string_of v) s_init (repeat RCheck k) sched = (m, p) -> nth_error p i = Some (RGot q l) ->
  s_value q l = Some (id_string_of v) \/ s_value q l = None.
Proof. intros v. apply lazy_values. Qed.
Theorem C130_after_first_partial : forall v b1 b2 b3 b4 b5 m1 p1 k sched m p i q l, 0 < v < 2 ^ 64 ->
  rprun (id_string_of v) s_init [RCheck] [(O, b1); (O, b2); (O, b3); (O, b4); (O, b5)] = (m1, p1) ->
  rprun (id_string_of v) m1 (repeat RCheck k) sched = (m, p) -> nth_error p i = Some (RGot q l) ->
  p1 = [RGot (Some (id_string_of v)) (length (id_string_of v))] /\ s_value q l = Some (id_string_of v).
Proof.
  intros v b1 b2 b3 b4 b5 m1 p1 k sched m p i q l Hv H1.
  assert (H : id_string_of v <> []) by (unfold id_string_of; apply fmt_uint_nonempty; lia).
  rewrite (lazy_alone _ b1 b2 b3 b4 b5 H) in H1. injection H1 as <- <-. intros H2 H3. split; [reflexivity|]. eapply lazy_published; eauto.
Qed.

(** ** Assumptions *)
Print Assumptions C127_as_if_alone.
Print Assumptions C127_finishes.
Print Assumptions C127_alone_string.
Print Assumptions C127_alone_get.
Print Assumptions C128_one_text_refuted.
Print Assumptions C128_some_text_partial.
Print Assumptions C128_after_first_partial.
Print Assumptions C129_readable_refuted.
Print Assumptions C129_no_other_text_partial.
Print Assumptions C129_after_first_partial.
Print Assumptions C130_readable_refuted.
Print Assumptions C130_no_other_text_partial.
Print Assumptions C130_after_first_partial.
