(** C71, C72, C74-C76, C112-C116: providers, connections, migrations, notifications. *)
From Coq Require Import Permutation.
From Verif Require Import GoBase GoBaseFacts ProvModel ProvSpec ProvProofs.
Open Scope Z_scope.

(** ** C71: transactions *)
Lemma started_facts nm cs g before p e k after s : started nm cs g before p e k after s ->
  exists n, k = S n /\ inv nm cs g s /\ (n < length (s_txs s))%nat /\ nth_error (s_txs s) n = Some (fate n after).
Proof.
  intros (s1 & s2 & rs & H & B & R). pose proof (inv_history _ _ _ _ _ H) as I. pose proof (inv_step _ _ _ _ _ _ _ I B) as I2.
  destruct (begin_ok _ _ _ _ _ _ _ _ I B) as (-> & -> & _ & -> & T & _).
  exists (length (s_txs s1)). split; [reflexivity|]. split; [eapply inv_run; eassumption|].
  assert (F : nth_error (s_txs s) (length (s_txs s1)) = Some (fate (length (s_txs s1)) after)).
  { eapply run_fate; [exact I2| |exact R]. rewrite T, nth_error_app2, Nat.sub_diag by lia. reflexivity. }
  split; [eapply nth_error_lt, F|exact F].
Qed.
Theorem C71_nested nm cs g before p e k after s e' : started nm cs g before p e k after s -> pstep s (OBegin k e') = (s, PErr EStarted).
Proof. intros H. destruct (started_facts _ _ _ _ _ _ _ _ _ H) as (n & -> & I & L & F). cbn [pstep]. rewrite (inv_tx _ _ _ _ _ I L). reflexivity. Qed.
Theorem C71_no_transaction nm cs g ops s e : history nm cs g ops s -> pstep s (OCommit 0 e) = (s, PErr ENoTx) /\ pstep s (ORollback 0 e) = (s, PErr ENoTx).
Proof. intros H. destruct (inv_root _ _ _ _ (inv_history _ _ _ _ _ H)) as (c & tk & E & _). cbn [pstep]. rewrite E. split; reflexivity. Qed.
(** The first of Commit, Rollback, Close and the end of the context decides. *)
Theorem C71_fate nm cs g before p e k after s : started nm cs g before p e k after s -> exists n, k = S n /\ nth_error (s_txs s) n = Some (fate n after).
Proof. intros H. destruct (started_facts _ _ _ _ _ _ _ _ _ H) as (n & -> & I & L & F). exists n. split; [reflexivity|exact F]. Qed.
Theorem C71_ended nm cs g before p e n after s e' : started nm cs g before p e (S n) after s -> fate n after <> TActive ->
  pstep s (OCommit (S n) e') = (s, PErr ETxDone) /\ pstep s (ORollback (S n) e') = (s, PNil) /\ pstep s (OClose (S n) e') = (s, PNil)
  /\ pstep s (OQuery (S n) e') = (s, PErr ETxDone).
Proof.
  intros H. destruct (started_facts _ _ _ _ _ _ _ _ _ H) as (n' & Q & I & L & F). injection Q as <-. intros N. cbn [pstep]. rewrite (inv_tx _ _ _ _ _ I L). cbv zeta.
  rewrite (put_tx_prov nm cs) by assumption. unfold rollback. cbn [tx_prov no_ticker pr_tx pr_conn pr_db negb]. unfold end_tx. rewrite F.
  destruct (fate n after); [congruence| | |]; repeat split; reflexivity.
Qed.
Theorem C71_active nm cs g before p e n after s e' : started nm cs g before p e (S n) after s -> fate n after = TActive ->
  snd (pstep s (OQuery (S n) None)) = PSent (OnTx n) /\ fst (pstep s (OQuery (S n) e')) = s
  /\ (forall o, In o [OCommit (S n) e'; ORollback (S n) e'; OClose (S n) e'] -> snd (pstep s o) = match e' with None => PNil | Some z => PErr (EDriver z) end).
Proof.
  intros H. destruct (started_facts _ _ _ _ _ _ _ _ _ H) as (n' & Q & I & L & F). injection Q as <-. intros N. rewrite N in F.
  split; [|split].
  - cbn [pstep]. rewrite (inv_tx _ _ _ _ _ I L). cbn [tx_prov pr_db]. rewrite F. reflexivity.
  - cbn [pstep]. rewrite (inv_tx _ _ _ _ _ I L). cbn [tx_prov pr_db]. rewrite F. reflexivity.
  - intros o [<-|[<-|[<-|[]]]]; cbn [pstep]; rewrite (inv_tx _ _ _ _ _ I L); cbv zeta; try rewrite (put_tx_prov nm cs) by assumption; unfold rollback; cbn [tx_prov no_ticker pr_tx pr_conn negb]; unfold end_tx; rewrite F; destruct e'; reflexivity.
Qed.
(** The connection stays open until Close of the provider that opened it. *)
Theorem C71_connection nm cs g ops s : history nm cs g ops s -> (s_open s = true <-> forall e, ~ In (OClose 0 e) ops).
Proof.
  intros [rs H]. rewrite (run_open _ _ _ _ _ _ _ (inv_init nm cs g) H). cbn [new_state s_open andb]. rewrite Bool.negb_true_iff. split.
  - intros E e I. assert (X : existsb closes_root ops = true) by (apply existsb_exists; exists (OClose 0 e); split; [exact I|reflexivity]). congruence.
  - intros N. destruct (existsb closes_root ops) eqn:E; [|reflexivity]. apply existsb_exists in E. destruct E as (o & I & C).
    destruct o as [| | |[|p] e| |]; try discriminate C. destruct (N e I).
Qed.
Theorem C71_routing nm cs g ops s : history nm cs g ops s -> (forall e, ~ In (OClose 0 e) ops) -> pstep s (OQuery 0 None) = (s, PSent OnDb).
Proof.
  intros H N. assert (O : s_open s = true) by (apply (C71_connection _ _ _ _ _ H), N).
  destruct (inv_root _ _ _ _ (inv_history _ _ _ _ _ H)) as (c & tk & E & _). cbn [pstep]. rewrite E. cbn [pr_db]. rewrite O. reflexivity.
Qed.
Example ex_C71 :
  snd (prun (new_state (B "postgres") (B "x") 0) [OBegin 0 None; OQuery 1 None; OBegin 1 None; OCommit 1 None; ORollback 1 None; OClose 1 None; OQuery 0 None; OBegin 0 None; OCancel 1; OCommit 2 None])
  = [PProvider 1; PSent (OnTx 0); PErr EStarted; PNil; PNil; PNil; PSent OnDb; PProvider 2; PNil; PErr ETxDone].
Proof. reflexivity. Qed.
Example ex_C71_started : started (B "postgres") [] 0 [OBegin 0 None] 0 None 2 [OCommit 1 None; ORollback 2 (Some 7)] (mkPS true [TCommitted; TBroken] (s_provs (fst (prun (new_state (B "postgres") [] 0) [OBegin 0 None; OBegin 0 None])))).
Proof. eexists _, _, _. split; [eexists; reflexivity|]. split; reflexivity. Qed.

(** ** C112: a closed provider *)
(** Close succeeds, then queries fail with an error, and closing again does
    nothing. *)
Theorem C112_closed_queries nm cs g ops s e : history nm cs g ops s -> In (OClose 0 e) ops -> forall e', pstep s (OQuery 0 e') = (s, PErr EDbClosed).
Proof.
  intros H C e'. assert (O : s_open s = false). { destruct (s_open s) eqn:O; [|reflexivity]. destruct (proj1 (C71_connection _ _ _ _ _ H) O e C). }
  destruct (inv_root _ _ _ _ (inv_history _ _ _ _ _ H)) as (c & tk & E & _). cbn [pstep]. rewrite E. cbn [pr_db]. rewrite O. reflexivity.
Qed.
(** But BeginTx on a closed provider is a nil pointer dereference, always. *)
Theorem C112_closed_begin_refuted nm cs g ops s s' r : history nm cs g ops s -> pstep s (OClose 0 None) = (s', r) -> r = PNil /\ forall e, pstep s' (OBegin 0 e) = (s', PPanic).
Proof.
  intros H C. destruct (inv_history _ _ _ _ _ H) as (c & tk & E & _). cbn [pstep] in C. rewrite E in C. cbn [nth_error] in C. cbv zeta in C.
  unfold put_prov in C. rewrite E in C. cbn [no_ticker pr_conn pr_tx pr_db pr_connstr pr_name pr_gen no_conn s_open s_txs s_provs set_nth negb] in C.
  assert (X : (if s_open s then None else None) = (@None Z)) by (destruct (s_open s); reflexivity). destruct c; cbn [negb] in C; [rewrite X in C|]; injection C as <- <-; split; reflexivity.
Qed.
(** Other open providers are not affected: a transaction in progress goes on. *)
Theorem C112_transactions_go_on nm cs g before p e n after s : started nm cs g before p e (S n) after s -> fate n after = TActive ->
  forall e', snd (pstep (fst (pstep s (OClose 0 e'))) (OQuery (S n) None)) = PSent (OnTx n).
Proof.
  intros H N e'. destruct (pstep s (OClose 0 e')) as [s' r] eqn:E. cbn [fst].
  assert (H' : started nm cs g before p e (S n) (after ++ [OClose 0 e']) s').
  { destruct H as (s1 & s2 & rs & A & B & C). exists s1, s2, (rs ++ [r]). split; [exact A|]. split; [exact B|].
    clear A B N. revert s2 rs C. induction after as [|o l IH]; intros s2 rs C; cbn [prun app] in *.
    - injection C as -> <-. rewrite E. reflexivity.
    - destruct (pstep s2 o) as [s3 x]. destruct (prun s3 l) as [s4 xs] eqn:P. injection C as -> <-. rewrite (IH _ _ P). reflexivity. }
  assert (N' : fate n (after ++ [OClose 0 e']) = TActive).
  { clear -N. induction after as [|o l IH]; cbn [fate app] in *; [reflexivity|]. destruct (ends n o); [exact N|]. apply IH, N. }
  apply (C71_active _ _ _ _ _ _ _ _ _ None H' N').
Qed.
Example ex_C112 : snd (prun (new_state (B "postgres") (B "x") 0) [OBegin 0 None; OClose 0 None; OClose 0 None; OQuery 0 None; OQuery 1 None; OBegin 0 None])
  = [PProvider 1; PNil; PNil; PErr EDbClosed; PSent (OnTx 0); PPanic].
Proof. reflexivity. Qed.

(** ** C113: a transaction is a provider of the same database *)
Theorem C113_shared_partial nm cs g before p e k after s : started nm cs g before p e k after s ->
  exists pr, nth_error (s_provs s) k = Some pr /\ pr_name pr = nm /\ pr_gen pr = g.
Proof. intros H. destruct (started_facts _ _ _ _ _ _ _ _ _ H) as (n & -> & I & L & F). eexists. split; [apply (inv_tx _ _ _ _ _ I L)|]. split; reflexivity. Qed.
(** Its ConnectionString is empty, whatever the provider's was. *)
Theorem C113_connection_string_refuted nm cs g before p e k after s : started nm cs g before p e k after s ->
  exists root pr, nth_error (s_provs s) 0 = Some root /\ pr_connstr root = cs /\ nth_error (s_provs s) k = Some pr /\ pr_connstr pr = [].
Proof.
  intros H. destruct (started_facts _ _ _ _ _ _ _ _ _ H) as (n & -> & I & L & F). destruct (inv_root _ _ _ _ I) as (c & tk & E & _).
  eexists _, _. split; [exact E|]. split; [reflexivity|]. split; [apply (inv_tx _ _ _ _ _ I L)|reflexivity].
Qed.

(** ** C72: the keep-alive goroutine *)
Definition panicking : kstate := mkK false false false GPanicked CDone.
(** A tick just before Close makes the goroutine use the connection after it was
    set to nil. *)
Theorem C72_panic_refuted : kreach k_init panicking.
Proof.
  repeat (eapply kr_step; [|first [apply (k_nil (mkK false false false GGot CDone)) | apply (k_setnil (mkK false false true GGot CClosed)) | apply (k_dbclose (mkK false false true GGot CStopped)) | apply (k_stop (mkK true false true GGot CIdle)) | apply (k_tick k_init)]; reflexivity]).
  apply kr_refl.
Qed.
(** It never ends, under any schedule: stopping a ticker does not close its
    channel. *)
Theorem C72_ends_refuted s : kreach k_init s -> k_gor s <> GEnded.
Proof. apply keepalive_never_ends. Qed.
(** When the goroutine is not pinging at the time of Close, no schedule makes it
    panic. *)
Theorem C72_safe_partial s s' : kreach k_init s -> k_run s = false -> k_gor s = GWait -> kreach s s' -> k_gor s' = GWait.
Proof. intros H R G K. exact (proj1 (keepalive_quiet _ _ K (keepalive_open _ _ H eq_refl) R G)). Qed.
Example ex_C72 : kreach k_init (mkK false false true GWait CStopped).
Proof. eapply kr_step; [apply kr_refl|]. apply (k_stop k_init). reflexivity. Qed.

(** ** C114: NewProvider *)
(** It succeeds exactly when every step does, migrating iff a source is given. *)
Theorem C114_steps cfg e : new_provider cfg e =
  let m := match cfg with Some (_ :: _) => true | _ => false end in
  match oe_resolve e, oe_supported e, oe_open e, oe_ping e, m, oe_migrate e with
  | None, true, None, None, true, None => ([CallOpen; CallPing; CallMigrate; CallKeepAlive], true)
  | None, true, None, None, false, _ => ([CallOpen; CallPing; CallKeepAlive], true)
  | None, true, None, None, true, Some _ => ([CallOpen; CallPing; CallMigrate], false)
  | None, true, None, Some _, _, _ => ([CallOpen; CallPing], false)
  | _, _, _, _, _, _ => ([], false)
  end.
Proof. unfold new_provider. destruct (oe_resolve e), (oe_supported e), (oe_open e), (oe_ping e), cfg as [[|c s]|], (oe_migrate e); reflexivity. Qed.
(** A failure after the connection was opened leaves it open. *)
Theorem C114_leak_refuted cfg e calls : new_provider cfg e = (calls, false) -> (oe_ping e <> None \/ oe_migrate e <> None) -> oe_resolve e = None -> oe_supported e = true -> oe_open e = None ->
  In CallOpen calls /\ ~ In CallClose calls.
Proof.
  intros H F R S O. rewrite C114_steps, R, S, O in H. cbv zeta in H.
  destruct (oe_ping e); [injection H as <-; cbn; intuition discriminate|]. destruct cfg as [[|c s]|]; try discriminate H. destruct (oe_migrate e); [|discriminate H]. injection H as <-. cbn; intuition discriminate.
Qed.
Example ex_C114 : new_provider (Some (B "sql/migrations")) (mkOE None true None None (Some 3)) = ([CallOpen; CallPing; CallMigrate], false).
Proof. reflexivity. Qed.

(** ** C76: Migrate *)
Theorem C76_no_source p force target e : migrate p [] force target e = ([], MigOk).
Proof. reflexivity. Qed.
Lemma known_spec p : known_provider p = true <-> p = B "postgres" \/ p = B "pgsql" \/ p = B "sqlserver".
Proof. unfold known_provider. rewrite !Bool.orb_true_iff, !beqb_eq. tauto. Qed.
(** A failure before the first change changes nothing and is reported. *)
Theorem C76_failures_before p dir force target e : dir <> [] -> ~ ready p e -> exists t, migrate p dir force target e = ([], MigErr t).
Proof.
  intros D N. unfold migrate. destruct dir as [|c dir]; [congruence|]. cbn [is_empty]. unfold ready in N.
  destruct (me_stat e) as [t|]; cbn [wrap]; [eauto|]. destruct (known_provider p) eqn:K; cbn [negb]; [|eauto].
  destruct (me_driver e) as [t|]; cbn [wrap]; [eauto|]. destruct (me_new e) as [t|]; cbn [wrap]; [eauto|].
  destruct (me_version e) as [t|].
  - destruct (beqb_spec t nil_version) as [->|X]; [|cbn [wrap]; eauto]. destruct N. repeat split; auto. apply known_spec, K.
  - destruct N. repeat split; auto. apply known_spec, K.
Qed.
(** Otherwise the version is forced iff it is positive, and then, if that worked,
    the migration runs to the given version if positive, up otherwise. *)
Theorem C76_decisions p dir force target e : dir <> [] -> ready p e -> 0 <= target < 2^63 ->
  fst (migrate p dir force target e) =
    (if 0 <? force then [MForce force] else []) ++ match forcing force e with Some _ => [] | None => [if 0 <? target then MMigrate target else MUp] end.
Proof.
  intros D (S & K & Dr & N & V) T. unfold migrate. destruct dir as [|c dir]; [congruence|]. cbn [is_empty]. rewrite S, Dr, N. cbn [wrap].
  apply known_spec in K. rewrite K. cbn [negb wrap].
  assert (X : match me_version e with Some t => if beqb t nil_version then None else Some t | None => None end = None).
  { destruct V as [->| ->]; [reflexivity|]. rewrite beqb_refl. reflexivity. }
  rewrite X. cbn [wrap]. unfold forcing. destruct (if 0 <? force then me_force e force else None); [cbn [fst]; rewrite app_nil_r; reflexivity|].
  destruct (0 <? target); [destruct (me_migrate e (u64 target)) as [t|]|destruct (me_up e) as [t|]]; try (destruct (contains (B "no change") t); reflexivity); destruct (me_version2 e); reflexivity.
Qed.
Theorem C76_result p dir force target e : dir <> [] -> ready p e -> 0 <= target < 2^63 ->
  snd (migrate p dir force target e) =
    match forcing force e with
    | Some t => MigErr t
    | None => match outcome target e with
              | Some t => if contains (B "no change") t then MigOk else MigErr t
              | None => match me_version2 e with Some t => MigErr t | None => MigOk end
              end
    end.
Proof.
  intros D (S & K & Dr & N & V) T. unfold migrate. destruct dir as [|c dir]; [congruence|]. cbn [is_empty]. rewrite S, Dr, N. cbn [wrap].
  apply known_spec in K. rewrite K. cbn [negb wrap].
  assert (X : match me_version e with Some t => if beqb t nil_version then None else Some t | None => None end = None).
  { destruct V as [->| ->]; [reflexivity|]. rewrite beqb_refl. reflexivity. }
  rewrite X. cbn [wrap]. unfold forcing, outcome. destruct (if 0 <? force then me_force e force else None); [reflexivity|].
  assert (U : u64 target = target) by (unfold u64; apply Z.mod_small; lia). rewrite U.
  destruct (0 <? target); [destruct (me_migrate e target) as [t|]|destruct (me_up e) as [t|]]; try (destruct (contains (B "no change") t); reflexivity); destruct (me_version2 e); reflexivity.
Qed.
(** A failed migration whose text contains "no change" is reported as success. *)
Theorem C76_failures_propagate_refuted p dir e a b : dir <> [] -> ready p e -> me_up e = Some (a ++ B "no change" ++ b) -> migrate p dir 0 0 e = ([MUp], MigOk).
Proof.
  intros D R U. pose proof (C76_decisions p dir 0 0 e D R ltac:(lia)) as X. pose proof (C76_result p dir 0 0 e D R ltac:(lia)) as Y.
  destruct (migrate p dir 0 0 e) as [cs r]. cbn [fst snd] in *. subst cs r. unfold forcing, outcome. change (0 <? 0) with false. cbv iota. rewrite U.
  assert (C : contains (B "no change") (a ++ B "no change" ++ b) = true) by (apply contains_spec; eauto). rewrite C. reflexivity.
Qed.
Example ex_C76 : migrate (B "postgres") (B "dir") 3 5 (mkME None None None (Some nil_version) (fun _ => None) (fun _ => None) None None) = ([MForce 3; MMigrate 5], MigOk).
Proof. reflexivity. Qed.
Example ex_C76_swallowed : migrate (B "postgres") (B "dir") 0 0 (mkME None None None None (fun _ => None) (fun _ => None) (Some (B "migration failed: relation ""no changes"" does not exist")) None) = ([MUp], MigOk).
Proof. reflexivity. Qed.
Example ex_C76_error : migrate (B "sqlserver") (B "dir") 0 0 (mkME None None None None (fun _ => None) (fun _ => None) (Some (B "Dirty database version 2")) None) = ([MUp], MigErr (B "Dirty database version 2")).
Proof. reflexivity. Qed.

(** ** C74, C75: notifications *)
(** With one Listen call: what was received is, in order and once, what arrived,
    except for what is still waiting; nil notifications are skipped. *)
Theorem C74_single es s g : lrun l_init es = Some s -> ls_gors s = [g] -> real (arrived es) = l_got g ++ real (ls_queue s).
Proof. intros H G. destruct (seen_run _ _ H) as [seen (A & _ & _ & D & _)]. rewrite A, (D _ G). reflexivity. Qed.
(** The payload given to the callback. *)
Theorem C74_payload {P} (dec : bytes -> option P) n : let g := parse_payload dec n in
  gn_channel g = n_channel n /\ gn_raw g = n_extra n
  /\ (n_extra n = [] \/ n_extra n = B "{}" \/ n_extra n = B "[]" -> gn_payload g = None)
  /\ (~ (n_extra n = [] \/ n_extra n = B "{}" \/ n_extra n = B "[]") -> gn_payload g = dec (n_extra n)).
Proof.
  cbv zeta. unfold parse_payload. cbn [gn_channel gn_raw gn_payload]. split; [reflexivity|]. split; [reflexivity|].
  assert (E : is_empty (n_extra n) || beqb (n_extra n) (B "{}") || beqb (n_extra n) (B "[]") = true <-> (n_extra n = [] \/ n_extra n = B "{}" \/ n_extra n = B "[]")).
  { rewrite !Bool.orb_true_iff, !beqb_eq. destruct (n_extra n); cbn [is_empty]; intuition congruence. }
  destruct (is_empty (n_extra n) || beqb (n_extra n) (B "{}") || beqb (n_extra n) (B "[]")); split; intros H; try reflexivity; [destruct H; apply E; reflexivity|apply E in H; discriminate H].
Qed.
Definition note (c x : bytes) : notif := mkN c x.
Example ex_C74 : option_map (fun s => map l_got (ls_gors s)) (lrun l_init [EvListen (B "a"); EvArrive (Some (note (B "a") (B "1"))); EvArrive None; EvDeliver 0; EvArrive (Some (note (B "a") (B "2"))); EvNil 0; EvPing 0; EvDeliver 0])
  = Some [[note (B "a") (B "1"); note (B "a") (B "2")]].
Proof. reflexivity. Qed.
(** With several, each notification goes to one callback and each callback sees
    them in order ... *)
Theorem C75_once_partial es s : lrun l_init es = Some s -> Permutation (real (arrived es)) (concat (map l_got (ls_gors s)) ++ real (ls_queue s)).
Proof. intros H. destruct (seen_run _ _ H) as [seen (A & _ & C & _)]. rewrite A. apply Permutation_app_tail, C. Qed.
Theorem C75_order_partial es s i g : lrun l_init es = Some s -> nth_error (ls_gors s) i = Some g -> subseq (l_got g) (real (arrived es)).
Proof. intros H G. destruct (seen_run _ _ H) as [seen (A & B & _)]. rewrite A. apply subseq_app_l. eapply B, G. Qed.
(** ... but for any two topics, a notification of the second can be given to the
    callback of the first, and then the second never sees it. *)
Theorem C75_routing_refuted t1 t2 x : t1 <> t2 ->
  exists es s, lrun l_init es = Some s /\ ls_queue s = [] /\ map l_topic (ls_gors s) = [t1; t2] /\ map l_got (ls_gors s) = [[note t2 x]; []].
Proof.
  intros N. exists [EvListen t1; EvListen t2; EvArrive (Some (note t2 x)); EvDeliver 0]. eexists. split.
  - cbn [lrun lstep l_init ls_gors ls_queue ls_closed existsb app]. cbn [l_topic l_stopped negb]. destruct (beqb_spec t1 t2) as [X|X]; [congruence|].
    cbn [andb orb existsb lstep ls_gors ls_queue ls_closed app with_gor nth_error running l_stopped set_nth lrun]. reflexivity.
  - repeat split; reflexivity.
Qed.

(** ** C115: ending a listener *)
(** A goroutine ends only when its context is done; it gets nothing afterwards. *)
Theorem C115_stops_when_cancelled s e s' i g g' : lstep s e = Some s' -> nth_error (ls_gors s) i = Some g -> nth_error (ls_gors s') i = Some g' ->
  (l_stopped g' = true -> l_stopped g = true \/ l_done g = true) /\ (l_stopped g = true -> l_stopped g' = true /\ l_got g' = l_got g).
Proof. intros H G G'. destruct (gor_step _ _ _ _ _ H G) as (g1 & E & _ & _ & S & K & _). assert (g1 = g') by congruence. subst g1. auto. Qed.
(** After a cancel it can always end. *)
Theorem C115_can_stop s i g : nth_error (ls_gors s) i = Some g -> l_done g = true -> l_stopped g = false ->
  exists s' g', lstep s (EvStop i) = Some s' /\ nth_error (ls_gors s') i = Some g' /\ l_stopped g' = true.
Proof.
  intros G D S. cbn [lstep]. unfold with_gor. rewrite G, D. unfold running. rewrite S. eexists _, _. split; [reflexivity|]. cbn [ls_gors].
  split; [apply set_nth_eq; apply nth_error_lt in G; exact G|reflexivity].
Qed.
(** Close of the listener does not end the goroutines: without a cancel none ever
    does, and once the channel is drained each is in a busy loop. *)
Lemma not_done_run es : forall s s' i g, lrun s es = Some s' -> nth_error (ls_gors s) i = Some g -> l_done g = false -> l_stopped g = false -> ~ In (EvCancel i) es ->
  exists g', nth_error (ls_gors s') i = Some g' /\ l_done g' = false /\ l_stopped g' = false.
Proof.
  induction es as [|e es IH]; intros s s' i g H G D S N; cbn [lrun] in H; [injection H as <-; eauto|].
  destruct (lstep s e) as [s1|] eqn:E; [|discriminate H]. destruct (gor_step _ _ _ _ _ E G) as (g1 & G1 & _ & A & B & _).
  eapply (IH _ _ _ _ H G1).
  - destruct (l_done g1); [|reflexivity]. destruct (A eq_refl) as [X|X]; [congruence|]. destruct N. left. exact X.
  - destruct (l_stopped g1); [|reflexivity]. destruct (B eq_refl); congruence.
  - intros X. apply N. right. exact X.
Qed.
Theorem C115_close_refuted s es s' i g : nth_error (ls_gors s) i = Some g -> l_done g = false -> l_stopped g = false ->
  lrun s (EvClose :: es) = Some s' -> ~ In (EvCancel i) es ->
  (exists g', nth_error (ls_gors s') i = Some g' /\ l_stopped g' = false) /\ (ls_queue s' = [] -> lstep s' (EvSpin i) = Some s').
Proof.
  intros G D S H N. destruct (not_done_run _ _ _ _ _ H G D S) as (g' & G' & D' & S'). { intros [X|X]; [discriminate X|exact (N X)]. }
  split; [eauto|]. intros Q.
  assert (C : ls_closed s' = true).
  { assert (M : forall l a b, lrun a l = Some b -> ls_closed a = true -> ls_closed b = true).
    { induction l as [|e l IH]; intros a b X Y; cbn [lrun] in X; [injection X as <-; exact Y|]. destruct (lstep a e) as [a1|] eqn:E; [|discriminate X]. apply (IH _ _ X).
      assert (W : forall j f q, with_gor a j f q = Some a1 -> ls_closed a1 = true) by (intros j f q Z; apply with_gor_inv in Z; destruct Z as (? & ? & _ & _ & ->); exact Y).
      destruct e as [t|o|j|j|j|j|j|j|]; cbn [lstep] in E; try (eapply W; exact E).
      - destruct (existsb _ _); injection E as <-; exact Y.
      - rewrite Y in E. discriminate E.
      - destruct (ls_queue a) as [|[n|] q]; try discriminate E. eapply W; exact E.
      - destruct (ls_queue a) as [|[n|] q]; try discriminate E. eapply W; exact E.
      - destruct (ls_queue a); [|discriminate E]. destruct (ls_closed a); [|discriminate E]. eapply W; exact E.
      - injection E as <-. reflexivity. }
    cbn [lrun lstep] in H. eapply M; [exact H|reflexivity]. }
  cbn [lstep]. rewrite Q, C. unfold with_gor. rewrite G'. unfold running. rewrite S'. rewrite set_nth_id by exact G'. destruct s'; cbn in *; subst; reflexivity.
Qed.
Example ex_C115 : exists s g, lrun l_init [EvListen (B "a"); EvArrive (Some (note (B "a") [])); EvDeliver 0] = Some s /\ nth_error (ls_gors s) 0 = Some g /\ l_done g = false /\ l_stopped g = false.
Proof. eexists _, _. repeat split; reflexivity. Qed.

(** ** C116: the connections of the command line tool *)
Lemma cli_inv ops : forall c c' rs, cli_run c ops = (c', rs) ->
  (forall n, cl_db c = Some n -> exists nm, nth_error (cl_conns c) n = Some (nm, true)) -> (forall n, cl_db c' = Some n -> exists nm, nth_error (cl_conns c') n = Some (nm, true)).
Proof.
  induction ops as [|o ops IH]; intros c c' rs H I; cbn [cli_run] in H; [injection H as <- _; exact I|].
  destruct (cli_step c o) as [c1 x] eqn:E. destruct (cli_run c1 ops) as [c2 xs] eqn:E2. injection H as <- _. apply (IH _ _ _ E2).
  assert (DB : forall name e c1 x, cli_db c name e = (c1, x) -> forall n, cl_db c1 = Some n -> exists nm, nth_error (cl_conns c1) n = Some (nm, true)).
  { intros name e d y. unfold cli_db. destruct (cl_db c) as [m|] eqn:Q; [intros X; injection X as <- _; rewrite Q; apply I|].
    destruct e; [intros X; injection X as <- _; rewrite Q; apply I|]. intros X. apply (f_equal fst) in X. cbn [fst] in X. subst d. cbn [cl_db cl_conns].
    intros n X. injection X as <-. exists name. rewrite nth_error_app2, Nat.sub_diag by lia. reflexivity. }
  destruct o as [name e|name e|]; cbn [cli_step] in E.
  - eapply DB, E.
  - destruct (cl_schema c); [injection E as <- _; exact I|]. destruct (cli_db c name e) as [d [y|]] eqn:Q; injection E as <- _; cbn [cl_db cl_conns]; eapply DB, Q.
  - destruct (cl_db c) as [m|] eqn:Q; injection E as <- _; [cbn [cl_db]; discriminate|rewrite Q; exact I].
Qed.
(** DB always returns an open connection. *)
Theorem C116_open ops c rs name e c' n : cli_run cli_init ops = (c, rs) -> cli_step c (KDb name e) = (c', Some n) -> exists nm, nth_error (cl_conns c') n = Some (nm, true).
Proof.
  intros H S. assert (R : cli_run cli_init (ops ++ [KDb name e]) = (c', rs ++ [Some n])).
  { revert H. generalize cli_init. revert rs. induction ops as [|o l IH]; intros rs i H; cbn [cli_run app] in *; [injection H as -> <-; cbn [cli_run]; rewrite S; reflexivity|].
    destruct (cli_step i o) as [c1 x]. destruct (cli_run c1 l) as [c2 xs] eqn:P. injection H as -> <-. rewrite (IH _ _ P). reflexivity. }
  eapply (cli_inv _ _ _ _ R); [discriminate|].
  cbn [cli_step] in S. unfold cli_db in S. destruct (cl_db c) as [m|] eqn:Q; [injection S as <- <-; exact Q|]. destruct e; [discriminate S|]. cbv zeta in S. injection S as <- <-. reflexivity.
Qed.
(** The first one, and the first after Close, is of the given database. *)
Theorem C116_named c name : cl_db c = None -> exists n c', cli_step c (KDb name None) = (c', Some n) /\ nth_error (cl_conns c') n = Some (name, true).
Proof. intros H. cbn [cli_step]. unfold cli_db. rewrite H. eexists _, _. split; [reflexivity|]. cbn [cl_conns]. rewrite nth_error_app2, Nat.sub_diag by lia. reflexivity. Qed.
(** Later calls ignore the name. *)
Theorem C116_name_refuted c a b e n c1 : cli_step c (KDb a e) = (c1, Some n) -> forall e', cli_step c1 (KDb b e') = (c1, Some n).
Proof.
  intros H e'. cbn [cli_step] in *. unfold cli_db in *. destruct (cl_db c) as [m|] eqn:Q; [injection H as <- <-; rewrite Q; reflexivity|].
  destruct e; [discriminate H|]. cbv zeta in H. apply (f_equal fst) in H as H1. apply (f_equal snd) in H as H2. cbn [fst snd] in *. subst c1. injection H2 as <-. reflexivity.
Qed.
(** SchemaProvider after Close returns one whose connection is closed. *)
Theorem C116_schema_refuted name : let '(c, rs) := cli_run cli_init [KSchema name None; KClose; KSchema name None] in
  rs = [Some 0%nat; None; Some 0%nat] /\ cl_conns c = [(name, false)].
Proof. split; reflexivity. Qed.
Example ex_C116 : cli_run cli_init [KDb (B "a") None; KDb (B "b") None; KClose; KDb (B "b") None] = (mkCli (Some 1%nat) None [(B "a", false); (B "b", true)], [Some 0%nat; Some 0%nat; None; Some 1%nat]).
Proof. reflexivity. Qed.

(** C71: the driver's errors are passed on, on the database and in a transaction. *)
Theorem C71_errors nm cs g ops s z : history nm cs g ops s -> (forall e, ~ In (OClose 0 e) ops) -> pstep s (OQuery 0 (Some z)) = (s, PErr (EDriver z)).
Proof.
  intros H N. assert (O : s_open s = true) by (apply (C71_connection _ _ _ _ _ H), N).
  destruct (inv_root _ _ _ _ (inv_history _ _ _ _ _ H)) as (c & tk & E & _). cbn [pstep]. rewrite E. cbn [pr_db]. rewrite O. reflexivity.
Qed.
Theorem C71_tx_errors nm cs g before p e n after s z : started nm cs g before p e (S n) after s -> fate n after = TActive ->
  pstep s (OQuery (S n) (Some z)) = (s, PErr (EDriver z)).
Proof.
  intros H F. pose proof (C71_active nm cs g before p e n after s None H F) as (A & _ & _). cbn [pstep] in *.
  destruct (nth_error (s_provs s) (S n)) as [pr|]; [|discriminate]. destruct (pr_db pr) as [|k].
  - destruct (s_open s); discriminate.
  - destruct (nth_error (s_txs s) k) as [[]|]; try discriminate. reflexivity.
Qed.

(** Unless the listener was closed, another notification can always arrive ... *)
Lemma open_run es : forall s s', lrun s es = Some s' -> ls_closed s = false -> ~ In EvClose es -> ls_closed s' = false.
Proof.
  induction es as [|e es IH]; intros s s' H O N; cbn [lrun] in H; [injection H as <-; exact O|].
  destruct (lstep s e) as [s1|] eqn:E; [|discriminate H]. refine (IH _ _ H _ (fun X => N (or_intror X))). clear H IH.
  destruct e as [t|o|i|i|i|i|i|i|]; cbn [lstep] in E; unfold with_gor in E.
  - destruct (existsb _ _); injection E as <-; exact O.
  - rewrite O in E. injection E as <-. reflexivity.
  - destruct (ls_queue s) as [|[n|] q]; try discriminate. destruct (nth_error _ _); [|discriminate]. unfold running in E. destruct (l_stopped _); [discriminate|]. injection E as <-. exact O.
  - destruct (ls_queue s) as [|[n|] q]; try discriminate. destruct (nth_error _ _); [|discriminate]. unfold running in E. destruct (l_stopped _); [discriminate|]. injection E as <-. exact O.
  - rewrite O in E. destruct (ls_queue s); discriminate.
  - destruct (nth_error _ _); [|discriminate]. injection E as <-. exact O.
  - destruct (nth_error _ _); [|discriminate]. unfold running in E. destruct (l_done _); [|discriminate]. destruct (l_stopped _); [discriminate|]. injection E as <-. exact O.
  - destruct (nth_error _ _); [|discriminate]. unfold running in E. destruct (l_stopped _); [discriminate|]. injection E as <-. exact O.
  - destruct (N (or_introl eq_refl)).
Qed.
Lemma lrun_snoc es : forall s s' e, lrun s es = Some s' -> lrun s (es ++ [e]) = lstep s' e.
Proof.
  induction es as [|x es IH]; intros s s' e H; cbn [app lrun] in *; [injection H as <-; destruct (lstep s e); reflexivity|].
  destruct (lstep s x); [exact (IH _ _ _ H)|discriminate].
Qed.
Theorem C74_arrives es s o : lrun l_init es = Some s -> ~ In EvClose es ->
  exists s', lrun l_init (es ++ [EvArrive o]) = Some s' /\ ls_queue s' = ls_queue s ++ [o] /\ ls_gors s' = ls_gors s.
Proof.
  intros H N. pose proof (open_run _ _ _ H eq_refl N) as O. rewrite (lrun_snoc _ _ _ _ H). cbn [lstep]. rewrite O. eexists. split; [reflexivity|]. split; reflexivity.
Qed.
(** ... and a goroutine that has not returned can receive, in order, everything that
    waits. *)
Theorem C74_drains es s i g : lrun l_init es = Some s -> nth_error (ls_gors s) i = Some g -> l_stopped g = false ->
  exists s', lrun l_init (es ++ map (fun o => match o with Some _ => EvDeliver i | None => EvNil i end) (ls_queue s)) = Some s' /\
    ls_queue s' = [] /\ exists g', nth_error (ls_gors s') i = Some g' /\ l_got g' = l_got g ++ real (ls_queue s).
Proof.
  intros H G S.
  assert (A : forall q s g, ls_queue s = q -> nth_error (ls_gors s) i = Some g -> l_stopped g = false ->
    exists s', lrun s (map (fun o => match o with Some _ => EvDeliver i | None => EvNil i end) q) = Some s' /\ ls_queue s' = [] /\
      exists g', nth_error (ls_gors s') i = Some g' /\ l_got g' = l_got g ++ real q).
  { clear. induction q as [|o q IH]; intros s g Q G S.
    - exists s. split; [reflexivity|]. split; [exact Q|]. exists g. split; [exact G|]. symmetry. apply app_nil_r.
    - cbn [map lrun]. destruct o as [n|]; cbn [lstep]; rewrite Q; unfold with_gor; rewrite G; unfold running; rewrite S.
      + destruct (IH (mkLS q (ls_closed s) (set_nth i (mkL (l_topic g) (l_done g) (l_stopped g) (l_got g ++ [n])) (ls_gors s))) (mkL (l_topic g) (l_done g) (l_stopped g) (l_got g ++ [n])) eq_refl) as (s' & R & Q' & g' & G' & T); [cbn [ls_gors]; apply set_nth_eq; apply nth_error_lt in G; exact G|exact S|].
        rewrite S in R. exists s'. split; [exact R|]. split; [exact Q'|]. exists g'. split; [exact G'|]. rewrite T. cbn [l_got real flat_map app]. rewrite <- app_assoc. reflexivity.
      + destruct (IH (mkLS q (ls_closed s) (set_nth i g (ls_gors s))) g eq_refl) as (s' & R & Q' & g' & G' & T); [cbn [ls_gors]; apply set_nth_eq; apply nth_error_lt in G; exact G|exact S|].
        exists s'. split; [exact R|]. split; [exact Q'|]. exists g'. split; [exact G'|exact T]. }
  destruct (A _ s g eq_refl G S) as (s' & R & Q' & X). exists s'. split; [|split; [exact Q'|exact X]].
  clear -H R. revert H. generalize l_init. induction es as [|e es IH]; intros s0 H; cbn [app lrun] in *; [injection H as <-; exact R|].
  destruct (lstep s0 e); [exact (IH _ H)|discriminate].
Qed.
Example ex_C74_drains : exists s, lrun l_init [EvListen (B "a"); EvArrive (Some (note (B "a") (B "1"))); EvArrive None; EvArrive (Some (note (B "a") (B "2")))] = Some s /\
  length (ls_queue s) = 3%nat /\ nth_error (ls_gors s) 0 = Some (mkL (B "a") false false []).
Proof. eexists. split; [reflexivity|]. split; reflexivity. Qed.

(** ** Assumptions *)
Print Assumptions C71_nested.
Print Assumptions C71_no_transaction.
Print Assumptions C71_fate.
Print Assumptions C71_ended.
Print Assumptions C71_active.
Print Assumptions C71_connection.
Print Assumptions C71_routing.
Print Assumptions C112_closed_queries.
Print Assumptions C112_closed_begin_refuted.
Print Assumptions C112_transactions_go_on.
Print Assumptions C113_shared_partial.
Print Assumptions C113_connection_string_refuted.
Print Assumptions C72_panic_refuted.
Print Assumptions C72_ends_refuted.
Print Assumptions C72_safe_partial.
Print Assumptions C114_steps.
Print Assumptions C114_leak_refuted.
Print Assumptions C76_no_source.
Print Assumptions C76_failures_before.
Print Assumptions C76_decisions.
Print Assumptions C76_result.
Print Assumptions C76_failures_propagate_refuted.
Print Assumptions C74_single.
Print Assumptions C74_payload.
Print Assumptions C75_once_partial.
Print Assumptions C75_order_partial.
Print Assumptions C75_routing_refuted.
Print Assumptions C115_stops_when_cancelled.
Print Assumptions C115_can_stop.
Print Assumptions C115_close_refuted.
Print Assumptions C116_open.
Print Assumptions C116_named.
Print Assumptions C116_name_refuted.
Print Assumptions C116_schema_refuted.
Print Assumptions C71_errors.
Print Assumptions C71_tx_errors.
Print Assumptions C74_arrives.
Print Assumptions C74_drains.
