(** Proofs on providers, connections, migrations and notifications. *)
From Coq Require Import Permutation.
From Verif Require Import GoBase GoBaseFacts ProvModel ProvSpec ParamProofs.
Open Scope Z_scope.

(** ** set_nth *)
Lemma set_nth_length {A} n (x : A) l : length (set_nth n x l) = length l.
Proof. revert n. induction l as [|y l IH]; intros [|n]; cbn [set_nth length]; auto. Qed.
Lemma set_nth_eq {A} n (x : A) l : (n < length l)%nat -> nth_error (set_nth n x l) n = Some x.
Proof. revert n. induction l as [|y l IH]; intros [|n] H; cbn [set_nth length nth_error] in *; try lia; [reflexivity|]. apply IH. lia. Qed.
Lemma set_nth_neq {A} n m (x : A) l : n <> m -> nth_error (set_nth n x l) m = nth_error l m.
Proof.
  revert n m. induction l as [|y l IH]; intros [|n] [|m] H; cbn [set_nth nth_error]; try reflexivity; [lia|].
  apply IH. lia.
Qed.
Lemma set_nth_id {A} n (x : A) l : nth_error l n = Some x -> set_nth n x l = l.
Proof.
  revert n. induction l as [|y l IH]; intros [|n] H; cbn [set_nth nth_error] in *; try reflexivity; [congruence|].
  rewrite IH by exact H. reflexivity.
Qed.
Lemma nth_error_lt {A} n (l : list A) x : nth_error l n = Some x -> (n < length l)%nat.
Proof. intros H. apply nth_error_Some. congruence. Qed.

(** ** Transactions *)
Definition tx_prov nm g (n : nat) := mkPr true (OnTx n) (Some n) false [] nm g.
Definition inv (nm cs : bytes) (g : nat) (s : pstate) : Prop :=
  exists c tk, s_provs s = mkPr c OnDb None tk cs nm g :: map (tx_prov nm g) (seq 0 (length (s_txs s))) /\ (c = false -> s_open s = false).
Lemma inv_init nm cs g : inv nm cs g (new_state nm cs g).
Proof. exists true, true. split; [reflexivity|discriminate]. Qed.

(** The provider behind a number. *)
Lemma inv_prov nm cs g s p pr : inv nm cs g s -> nth_error (s_provs s) p = Some pr ->
  (p = 0%nat /\ exists c tk, pr = mkPr c OnDb None tk cs nm g /\ (c = false -> s_open s = false))
  \/ (exists n, p = S n /\ (n < length (s_txs s))%nat /\ pr = tx_prov nm g n).
Proof.
  intros (c & tk & E & Hc) H. rewrite E in H. destruct p as [|n]; cbn [nth_error] in H.
  - left. split; [reflexivity|]. injection H as <-. eauto.
  - right. exists n. split; [reflexivity|].
    assert (L : (n < length (s_txs s))%nat). { apply nth_error_lt in H. rewrite map_length, seq_length in H. exact H. }
    split; [exact L|]. rewrite (map_nth_error (tx_prov nm g) n (seq 0 (length (s_txs s))) (d := n)) in H; [congruence|].
    rewrite (nth_error_nth' _ 0%nat) by (rewrite seq_length; exact L). rewrite seq_nth by exact L. reflexivity.
Qed.
Lemma inv_root nm cs g s : inv nm cs g s -> exists c tk, nth_error (s_provs s) 0 = Some (mkPr c OnDb None tk cs nm g) /\ (c = false -> s_open s = false).
Proof. intros (c & tk & E & Hc). exists c, tk. rewrite E. auto. Qed.
Lemma inv_tx nm cs g s n : inv nm cs g s -> (n < length (s_txs s))%nat -> nth_error (s_provs s) (S n) = Some (tx_prov nm g n).
Proof.
  intros (c & tk & E & Hc) L. rewrite E. cbn [nth_error].
  rewrite (map_nth_error (tx_prov nm g) n (seq 0 (length (s_txs s))) (d := n)); [reflexivity|].
  rewrite (nth_error_nth' _ 0%nat) by (rewrite seq_length; exact L). rewrite seq_nth by exact L. reflexivity.
Qed.

Lemma end_tx_shape s n good e s' r : end_tx s n good e = (s', r) ->
  (s' = s) \/ (nth_error (s_txs s) n = Some TActive /\ exists t, s' = mkPS (s_open s) (set_nth n t (s_txs s)) (s_provs s)).
Proof.
  unfold end_tx. destruct (nth_error (s_txs s) n) as [[]|] eqn:E; try (intros H; injection H as <- <-; left; reflexivity).
  destruct e; intros H; injection H as <- <-; right; split; eauto.
Qed.
Lemma rollback_shape s pr e s' r : rollback s pr e = (s', r) ->
  s' = s \/ exists n t, pr_tx pr = Some n /\ nth_error (s_txs s) n = Some TActive /\ s' = mkPS (s_open s) (set_nth n t (s_txs s)) (s_provs s).
Proof.
  unfold rollback. destruct (pr_tx pr) as [n|]; [|intros H; injection H as <- <-; auto].
  destruct (end_tx s n TRolledBack e) as [s1 r1] eqn:E. intros H.
  assert (s1 = s') by (destruct r1 as [|[]| | | |]; injection H as <- _; reflexivity). subst s1.
  destruct (end_tx_shape _ _ _ _ _ _ E) as [|[A [t B]]]; [auto|]. right. exists n, t. auto.
Qed.
Lemma inv_set_tx nm cs g s n t : inv nm cs g s -> inv nm cs g (mkPS (s_open s) (set_nth n t (s_txs s)) (s_provs s)).
Proof. intros (c & tk & E & Hc). exists c, tk. cbn [s_provs s_txs s_open]. rewrite set_nth_length. auto. Qed.
Lemma put_tx_prov nm cs g s n : inv nm cs g s -> (n < length (s_txs s))%nat -> put_prov s (S n) (no_ticker (tx_prov nm g n)) = s.
Proof.
  intros I L. unfold put_prov. change (no_ticker (tx_prov nm g n)) with (tx_prov nm g n).
  rewrite set_nth_id by (apply (inv_tx _ _ _ _ _ I L)). destruct s; reflexivity.
Qed.

Lemma inv_step nm cs g s o s' r : inv nm cs g s -> pstep s o = (s', r) -> inv nm cs g s'.
Proof.
  intros I. destruct o as [p e|p e|p e|p e|p e|n]; cbn [pstep].
  - destruct (nth_error (s_provs s) p) as [pr|] eqn:E; [|intros H; injection H as <- _; exact I].
    destruct (inv_prov _ _ _ _ _ _ I E) as [(-> & c & tk & -> & Hc)|(n & -> & L & ->)]; cbn [pr_tx tx_prov pr_conn pr_name pr_gen].
    + destruct c; cbn [negb]; [|intros H; injection H as <- _; exact I].
      destruct (s_open s) eqn:O; cbn [negb]; [|intros H; injection H as <- _; exact I].
      destruct e; [intros H; injection H as <- _; exact I|]. cbv zeta.
      intros H. apply (f_equal fst) in H. cbn [fst] in H. subst s'. destruct I as (c' & tk' & E' & Hc').
      exists c', tk'. cbn [s_provs s_txs s_open]. split.
      * rewrite E', app_length. cbn [length]. rewrite Nat.add_1_r, seq_S, map_app. reflexivity.
      * intros X. specialize (Hc' X). congruence.
    + intros H; injection H as <- _; exact I.
  - destruct (nth_error (s_provs s) p) as [pr|] eqn:E; [|intros H; injection H as <- _; exact I].
    destruct (pr_tx pr) as [n|]; [|intros H; injection H as <- _; exact I].
    intros H. destruct (end_tx_shape _ _ _ _ _ _ H) as [->|[_ [t ->]]]; [exact I|]. apply inv_set_tx, I.
  - destruct (nth_error (s_provs s) p) as [pr|] eqn:E; [|intros H; injection H as <- _; exact I].
    intros H. destruct (rollback_shape _ _ _ _ _ H) as [->|(n & t & _ & _ & ->)]; [exact I|]. apply inv_set_tx, I.
  - destruct (nth_error (s_provs s) p) as [pr|] eqn:E; [|intros H; injection H as <- _; exact I].
    destruct (inv_prov _ _ _ _ _ _ I E) as [(-> & c & tk & -> & Hc)|(n & -> & L & ->)]; cbv zeta.
    + destruct I as (c' & tk' & E' & Hc'). rewrite E' in E. cbn [nth_error] in E. injection E as -> ->.
      unfold put_prov, no_ticker. rewrite E'. cbn [pr_conn pr_tx pr_db pr_connstr pr_name pr_gen s_open s_txs s_provs set_nth].
      destruct c; cbn [negb].
      * destruct (if s_open s then e else None); intros H; apply (f_equal fst) in H; cbn [fst] in H; subst s'.
        -- exists true, false. split; [reflexivity|discriminate].
        -- exists false, false. split; [reflexivity|reflexivity].
      * intros H; apply (f_equal fst) in H; cbn [fst] in H; subst s'. exists false, false. split; [reflexivity|exact Hc'].
    + rewrite (put_tx_prov nm cs) by assumption. cbn [no_ticker tx_prov pr_conn pr_tx negb].
      intros H. destruct (rollback_shape _ _ _ _ _ H) as [->|(m & t & _ & _ & ->)]; [exact I|]. apply inv_set_tx, I.
  - destruct (nth_error (s_provs s) p) as [pr|] eqn:E; [|intros H; injection H as <- _; exact I].
    destruct (pr_db pr) as [|n]; [destruct (s_open s)|destruct (nth_error (s_txs s) n) as [[]|]]; intros H; injection H as <- _; exact I.
  - destruct (nth_error (s_txs s) n) as [[]|]; intros H; injection H as <- _; try exact I. apply inv_set_tx, I.
Qed.
Lemma inv_run nm cs g ops : forall s s' rs, inv nm cs g s -> prun s ops = (s', rs) -> inv nm cs g s'.
Proof.
  induction ops as [|o ops IH]; intros s s' rs I H; cbn [prun] in H; [injection H as <- _; exact I|].
  destruct (pstep s o) as [s1 x] eqn:E1. destruct (prun s1 ops) as [s2 xs] eqn:E2. injection H as <- _.
  eapply IH; [|exact E2]. eapply inv_step; eassumption.
Qed.
Lemma inv_history nm cs g ops s : history nm cs g ops s -> inv nm cs g s.
Proof. intros [rs H]. eapply inv_run; [apply inv_init|exact H]. Qed.

(** A transaction's fate under one step. *)
Lemma step_fate nm cs g s o s' r n t : inv nm cs g s -> nth_error (s_txs s) n = Some t -> pstep s o = (s', r) ->
  nth_error (s_txs s') n = Some (match t with TActive => match ends n o with Some t' => t' | None => TActive end | _ => t end).
Proof.
  intros I T. pose proof (nth_error_lt _ _ _ T) as L.
  assert (Keep : forall m u, m <> n -> nth_error (set_nth m u (s_txs s)) n = Some t) by (intros; rewrite set_nth_neq by assumption; exact T).
  assert (D : nth_error (s_txs s) n = Some (match t with TActive => TActive | _ => t end)) by (destruct t; exact T).
  assert (RB : forall e, fst (rollback s (tx_prov nm g n) e) = s' -> nth_error (s_txs s') n = Some (match t with TActive => (match e with None => TRolledBack | Some _ => TBroken end) | _ => t end)).
  { intros e <-. unfold rollback. cbn [tx_prov pr_tx]. unfold end_tx. rewrite T. destruct t; [destruct e| | |]; cbn [fst s_txs]; try exact T; apply set_nth_eq; exact L. }
  assert (RBo : forall e m, m <> n -> fst (rollback s (tx_prov nm g m) e) = s' -> nth_error (s_txs s') n = Some t).
  { intros e m Hm <-. destruct (rollback s (tx_prov nm g m) e) as [s1 r1] eqn:E. cbn [fst].
    destruct (rollback_shape _ _ _ _ _ E) as [->|(m' & u & Hm' & _ & ->)]; [exact T|].
    cbn [tx_prov pr_tx] in Hm'. injection Hm' as <-. cbn [s_txs]. apply Keep, Hm. }
  destruct o as [p e|p e|p e|p e|p e|m]; cbn [pstep ends].
  - destruct (nth_error (s_provs s) p) as [pr|]; [|intros H; injection H as <- _; exact D].
    destruct (pr_tx pr); [intros H; injection H as <- _; exact D|].
    destruct (negb (pr_conn pr)); [intros H; injection H as <- _; exact D|].
    destruct (negb (s_open s)); [intros H; injection H as <- _; exact D|].
    destruct e; [intros H; injection H as <- _; exact D|]. cbv zeta. intros H. apply (f_equal fst) in H. cbn [fst] in H. subst s'.
    cbn [s_txs]. rewrite nth_error_app1 by exact L. exact D.
  - destruct (nth_error (s_provs s) p) as [pr|] eqn:E.
    2:{ intros H; injection H as <- _. destruct (Nat.eqb_spec p (S n)) as [->|]; [|exact D]. rewrite (inv_tx _ _ _ _ _ I L) in E. discriminate E. }
    destruct (inv_prov _ _ _ _ _ _ I E) as [(-> & c & tk & -> & Hc)|(m & -> & Lm & ->)]; cbn [pr_tx tx_prov].
    + intros H; injection H as <- _. cbn [Nat.eqb]. exact D.
    + intros H. destruct (Nat.eqb_spec (S m) (S n)) as [Q|Q].
      * injection Q as ->. unfold end_tx in H. rewrite T in H. destruct t; [destruct e| | |]; apply (f_equal fst) in H; cbn [fst] in H; subst s'; cbn [s_txs]; try exact T; apply set_nth_eq; exact L.
      * assert (X : nth_error (s_txs s') n = Some t). { destruct (end_tx_shape _ _ _ _ _ _ H) as [->|[_ [u ->]]]; [exact T|]. cbn [s_txs]. apply Keep. congruence. }
        destruct t; exact X.
  - destruct (nth_error (s_provs s) p) as [pr|] eqn:E.
    2:{ intros H; injection H as <- _. destruct (Nat.eqb_spec p (S n)) as [->|]; [|exact D]. rewrite (inv_tx _ _ _ _ _ I L) in E. discriminate E. }
    destruct (inv_prov _ _ _ _ _ _ I E) as [(-> & c & tk & -> & Hc)|(m & -> & Lm & ->)].
    + unfold rollback. cbn [pr_tx]. intros H; injection H as <- _. cbn [Nat.eqb]. exact D.
    + intros H. apply (f_equal fst) in H. cbn [fst] in H. destruct (Nat.eqb_spec (S m) (S n)) as [Q|Q].
      * injection Q as ->. apply RB, H.
      * rewrite (RBo e m) by (assumption || congruence). destruct t; reflexivity.
  - destruct (nth_error (s_provs s) p) as [pr|] eqn:E.
    2:{ intros H; injection H as <- _. destruct (Nat.eqb_spec p (S n)) as [->|]; [|exact D]. rewrite (inv_tx _ _ _ _ _ I L) in E. discriminate E. }
    destruct (inv_prov _ _ _ _ _ _ I E) as [(-> & c & tk & -> & Hc)|(m & -> & Lm & ->)]; cbv zeta.
    + cbn [Nat.eqb no_ticker pr_conn pr_tx put_prov s_open]. intros H.
      assert (X : s_txs s' = s_txs s). { destruct c; cbn [negb] in H; [destruct (if s_open s then e else None)|]; apply (f_equal fst) in H; cbn [fst] in H; subst s'; reflexivity. }
      rewrite X. exact D.
    + rewrite (put_tx_prov nm cs) by assumption. cbn [no_ticker tx_prov pr_conn pr_tx negb].
      intros H. apply (f_equal fst) in H. cbn [fst] in H. destruct (Nat.eqb_spec (S m) (S n)) as [Q|Q].
      * injection Q as ->. apply RB, H.
      * rewrite (RBo e m) by (assumption || congruence). destruct t; reflexivity.
  - destruct (nth_error (s_provs s) p) as [pr|]; [|intros H; injection H as <- _; exact D].
    destruct (pr_db pr) as [|m]; [destruct (s_open s)|destruct (nth_error (s_txs s) m) as [[]|]]; intros H; injection H as <- _; exact D.
  - destruct (Nat.eqb_spec m n) as [->|Q].
    + rewrite T. destruct t; intros H; injection H as <- _; try exact T. cbn [s_txs]. apply set_nth_eq, L.
    + destruct (nth_error (s_txs s) m) as [[]|]; intros H; injection H as <- _; try exact D. cbn [s_txs]. rewrite Keep by exact Q. destruct t; reflexivity.
Qed.
Lemma run_done nm cs g ops : forall s s' rs n t, inv nm cs g s -> nth_error (s_txs s) n = Some t -> t <> TActive -> prun s ops = (s', rs) -> nth_error (s_txs s') n = Some t.
Proof.
  induction ops as [|o ops IH]; intros s s' rs n t I T Hn H; cbn [prun] in H; [injection H as <- _; exact T|].
  destruct (pstep s o) as [s1 x] eqn:E1. destruct (prun s1 ops) as [s2 xs] eqn:E2. injection H as <- _.
  eapply IH; [eapply inv_step; eassumption| |exact Hn|exact E2].
  rewrite (step_fate _ _ _ _ _ _ _ _ _ I T E1). destruct t; congruence.
Qed.
Lemma ends_done n o t : ends n o = Some t -> t <> TActive.
Proof. destruct o as [p e|p e|p e|p e|p e|m]; cbn [ends]; try discriminate; try (destruct (p =? S n)%nat; [|discriminate]; destruct e; congruence). destruct (m =? n)%nat; congruence. Qed.
Lemma run_fate nm cs g ops : forall s s' rs n, inv nm cs g s -> nth_error (s_txs s) n = Some TActive -> prun s ops = (s', rs) -> nth_error (s_txs s') n = Some (fate n ops).
Proof.
  induction ops as [|o ops IH]; intros s s' rs n I T H; cbn [prun fate] in *; [injection H as <- _; exact T|].
  destruct (pstep s o) as [s1 x] eqn:E1. destruct (prun s1 ops) as [s2 xs] eqn:E2. injection H as <- _.
  pose proof (step_fate _ _ _ _ _ _ _ _ _ I T E1) as F. pose proof (inv_step _ _ _ _ _ _ _ I E1) as I1.
  destruct (ends n o) as [t|] eqn:N; [|eapply IH; eassumption].
  eapply run_done; [exact I1|exact F|eapply ends_done; exact N|exact E2].
Qed.
Lemma begin_ok nm cs g s p e s' k : inv nm cs g s -> pstep s (OBegin p e) = (s', PProvider k) ->
  p = 0%nat /\ e = None /\ s_open s = true /\ k = S (length (s_txs s)) /\ s_txs s' = s_txs s ++ [TActive] /\ s_open s' = true
  /\ nth_error (s_provs s') k = Some (tx_prov nm g (length (s_txs s))) /\ nth_error (s_provs s') 0 = nth_error (s_provs s) 0.
Proof.
  intros I H. pose proof (inv_step _ _ _ _ _ _ _ I H) as I'. cbn [pstep] in H. destruct (nth_error (s_provs s) p) as [pr|] eqn:E; [|discriminate H].
  destruct (inv_prov _ _ _ _ _ _ I E) as [(-> & c & tk & -> & Hc)|(n & -> & L & ->)]; cbn [pr_tx tx_prov pr_conn pr_name pr_gen] in H; [|discriminate H].
  destruct c; cbn [negb] in H; [|discriminate H]. destruct (s_open s) eqn:O; cbn [negb] in H; [|discriminate H].
  destruct e; [discriminate H|]. cbv zeta in H.
  assert (K : k = length (s_provs s)) by congruence. apply (f_equal fst) in H. cbn [fst] in H. subst s'. cbn [s_txs s_open].
  destruct I as (c' & tk' & E' & Hc'). assert (K' : k = S (length (s_txs s))). { rewrite K, E'. cbn [length]. rewrite map_length, seq_length. reflexivity. }
  split; [reflexivity|]. split; [reflexivity|]. split; [reflexivity|]. split; [exact K'|]. split; [reflexivity|]. split; [reflexivity|].
  split.
  - rewrite K'. apply (inv_tx _ _ _ _ _ I'). cbn [s_txs]. rewrite app_length. cbn [length]. lia.
  - cbn [s_provs]. rewrite E'. reflexivity.
Qed.

(** The connection is open until the provider that opened it is closed. *)
Definition closes_root (o : pop) : bool := match o with OClose 0 _ => true | _ => false end.
Lemma step_open nm cs g s o s' r : inv nm cs g s -> pstep s o = (s', r) -> s_open s' = s_open s && negb (closes_root o).
Proof.
  intros I. assert (K : s_open s = s_open s && true) by (destruct (s_open s); reflexivity).
  destruct o as [p e|p e|p e|p e|p e|n]; cbn [pstep closes_root negb].
  - destruct (nth_error (s_provs s) p) as [pr|]; [|intros H; injection H as <- _; exact K].
    destruct (pr_tx pr); [intros H; injection H as <- _; exact K|].
    destruct (negb (pr_conn pr)); [intros H; injection H as <- _; exact K|].
    destruct (negb (s_open s)); [intros H; injection H as <- _; exact K|].
    destruct e; intros H; injection H as <- _; exact K.
  - destruct (nth_error (s_provs s) p) as [pr|]; [|intros H; injection H as <- _; exact K].
    destruct (pr_tx pr) as [n|]; [|intros H; injection H as <- _; exact K].
    intros H. destruct (end_tx_shape _ _ _ _ _ _ H) as [->|[_ [t ->]]]; exact K.
  - destruct (nth_error (s_provs s) p) as [pr|]; [|intros H; injection H as <- _; exact K].
    intros H. destruct (rollback_shape _ _ _ _ _ H) as [->|(n & t & _ & _ & ->)]; exact K.
  - destruct (nth_error (s_provs s) p) as [pr|] eqn:E.
    2:{ intros H; injection H as <- _. destruct p as [|n]; [|exact K]. destruct (inv_root _ _ _ _ I) as (c & tk & X & _). congruence. }
    destruct (inv_prov _ _ _ _ _ _ I E) as [(-> & c & tk & -> & Hc)|(m & -> & Lm & ->)]; cbv zeta.
    + cbn [negb no_ticker pr_conn pr_tx]. rewrite Bool.andb_false_r. unfold put_prov. cbn [s_open].
      destruct c; cbn [negb]; [destruct (if s_open s then e else None)|]; intros H; apply (f_equal fst) in H; cbn [fst] in H; subst s'; try reflexivity. cbn [s_open]. auto.
    + rewrite (put_tx_prov nm cs) by assumption. cbn [no_ticker tx_prov pr_conn pr_tx negb].
      intros H. destruct (rollback_shape _ _ _ _ _ H) as [->|(n & t & _ & _ & ->)]; exact K.
  - destruct (nth_error (s_provs s) p) as [pr|]; [|intros H; injection H as <- _; exact K].
    destruct (pr_db pr) as [|m]; [destruct (s_open s) eqn:Q|destruct (nth_error (s_txs s) m) as [[]|]]; intros H; injection H as <- _; try rewrite Q; try reflexivity; exact K.
  - destruct (nth_error (s_txs s) n) as [[]|]; intros H; injection H as <- _; exact K.
Qed.
Lemma run_open nm cs g ops : forall s s' rs, inv nm cs g s -> prun s ops = (s', rs) -> s_open s' = s_open s && negb (existsb closes_root ops).
Proof.
  induction ops as [|o ops IH]; intros s s' rs I H; cbn [prun existsb] in *; [injection H as <- _; destruct (s_open s); reflexivity|].
  destruct (pstep s o) as [s1 x] eqn:E1. destruct (prun s1 ops) as [s2 xs] eqn:E2. injection H as <- _.
  rewrite (IH _ _ _ (inv_step _ _ _ _ _ _ _ I E1) E2), (step_open _ _ _ _ _ _ _ I E1), Bool.negb_orb, Bool.andb_assoc. reflexivity.
Qed.

(** ** The keep-alive goroutine *)
Lemma kreach_trans s1 s2 s3 : kreach s1 s2 -> kreach s2 s3 -> kreach s1 s3.
Proof. intros A B. induction B; [exact A|]. eapply kr_step; [apply IHB, A|eassumption]. Qed.
Lemma keepalive_open s0 s : kreach s0 s -> k_chan_closed s0 = false -> k_chan_closed s = false.
Proof. intros H E. induction H as [|s1 s2 s3 A IH B]; [exact E|]. specialize (IH E). destruct B; cbn [k_chan_closed] in *; congruence. Qed.
Lemma keepalive_never_ends s : kreach k_init s -> k_gor s <> GEnded.
Proof.
  intros H. assert (k_chan_closed s = false /\ k_gor s <> GEnded) as [_ X]; [|exact X].
  remember k_init as i. induction H as [|s1 s2 s3 A IH B]; [subst; split; [reflexivity|discriminate]|].
  destruct (IH Heqi) as [C D]. destruct B; cbn [k_chan_closed k_gor] in *; split; congruence.
Qed.
Lemma keepalive_quiet s s' : kreach s s' -> k_chan_closed s = false -> k_run s = false -> k_gor s = GWait -> k_gor s' = GWait /\ k_run s' = false.
Proof.
  intros H C R G. assert (k_chan_closed s' = false /\ k_run s' = false /\ k_gor s' = GWait) as (_ & X & Y); [|auto].
  induction H as [|s1 s2 s3 A IH B]; [auto|]. destruct (IH C R G) as (c & r & g).
  destruct B; cbn [k_chan_closed k_run k_gor] in *; try congruence; auto.
Qed.

(** ** Notifications *)
Lemma real_app a b : real (a ++ b) = real a ++ real b.
Proof. unfold real. apply flat_map_app. Qed.
Lemma subseq_refl {A} (l : list A) : subseq l l.
Proof. induction l; [constructor|apply ss_take; assumption]. Qed.
Lemma subseq_app {A} (a b c d : list A) : subseq a b -> subseq c d -> subseq (a ++ c) (b ++ d).
Proof.
  intros H. induction H as [l|x a b H IH|x a b H IH]; intros K; cbn [app].
  - induction l as [|y l IH]; cbn [app]; [exact K|constructor; exact IH].
  - apply ss_skip, IH, K.
  - apply ss_take, IH, K.
Qed.
Lemma subseq_app_l {A} (a b c : list A) : subseq a b -> subseq a (b ++ c).
Proof. intros H. rewrite <- (app_nil_r a). apply subseq_app; [exact H|constructor]. Qed.
(** what was delivered so far, in order, without saying to whom *)
Definition seen_inv (es : list levent) (s : lstate) (seen : list notif) : Prop :=
  real (arrived es) = seen ++ real (ls_queue s)
  /\ (forall i g, nth_error (ls_gors s) i = Some g -> subseq (l_got g) seen)
  /\ Permutation seen (concat (map l_got (ls_gors s)))
  /\ (forall g, ls_gors s = [g] -> l_got g = seen)
  /\ (ls_gors s = [] -> seen = []).
Lemma with_gor_inv s i f q s' : with_gor s i f q = Some s' -> exists g g', nth_error (ls_gors s) i = Some g /\ f g = Some g' /\ s' = mkLS q (ls_closed s) (set_nth i g' (ls_gors s)).
Proof. unfold with_gor. destruct (nth_error (ls_gors s) i) as [g|] eqn:E; [|discriminate]. destruct (f g) as [g'|] eqn:F; [|discriminate]. intros H. injection H as <-. eauto. Qed.
Lemma running_inv k g g' : running k g = Some g' -> l_stopped g = false /\ g' = k g.
Proof. unfold running. destruct (l_stopped g); [discriminate|]. intros H. injection H as <-. auto. Qed.
Lemma nth_set_split {A} (l : list A) i g g' : nth_error l i = Some g -> exists a b, l = a ++ g :: b /\ set_nth i g' l = a ++ g' :: b /\ length a = i.
Proof.
  revert i. induction l as [|x l IH]; intros [|i] H; cbn [nth_error set_nth] in *; try discriminate.
  - injection H as ->. exists [], l. auto.
  - destruct (IH _ H) as (a & b & -> & E & L). exists (x :: a), b. rewrite E. cbn [app length]. auto.
Qed.
(** A step that leaves what the callbacks received as it was. *)
Lemma seen_same es s e i g' q seen : seen_inv es s seen ->
  nth_error (map l_got (ls_gors s)) i = Some (l_got g') -> real (arrived (es ++ [e])) = seen ++ real q ->
  seen_inv (es ++ [e]) (mkLS q (ls_closed s) (set_nth i g' (ls_gors s))) seen.
Proof.
  intros (A & B & C & D & E) G Q. apply nth_error_map in G || idtac.
  assert (exists g, nth_error (ls_gors s) i = Some g /\ l_got g = l_got g') as (g & Hg & Hgg).
  { rewrite nth_error_map in G. destruct (nth_error (ls_gors s) i) as [g|]; [|discriminate G]. injection G as G. eauto. }
  destruct (nth_set_split _ _ _ g' Hg) as (a & b & L & L' & Li).
  split; [exact Q|]. cbn [ls_gors]. repeat split.
  - intros j x Hx. destruct (Nat.eq_dec i j) as [<-|N].
    + rewrite set_nth_eq in Hx by (apply nth_error_lt in Hg; exact Hg). injection Hx as <-. rewrite <- Hgg. eapply B, Hg.
    + rewrite set_nth_neq in Hx by exact N. eapply B, Hx.
  - rewrite L'. rewrite L in C. rewrite map_app in *. cbn [map] in *. rewrite <- Hgg. exact C.
  - intros x Hx. rewrite Hx in L'. destruct a; [|destruct a; discriminate L']. destruct b; [|discriminate L']. cbn [app] in *. injection L' as <-. rewrite <- Hgg. apply D, L.
  - intros Hx. rewrite Hx in L'. destruct a; discriminate L'.
Qed.
Lemma arrived_app a b : arrived (a ++ b) = arrived a ++ arrived b.
Proof. unfold arrived. apply flat_map_app. Qed.
Lemma seen_step es s e s' seen : seen_inv es s seen -> lstep s e = Some s' -> exists seen', seen_inv (es ++ [e]) s' seen'.
Proof.
  intros I H. pose proof I as (A & B & C & D & E).
  assert (N : forall o, real (arrived (es ++ [o])) = real (arrived es) ++ real (arrived [o])) by (intros; rewrite arrived_app, real_app; reflexivity).
  assert (S : forall i (f : lgor -> option lgor), (forall g g', f g = Some g' -> l_got g' = l_got g) -> real (arrived [e]) = [] ->
    forall q, real q = real (ls_queue s) -> with_gor s i f q = Some s' -> exists seen', seen_inv (es ++ [e]) s' seen').
  { intros i f Hf He q Hq Hw. apply with_gor_inv in Hw. destruct Hw as (g & g' & Hg & Hff & ->). exists seen.
    apply seen_same; [exact I| |].
    - rewrite nth_error_map, Hg. cbn [option_map]. rewrite (Hf _ _ Hff). reflexivity.
    - rewrite N, A, He, Hq, app_nil_r. reflexivity. }
  assert (R : forall (g g' : lgor), running (fun g => g) g = Some g' -> l_got g' = l_got g) by (intros g g' X; apply running_inv in X; destruct X as [_ ->]; reflexivity).
  destruct e as [t|o|i|i|i|i|i|i|]; cbn [lstep] in H.
  - destruct (existsb _ (ls_gors s)).
    + injection H as <-. exists seen. split; [|auto]. rewrite N, A. cbn. rewrite app_nil_r. reflexivity.
    + injection H as <-. exists seen. split; [|cbn [ls_gors]; repeat split].
      * rewrite N, A. cbn [arrived flat_map app real ls_queue]. rewrite app_nil_r. reflexivity.
      * intros i g Hg. destruct (Nat.lt_ge_cases i (length (ls_gors s))) as [L|L].
        -- rewrite nth_error_app1 in Hg by exact L. eapply B, Hg.
        -- rewrite nth_error_app2 in Hg by exact L. destruct (i - length (ls_gors s))%nat as [|[|k]]; [|discriminate Hg|discriminate Hg].
           cbn [nth_error] in Hg. injection Hg as <-. constructor.
      * rewrite map_app, concat_app. cbn [map concat l_got app]. rewrite app_nil_r. exact C.
      * intros g Hg. destruct (ls_gors s) as [|x l] eqn:G; [|destruct l; discriminate Hg]. cbn [app] in Hg. injection Hg as <-. cbn [l_got]. symmetry. apply E. reflexivity.
      * intros Hg. destruct (ls_gors s); discriminate Hg.
  - destruct (ls_closed s); [discriminate H|]. injection H as <-. exists seen. split; [|auto]. cbn [ls_queue].
    rewrite N, A, real_app, <- app_assoc. reflexivity.
  - destruct (ls_queue s) as [|[n|] q] eqn:Q; try discriminate H. apply with_gor_inv in H. destruct H as (g & g' & Hg & Hr & ->).
    apply running_inv in Hr. destruct Hr as [_ ->].
    destruct (nth_set_split _ _ _ (mkL (l_topic g) (l_done g) (l_stopped g) (l_got g ++ [n])) Hg) as (a & b & L & L' & Li).
    exists (seen ++ [n]). split; [|cbn [ls_gors]; repeat split].
    + rewrite N, A, <- app_assoc. cbn [ls_queue real flat_map arrived app]. rewrite app_nil_r, <- app_assoc. reflexivity.
    + intros j x Hx. destruct (Nat.eq_dec i j) as [<-|Ne].
      * rewrite set_nth_eq in Hx by (apply nth_error_lt in Hg; exact Hg). injection Hx as <-. cbn [l_got]. apply subseq_app; [eapply B, Hg|apply subseq_refl].
      * rewrite set_nth_neq in Hx by exact Ne. apply subseq_app_l. eapply B, Hx.
    + rewrite L'. rewrite L in C. rewrite map_app, concat_app in *. cbn [map concat l_got] in *. rewrite <- app_assoc.
      rewrite C. rewrite <- app_assoc. apply Permutation_app_head. rewrite <- app_assoc. apply Permutation_app_head. apply Permutation_app_comm.
    + intros x Hx. rewrite Hx in L'. destruct a; [|destruct a; discriminate L']. destruct b; [|discriminate L']. cbn [app] in *. injection L' as ->.
      cbn [l_got]. f_equal. apply D, L.
    + intros Hx. rewrite Hx in L'. destruct a; discriminate L'.
  - destruct (ls_queue s) as [|[n|] q] eqn:Q; try discriminate H. apply (S _ _ R eq_refl _ (eq_refl : real q = real (None :: q)) H).
  - destruct (ls_queue s) as [|o q] eqn:Q; [|discriminate H]. destruct (ls_closed s); [|discriminate H]. apply (S _ _ R eq_refl _ (eq_refl : real [] = real []) H).
  - refine (S _ _ _ eq_refl _ eq_refl H). intros g g' X. injection X as <-. reflexivity.
  - refine (S _ _ _ eq_refl _ eq_refl H). intros g g' X. destruct (l_done g); [|discriminate X]. apply running_inv in X. destruct X as [_ ->]. reflexivity.
  - apply (S _ _ R eq_refl _ eq_refl H).
  - injection H as <-. exists seen. split; [|auto]. rewrite N, A. cbn [arrived flat_map real app ls_queue]. rewrite app_nil_r. reflexivity.
Qed.
Lemma lrun_app es1 es2 s : lrun s (es1 ++ es2) = match lrun s es1 with Some s' => lrun s' es2 | None => None end.
Proof. revert s. induction es1 as [|e r IH]; intros s; cbn [app lrun]; [reflexivity|]. destruct (lstep s e); [apply IH|reflexivity]. Qed.
Lemma seen_run es s : lrun l_init es = Some s -> exists seen, seen_inv es s seen.
Proof.
  revert s. induction es as [|e es IH] using rev_ind; intros s H.
  - injection H as <-. exists []. split; [reflexivity|]. cbn [l_init ls_gors]. repeat split; auto; try discriminate. intros [|i] g X; discriminate X.
  - rewrite lrun_app in H. destruct (lrun l_init es) as [s1|]; [|discriminate H]. destruct (IH _ eq_refl) as [seen I].
    cbn [lrun] in H. destruct (lstep s1 e) as [s2|] eqn:L; [|discriminate H]. injection H as <-. eapply seen_step; eassumption.
Qed.
(** A goroutine only ends when its context is done, and then gets nothing more. *)
Lemma gor_step s e s' i g : lstep s e = Some s' -> nth_error (ls_gors s) i = Some g ->
  exists g', nth_error (ls_gors s') i = Some g' /\ l_topic g' = l_topic g
    /\ (l_done g' = true -> l_done g = true \/ e = EvCancel i)
    /\ (l_stopped g' = true -> l_stopped g = true \/ l_done g = true)
    /\ (l_stopped g = true -> l_stopped g' = true /\ l_got g' = l_got g)
    /\ (l_done g = true -> l_done g' = true).
Proof.
  intros H G.
  assert (W : forall j f q, with_gor s j f q = Some s' -> (forall g0 g', f g0 = Some g' -> l_topic g' = l_topic g0 /\ (l_done g' = true -> l_done g0 = true \/ e = EvCancel j)
      /\ (l_stopped g' = true -> l_stopped g0 = true \/ l_done g0 = true) /\ (l_stopped g0 = true -> l_stopped g' = true /\ l_got g' = l_got g0) /\ (l_done g0 = true -> l_done g' = true)) ->
    exists g', nth_error (ls_gors s') i = Some g' /\ l_topic g' = l_topic g
    /\ (l_done g' = true -> l_done g = true \/ e = EvCancel i)
    /\ (l_stopped g' = true -> l_stopped g = true \/ l_done g = true)
    /\ (l_stopped g = true -> l_stopped g' = true /\ l_got g' = l_got g)
    /\ (l_done g = true -> l_done g' = true)).
  { intros j f q Hw Hf. apply with_gor_inv in Hw. destruct Hw as (g0 & g1 & H0 & H1 & ->). cbn [ls_gors].
    destruct (Nat.eq_dec j i) as [->|N].
    - rewrite G in H0. injection H0 as <-. exists g1. split; [apply set_nth_eq; apply nth_error_lt in G; exact G|]. apply Hf, H1.
    - exists g. rewrite set_nth_neq by exact N. repeat split; auto. }
  assert (R : forall k, (forall g0 : lgor, l_topic (k g0) = l_topic g0 /\ l_done (k g0) = l_done g0 /\ l_stopped (k g0) = l_stopped g0) -> forall j g0 g', running k g0 = Some g' -> l_topic g' = l_topic g0 /\ (l_done g' = true -> l_done g0 = true \/ e = EvCancel j)
      /\ (l_stopped g' = true -> l_stopped g0 = true \/ l_done g0 = true) /\ (l_stopped g0 = true -> l_stopped g' = true /\ l_got g' = l_got g0) /\ (l_done g0 = true -> l_done g' = true)).
  { intros k Hk j g0 g' X. apply running_inv in X. destruct X as [X ->]. destruct (Hk g0) as (K1 & K2 & K3). rewrite K1, K2, K3. repeat split; auto; congruence. }
  destruct e as [t|o|j|j|j|j|j|j|]; cbn [lstep] in H.
  - exists g. destruct (existsb _ _); injection H as <-; cbn [ls_gors]; [|rewrite nth_error_app1 by (apply nth_error_lt in G; exact G)]; repeat split; auto.
  - destruct (ls_closed s); [discriminate H|]. injection H as <-. exists g. repeat split; auto.
  - destruct (ls_queue s) as [|[n|] q]; try discriminate H. eapply W; [exact H|]. apply R. intros g0. auto.
  - destruct (ls_queue s) as [|[n|] q]; try discriminate H. eapply W; [exact H|]. apply R. auto.
  - destruct (ls_queue s) as [|o q]; [|discriminate H]. destruct (ls_closed s); [|discriminate H]. eapply W; [exact H|]. apply R. auto.
  - eapply W; [exact H|]. intros g0 g' X. injection X as <-. cbn [l_topic l_done l_stopped l_got]. repeat split; auto.
  - eapply W; [exact H|]. intros g0 g' X. cbv beta in X. destruct (l_done g0) eqn:Dn; [|discriminate X]. apply running_inv in X. destruct X as [St ->]. cbn [l_topic l_done l_stopped l_got]. repeat split; auto.
  - eapply W; [exact H|]. apply R. auto.
  - injection H as <-. exists g. repeat split; auto.
Qed.
