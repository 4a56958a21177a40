(** Properties C173-C174: the connection of the command line application. *)
From Verif Require Import GoBase GoBaseFacts AppModel.
Open Scope nat_scope.

(** ** Specification *)
(** The numbers of the connections that are open. *)
Definition open_conns (s : cli) : list nat :=
  filter (fun i => match nth_error (w_conns s) i with Some c => cn_open c | None => false end) (seq 0 (length (w_conns s))).

Lemma filter_none {A} (f : A -> bool) l : (forall x, In x l -> f x = false) -> filter f l = [].
Proof. induction l as [|a l IH]; intros H; [reflexivity|]. cbn. rewrite (H a (or_introl eq_refl)). apply IH. intros; apply H; right; assumption. Qed.
(** Invariant: the connection of the Cli is open, all others are closed. *)
Definition tidy (s : cli) : Prop :=
  (forall c, cl_db s = Some c -> c < length (w_conns s)) /\
  (forall i c, nth_error (w_conns s) i = Some c -> (cn_open c = true <-> cl_db s = Some i)).
Lemma tidy0 : tidy cli0.
Proof. split; [discriminate|]. intros [|i] c H; discriminate. Qed.
Lemma close_nth_length l i : length (close_nth l i) = length l.
Proof.
  unfold close_nth. destruct (nth_error l i) eqn:E; [|reflexivity]. assert (i < length l) by (apply nth_error_Some; congruence).
  rewrite app_length, firstn_length. cbn [length]. rewrite skipn_length. lia.
Qed.
Lemma close_nth_nth l i j : nth_error (close_nth l i) j = if j =? i then option_map (fun c => mkConn (cn_name c) false) (nth_error l i) else nth_error l j.
Proof.
  unfold close_nth. destruct (nth_error l i) as [c|] eqn:E.
  - assert (H : i < length l) by (apply nth_error_Some; congruence).
    assert (HL : length (firstn i l) = i) by (rewrite firstn_length; lia).
    destruct (Nat.eqb_spec j i) as [->|Hn].
    + rewrite nth_error_app2 by lia. rewrite HL, Nat.sub_diag. reflexivity.
    + destruct (Nat.lt_ge_cases j i).
      * rewrite nth_error_app1 by lia. rewrite <- (firstn_skipn i l) at 2. rewrite nth_error_app1 by lia. reflexivity.
      * rewrite nth_error_app2 by lia. rewrite HL. destruct (j - i) as [|k] eqn:Ek; [lia|]. cbn [nth_error].
        rewrite <- (firstn_skipn (S i) l) at 2. rewrite nth_error_app2 by (rewrite firstn_length; lia). f_equal. rewrite firstn_length. lia.
  - destruct (Nat.eqb_spec j i) as [->|]; [exact E|reflexivity].
Qed.
Lemma db_tidy s n ok : tidy s -> tidy (fst (do_db s n ok)).
Proof.
  intros HT; pose proof HT as [H1 H2]. unfold do_db. destruct (cl_db s) as [c|] eqn:E; [exact HT|]. destruct ok; [|exact HT].
  cbn [fst]. split; cbn [cl_db w_conns].
  - intros c [= <-]. rewrite app_length. cbn. lia.
  - intros i c Hi. destruct (Nat.lt_ge_cases i (length (w_conns s))) as [Hl|Hl].
    + rewrite nth_error_app1 in Hi by exact Hl. pose proof (H2 i c Hi) as Hw. split; [intros Ho; apply Hw in Ho; congruence|]. intros X; injection X as X; lia.
    + rewrite nth_error_app2 in Hi by exact Hl. destruct (i - length (w_conns s)) as [|k] eqn:Ek; cbn in Hi.
      * injection Hi as <-. cbn. split; [intros _; f_equal; lia|reflexivity].
      * destruct k; discriminate.
Qed.
Lemma close_tidy s : tidy s -> tidy (do_close s).
Proof.
  intros HT; pose proof HT as [H1 H2]. unfold do_close. destruct (cl_db s) as [c|] eqn:E; [|exact HT].
  split; cbn [cl_db w_conns]; [discriminate|]. intros i k Hi. rewrite close_nth_nth in Hi. destruct (Nat.eqb_spec i c) as [->|Hn].
  - destruct (nth_error (w_conns s) c); [|discriminate]. injection Hi as <-. cbn. split; discriminate.
  - specialize (H2 i k Hi). split; [|discriminate]. intros Ho. apply H2 in Ho. congruence.
Qed.
Lemma step_tidy s o : tidy s -> tidy (fst (cstep s o)).
Proof.
  intros H. destruct o as [n ok|n ok|n|]; cbn [cstep fst].
  - apply db_tidy, H.
  - unfold do_schema. destruct (cl_schema s) as [p|]; [exact H|]. pose proof (db_tidy s n ok H) as HD.
    destruct (do_db s n ok) as [s' [c|p| |]]; exact HD.
  - exact H.
  - apply close_tidy, H.
Qed.
Lemma run_tidy l : forall s, tidy s -> tidy (fst (crun s l)).
Proof.
  induction l as [|o l IH]; intros s H; [exact H|]. cbn [crun]. pose proof (step_tidy s o H) as HS. destruct (cstep s o) as [s1 r].
  specialize (IH s1 HS). destruct (crun s1 l) as [s2 rs]. exact IH.
Qed.
Lemma tidy_open s : tidy s -> open_conns s = match cl_db s with Some c => [c] | None => [] end.
Proof.
  intros [H1 H2]. unfold open_conns.
  assert (HF : forall i, i < length (w_conns s) -> (match nth_error (w_conns s) i with Some c => cn_open c | None => false end) = match cl_db s with Some c => i =? c | None => false end).
  { intros i Hi. destruct (nth_error (w_conns s) i) as [c|] eqn:E; [|apply nth_error_None in E; lia]. specialize (H2 i c E).
    destruct (cl_db s) as [d|].
    - destruct (Nat.eqb_spec i d) as [->|Hn]; [apply H2; reflexivity|]. destruct (cn_open c); [|reflexivity]. exfalso. apply Hn. assert (Some d = Some i) by (apply H2; reflexivity). congruence.
    - destruct (cn_open c); [|reflexivity]. assert (None = Some i) by (apply H2; reflexivity). discriminate. }
  transitivity (filter (fun i => match cl_db s with Some c => i =? c | None => false end) (seq 0 (length (w_conns s)))).
  - apply filter_ext_in. intros i Hi. apply in_seq in Hi. apply HF. lia.
  - destruct (cl_db s) as [c|]; [|apply filter_none; reflexivity]. specialize (H1 c eq_refl).
    replace (length (w_conns s)) with (c + S (length (w_conns s) - S c)) by lia. rewrite seq_app, filter_app. cbn [seq filter].
    rewrite Nat.eqb_refl. rewrite !filter_none; [reflexivity| |].
    + intros i Hi. apply in_seq in Hi. apply Nat.eqb_neq. lia.
    + intros i Hi. apply in_seq in Hi. apply Nat.eqb_neq. lia.
Qed.

(** ** C173 *)
(** In every history at most one connection is open, and after Close none is. *)
Theorem C173_one : forall l, length (open_conns (fst (crun cli0 l))) <= 1.
Proof. intros l. rewrite (tidy_open _ (run_tidy l cli0 tidy0)). destruct (cl_db _); cbn; lia. Qed.
Lemma crun_app a : forall s b, fst (crun s (a ++ b)) = fst (crun (fst (crun s a)) b).
Proof.
  induction a as [|o a IH]; intros s b; [reflexivity|]. cbn [app crun]. destruct (cstep s o) as [s1 r].
  specialize (IH s1 b). destruct (crun s1 (a ++ b)), (crun s1 a). exact IH.
Qed.
Theorem C173_closed : forall l, open_conns (fst (crun cli0 (l ++ [Close]))) = [].
Proof.
  intros l. rewrite tidy_open by (apply run_tidy, tidy0). rewrite crun_app. cbn [crun cstep fst]. unfold do_close. destruct (cl_db (fst (crun cli0 l))) eqn:E; [reflexivity|rewrite E; reflexivity].
Qed.
(** What DB answers is the open connection, and it is made only when none is open. *)
Theorem C173_db : forall l n ok s' c, cstep (fst (crun cli0 l)) (DB n ok) = (s', RConn c) ->
  open_conns s' = [c] /\ (open_conns (fst (crun cli0 l)) <> [] -> s' = fst (crun cli0 l)).
Proof.
  intros l n ok s' c H. pose proof (run_tidy l cli0 tidy0) as HT. set (s := fst (crun cli0 l)) in *.
  assert (HT' : tidy s') by (pose proof (step_tidy s (DB n ok) HT) as HS; rewrite H in HS; exact HS).
  rewrite !tidy_open by assumption. cbn [cstep] in H. unfold do_db in H. destruct (cl_db s) as [d|] eqn:E.
  - injection H as <- <-. rewrite E. split; [reflexivity|]. intros _; reflexivity.
  - destruct ok; [|discriminate]. injection H as <- <-. split; [reflexivity|congruence].
Qed.
Theorem C173_error : forall l o s', cstep (fst (crun cli0 l)) o = (s', RError) -> s' = fst (crun cli0 l).
Proof.
  intros l o s' H. destruct o as [n ok|n ok|n|]; cbn [cstep] in H; try discriminate.
  - unfold do_db in H. destruct (cl_db _); [discriminate|]. destruct ok; [discriminate|]. congruence.
  - unfold do_schema in H. destruct (cl_schema _); [discriminate|]. unfold do_db in H. destruct (cl_db _); [discriminate|]. destruct ok; [discriminate|]. congruence.
Qed.
Example C173_ex : open_conns (fst (crun cli0 [DB (B "a") false; SchemaProvider (B "a") true; DB (B "b") true; Close; DB (B "c") true])) = [1] /\
  snd (crun cli0 [DB (B "a") false; SchemaProvider (B "a") true; DB (B "b") true; Close; DB (B "c") true]) = [RError; RSchema (SOn 0); RConn 0; RUnit; RConn 1].
Proof. vm_compute. split; reflexivity. Qed.

(** ** C116: the database that is used (continued from ProvProps) *)
(** What does hold: the first call after a Close (or at the start) connects to its
    database, and what a schema provider describes, made since then, is the open
    connection. *)
Theorem C116_first_partial : forall l n s', cl_db (fst (crun cli0 l)) = None -> cl_schema (fst (crun cli0 l)) = None ->
  forall o, o = DB n true \/ o = SchemaProvider n true -> fst (cstep (fst (crun cli0 l)) o) = s' ->
  exists c, open_conns s' = [c] /\ option_map cn_name (nth_error (w_conns s') c) = Some n /\
    snd (cstep (fst (crun cli0 l)) o) = match o with DB _ _ => RConn c | _ => RSchema (SOn c) end.
Proof.
  intros l n s' Hd Hs o Ho H. pose proof (run_tidy l cli0 tidy0) as HT. set (s := fst (crun cli0 l)) in *.
  assert (HT' : tidy s') by (rewrite <- H; apply step_tidy; exact HT).
  assert (EN : nth_error (w_conns s ++ [mkConn n true]) (length (w_conns s)) = Some (mkConn n true)) by (rewrite nth_error_app2, Nat.sub_diag by lia; reflexivity).
  rewrite tidy_open by exact HT'. subst s'. destruct Ho as [-> | ->]; cbn [cstep]; unfold do_schema, do_db; rewrite ?Hs, Hd; cbn; eexists; (split; [reflexivity|]); rewrite EN; split; reflexivity.
Qed.
Theorem C116_schema_open_partial : forall l c, ~ In Close l -> cl_schema (fst (crun cli0 l)) = Some (SOn c) -> open_conns (fst (crun cli0 l)) = [c].
Proof.
  intros l c Hc H. rewrite (tidy_open _ (run_tidy l cli0 tidy0)).
  assert (G : forall l s, ~ In Close l -> (forall c, cl_schema s = Some (SOn c) -> cl_db s = Some c) -> forall c, cl_schema (fst (crun s l)) = Some (SOn c) -> cl_db (fst (crun s l)) = Some c).
  { clear. induction l as [|o l IH]; intros s Hc HS c; [apply HS|]. cbn [crun]. destruct (cstep s o) as [s1 r] eqn:ES.
    assert (H1 : forall c, cl_schema s1 = Some (SOn c) -> cl_db s1 = Some c).
    { destruct o as [n ok|n ok|n|]; cbn [cstep] in ES.
      - unfold do_db in ES. destruct (cl_db s) eqn:E; [injection ES as <- _; rewrite E; exact HS|]. destruct ok; injection ES as <- _; [|rewrite E; exact HS].
        intros k Hk. cbn in Hk. apply HS in Hk. discriminate.
      - unfold do_schema in ES. destruct (cl_schema s) eqn:E; [injection ES as <- _; rewrite E; exact HS|]. unfold do_db in ES.
        destruct (cl_db s) eqn:E2; [injection ES as <- _; cbn; rewrite E2; intros k [= <-]; reflexivity|].
        destruct ok; injection ES as <- _; [cbn; intros k [= <-]; reflexivity|rewrite E; discriminate].
      - injection ES as <- _. cbn. discriminate.
      - exfalso. apply Hc. left; reflexivity. }
    specialize (IH s1 (fun X => Hc (or_intror X)) H1 c). destruct (crun s1 l) as [s2 rs]. exact IH. }
  rewrite (G l cli0 Hc (fun c => ltac:(discriminate)) c H). reflexivity.
Qed.
Example C116_first_partial_ex : cstep (fst (crun cli0 [DB (B "a") true; Close; DB (B "x") false])) (SchemaProvider (B "b") true) =
  (mkCli (Some 1) (Some (SOn 1)) [mkConn (B "a") false; mkConn (B "b") true], RSchema (SOn 1)).
Proof. vm_compute. reflexivity. Qed.
Example C116_schema_open_partial_ex : open_conns (fst (crun cli0 [SchemaProvider (B "a") true; DB (B "b") true])) = [0]. Proof. vm_compute. reflexivity. Qed.

(** ** C174 *)
(** The status of the process is 0 exactly when nothing failed. *)
Theorem C174_status : forall p c, status (fst (real_main true p c)) = 0 <-> ((exists rest, p = PExit 0 rest) \/ (p = PCommand /\ cm_err c = false)).
Proof.
  intros p c. destruct p as [code rest|ctx usage|]; cbn.
  - split; [intros ->; left; exists rest; reflexivity|]. intros [[r [= -> _]]|[H _]]; [reflexivity|discriminate].
  - split; [destruct usage; discriminate|]. intros [[r H]|[H _]]; discriminate.
  - unfold run_command. destruct (cm_err c); cbn.
    + split; [discriminate|]. intros [[r H]|[_ H]]; discriminate.
    + split; [right; split; reflexivity|reflexivity].
Qed.
(** exit is called at most once: with 80 for a usage error, with 1 for any other failure, or
    with the parser's own code. *)
Theorem C174_once : forall p c, length (fst (real_main true p c)) <= 1 /\ forall code, In code (fst (real_main true p c)) <->
  (exists rest, p = PExit code rest) \/ (exists ctx, p = PError ctx true /\ code = 80) \/ (code = 1 /\ ((exists ctx, p = PError ctx false) \/ (p = PCommand /\ cm_err c = true))).
Proof.
  intros p c. destruct p as [code rest|ctx usage|]; cbn.
  - split; [lia|]. intros k. split; [intros [<-|[]]; left; exists rest; reflexivity|]. intros [[r [= -> _]]|[[x [H _]]|[_ [[x H]|[H _]]]]]; [left; reflexivity|discriminate..].
  - split; [lia|]. intros k. split; [intros [<-|[]]; right; destruct usage; [left; exists ctx; split; reflexivity|right; split; [reflexivity|left; exists ctx; reflexivity]]|].
    intros [[r H]|[[x [[= _ ->] ->]]|[-> [[x [= _ ->]]|[H _]]]]]; try discriminate; left; reflexivity.
  - unfold run_command. destruct (cm_err c); cbn; (split; [lia|]); intros k; (split; [|intros [[r H]|[[x [H _]]|[-> [[x H]|[_ H]]]]]; try discriminate; left; reflexivity]).
    + intros [<-|[]]. right. right. split; [reflexivity|right; split; reflexivity].
    + intros [].
Qed.
(** Every command that succeeds leaves no connection open ... *)
Lemma close_open s : tidy s -> open_conns (do_close s) = [].
Proof. intros H. rewrite tidy_open by (apply close_tidy, H). unfold do_close. destruct (cl_db s) eqn:E; [reflexivity|rewrite E; reflexivity]. Qed.
Theorem C174_closed_partial : forall real p c, real = false \/ cm_err c = false \/ p <> PCommand -> open_conns (snd (real_main real p c)) = [].
Proof.
  intros real p c H. pose proof (close_open (fst (crun cli0 (cm_ops c))) (run_tidy _ _ tidy0)) as HC.
  induction p as [code rest IH|ctx usage|]; cbn [real_main].
  - destruct real; [reflexivity|]. specialize (IH (or_introl eq_refl)). destruct (real_main false rest c) as [e s]. exact IH.
  - destruct real; [reflexivity|]. destruct ctx; [|reflexivity]. unfold run_command. destruct (cm_err c); exact HC.
  - unfold run_command. destruct (cm_err c); [|exact HC]. destruct real; [|exact HC]. destruct H as [H|[H|H]]; congruence.
Qed.
(** ... False of the code for every command that fails after it has connected:
    os.Exit does not run the deferred Close. *)
Theorem C174_failed_refuted : forall l, cl_db (fst (crun cli0 l)) <> None -> open_conns (snd (real_main true PCommand (mkCmd l true))) <> [].
Proof.
  intros l H. cbn. unfold run_command. cbn. rewrite (tidy_open _ (run_tidy l cli0 tidy0)). destruct (cl_db _); [discriminate|congruence].
Qed.
Example C174_failed_refuted_ex : real_main true PCommand (mkCmd [SchemaProvider (B "db") true] true) = ([1], mkCli (Some 0) (Some (SOn 0)) [mkConn (B "db") true]).
Proof. vm_compute. reflexivity. Qed.
(** main_test.go:11-23 *)
Example TestMain : real_main false (PExit 0 (PError false true)) (mkCmd [] false) = ([0; 80], cli0). Proof. vm_compute. reflexivity. Qed.
Example C174_once_ex : fst (real_main true (PError false true) (mkCmd [] false)) = [80] /\ fst (real_main true PCommand (mkCmd [] true)) = [1]. Proof. vm_compute. split; reflexivity. Qed.
Example C174_ex : real_main true PCommand (mkCmd [SchemaProvider (B "db") true] false) = ([], mkCli None (Some (SOn 0)) [mkConn (B "db") false]).
Proof. vm_compute. reflexivity. Qed.

(** After Close the schema provider is still handed out, whatever database is asked
    for, though its connection is closed. *)
Theorem C116_kept_refuted : forall l c n ok, cl_schema (fst (crun cli0 l)) = Some (SOn c) ->
  snd (cstep (fst (crun cli0 (l ++ [Close]))) (SchemaProvider n ok)) = RSchema (SOn c) /\ open_conns (fst (crun cli0 (l ++ [Close; SchemaProvider n ok]))) = [].
Proof.
  intros l c n ok H. assert (S0 : cl_schema (fst (crun cli0 (l ++ [Close]))) = Some (SOn c)).
  { rewrite crun_app. cbn [crun cstep fst]. unfold do_close. destruct (cl_db (fst (crun cli0 l))); exact H. }
  split; [cbn [cstep]; unfold do_schema; rewrite S0; reflexivity|].
  change [Close; SchemaProvider n ok] with ([Close] ++ [SchemaProvider n ok]). rewrite app_assoc, crun_app.
  pose proof (C173_closed l) as O. set (s := fst (crun cli0 (l ++ [Close]))) in *. cbn [crun cstep]. unfold do_schema. rewrite S0. exact O.
Qed.
Example C116_kept_refuted_ex : snd (crun cli0 [SchemaProvider (B "a") true; Close; SchemaProvider (B "b") true]) = [RSchema (SOn 0); RUnit; RSchema (SOn 0)].
Proof. vm_compute. reflexivity. Qed.

(** Exactly: a connection is left open when the process itself ends in a failed
    command that had connected. *)
Theorem C174_closed_iff_partial : forall real p c, open_conns (snd (real_main real p c)) = [] <-> ~ (real = true /\ p = PCommand /\ cm_err c = true /\ cl_db (fst (crun cli0 (cm_ops c))) <> None).
Proof.
  intros real p c. split.
  - intros H (-> & -> & E & D). destruct c as [l e]. cbn [cm_err cm_ops] in *. subst e. exact (C174_failed_refuted l D H).
  - intros H. destruct real; [|apply C174_closed_partial; left; reflexivity]. destruct p as [code rest|ctx usage|]; [apply C174_closed_partial; right; right; discriminate|apply C174_closed_partial; right; right; discriminate|].
    destruct (cm_err c) eqn:E; [|apply C174_closed_partial; right; left; exact E]. cbn [real_main]. unfold run_command. rewrite E. cbn [snd]. rewrite (tidy_open _ (run_tidy _ cli0 tidy0)).
    destruct (cl_db (fst (crun cli0 (cm_ops c)))) eqn:D; [|reflexivity]. destruct H. repeat split. discriminate.
Qed.

(** ** Assumptions *)
Print Assumptions C173_one.
Print Assumptions C173_closed.
Print Assumptions C173_db.
Print Assumptions C173_error.
Print Assumptions C116_first_partial.
Print Assumptions C116_schema_open_partial.
Print Assumptions C174_status.
Print Assumptions C174_once.
Print Assumptions C174_closed_partial.
Print Assumptions C174_failed_refuted.
Print Assumptions C116_kept_refuted.
Print Assumptions C174_closed_iff_partial.
