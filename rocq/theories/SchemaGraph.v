(** Proofs about the discovery of dependencies. *)
From Verif Require Import GoBase GoBaseFacts TypeModel ParamModel SchemaModel SchemaSpec SchemaProofs.
From Coq Require Import Relations Permutation Sorted.
Open Scope Z_scope.

(** ** Termination, for every catalog *)
Definition has {A} (n : bytes) (m : list (bytes * A)) : bool := match mget n m with Some _ => true | None => false end.
(** Nothing is forgotten. *)
Definition grows (st st' : prov) : Prop := p_fks st' = p_fks st /\ forall n, has n (p_tabs st) = true -> has n (p_tabs st') = true.
Lemma grows_refl st : grows st st.
Proof. split; auto. Qed.
Lemma grows_trans a b c : grows a b -> grows b c -> grows a c.
Proof. intros [E H] [E' H']. split; [congruence|auto]. Qed.
Lemma has_mput {A} k n (v : A) m : has n (mput k v m) = beqb k n || has n m.
Proof. unfold has. rewrite mget_mput. destruct (beqb k n); reflexivity. Qed.
Lemma each_row_inv {S R} (P : S -> Prop) (f : S -> R -> S * outcome unit) : (forall st r, P st -> P (fst (f st r))) -> forall rows st, P st -> P (fst (each_row f st rows)).
Proof.
  intros H. induction rows as [|[r|e|] rows IH]; intros st Hs; cbn [each_row]; try exact Hs. pose proof (H st r Hs) as X. destruct (f st r) as [st' [[]|e|]]; cbn [fst] in X |- *; auto.
Qed.
Lemma run_query_inv {S R} (P : S -> Prop) (f : S -> R -> S * outcome unit) q st : (forall st r, P st -> P (fst (f st r))) -> P st -> P (fst (run_query f st q)).
Proof.
  intros H Hs. unfold run_query. destruct q as [[rows err]|e]; [|exact Hs]. cbn [src_rows src_err]. pose proof (each_row_inv P f H rows st Hs) as X. destruct (each_row f st rows) as [st' [[]|e|]]; exact X.
Qed.
Lemma read_columns_keeps cat st s t : p_tabs (fst (read_columns cat st s t)) = p_tabs st /\ p_fks (fst (read_columns cat st s t)) = p_fks st.
Proof.
  unfold read_columns. pose proof (run_query_inv (fun x : prov * list nat => p_tabs (fst x) = p_tabs st /\ p_fks (fst x) = p_fks st) (column_row s t) (cat_columns cat s t) (st, [])) as H.
  destruct (run_query (column_row s t) (st, []) (cat_columns cat s t)) as [[st' ids] [[]|e|]]; cbn [fst] in *; apply H; auto; intros [x l] r X; exact X.
Qed.
Lemma read_columns_fresh cat st s t : forall st1 o, read_columns cat st s t = (st1, o) -> p_tabs st1 = p_tabs st /\ p_fks st1 = p_fks st.
Proof. intros st1 o E. pose proof (read_columns_keeps cat st s t) as H. rewrite E in H. exact H. Qed.
Lemma each_col_grows rec : (forall st s t st' o, rec st s t = Some (st', o) -> grows st st') -> forall ids st st' o, each_col rec st ids = Some (st', o) -> grows st st'.
Proof.
  intros H. induction ids as [|id ids IH]; intros st st' o E; cbn [each_col] in E; [injection E as <- _; apply grows_refl|].
  destruct (nth_error (p_heap st) id) as [c|]; [|injection E as <- _; apply grows_refl]. destruct (mget (c_fqn c) (p_fks st)) as [k|]; [|exact (IH _ _ _ E)].
  destruct (rec _ _ _) as [[st1 o1]|] eqn:R; [|discriminate]. apply H in R. assert (G : grows st st1) by (destruct R as [R1 R2]; split; [exact R1|exact R2]).
  destruct o1 as [[]|e|]; [|injection E as <- _; exact G|injection E as <- _; exact G]. exact (grows_trans _ _ _ G (IH _ _ _ E)).
Qed.
Lemma discover_grows fuel cat : forall st s t st' o, discover_table fuel cat st s t = Some (st', o) -> grows st st'.
Proof.
  induction fuel as [|f IH]; intros st s t st' o E; cbn [discover_table] in E; [discriminate|]. destruct (mget (fqn2 s t) (p_tabs st)) eqn:M; [injection E as <- _; apply grows_refl|].
  destruct (read_columns cat st s t) as [st1 [cc|e|]] eqn:R; apply read_columns_fresh in R as [R1 R2].
  - apply (grows_trans _ (put_table st1 (mkTab s t [] false cc [] None (fqn2 s t)))); [split; [exact R2|]|eapply each_col_grows; [exact IH|exact E]].
    intros n Hn. cbn [put_table p_tabs]. rewrite has_mput, R1, Hn. apply orb_true_r.
  - injection E as <- _. split; [exact R2|]. intros n. rewrite R1. auto.
  - injection E as <- _. split; [exact R2|]. intros n. rewrite R1. auto.
Qed.
(** Foreign keys whose table is still to be read. *)
Definition target (k : fkey) : bytes := fqn2 (k_rschema k) (k_rtable k).
Definition missing (st : prov) : nat := length (filter (fun e => negb (has (target (snd e)) (p_tabs st))) (p_fks st)).
Lemma filter_le {A} (f g : A -> bool) l : (forall x, f x = true -> g x = true) -> (length (filter f l) <= length (filter g l))%nat.
Proof. intros H. induction l as [|x l IH]; cbn; [lia|]. destruct (f x) eqn:F; [rewrite (H x F); cbn; lia|]. destruct (g x); cbn; lia. Qed.
Lemma filter_lt {A} (f g : A -> bool) l x : (forall x, f x = true -> g x = true) -> In x l -> g x = true -> f x = false -> (length (filter f l) < length (filter g l))%nat.
Proof.
  intros H. induction l as [|y l IH]; intros I Gx Fx; [contradiction|]. cbn [filter]. destruct I as [->|I].
  - rewrite Gx, Fx. pose proof (filter_le f g l H). cbn. lia.
  - specialize (IH I Gx Fx). destruct (f y) eqn:F; [rewrite (H y F); cbn; lia|]. destruct (g y); cbn; lia.
Qed.
Lemma grows_missing st st' : grows st st' -> (missing st' <= missing st)%nat.
Proof. intros [E H]. unfold missing. rewrite E. apply filter_le. intros e X. destruct (has _ (p_tabs st)) eqn:Y; [rewrite (H _ Y) in X; discriminate|reflexivity]. Qed.
Lemma mget_mput_new {A} k (v : A) m : mget k m = None -> mput k v m = m ++ [(k, v)].
Proof. induction m as [|[j w] m IH]; cbn; [reflexivity|]. destruct (beqb j k); [discriminate|]. intros E. rewrite IH by exact E. reflexivity. Qed.
Lemma each_col_fuel cat n : (forall st k j, In (j, k) (p_fks st) -> (missing st <= n)%nat -> exists r, forall f, (S n <= f)%nat -> discover_table f cat st (k_rschema k) (k_rtable k) = Some r) ->
  forall ids st, (missing st <= n)%nat -> exists r, forall f, (S n <= f)%nat -> each_col (discover_table f cat) st ids = Some r.
Proof.
  intros H. induction ids as [|id ids IH]; intros st M; cbn [each_col]; [eexists; reflexivity|]. destruct (nth_error (p_heap st) id) as [c|]; [|eexists; reflexivity].
  destruct (mget (c_fqn c) (p_fks st)) as [k|] eqn:K; [|apply IH; exact M]. apply mget_in in K.
  destruct (H (set_heap st (upd_heap (p_heap st) id (set_ref k))) k (c_fqn c) K M) as [[st1 o] R]. pose proof (discover_grows _ _ _ _ _ _ _ (R (S n) (le_n _))) as G. apply grows_missing in G.
  assert (M' : (missing st1 <= n)%nat). { unfold missing in M, G. cbn [set_heap p_tabs p_fks] in G. unfold missing. lia. }
  destruct (IH st1 M') as [r Hr]. destruct o as [[]|e|].
  - exists r. intros f Hf. rewrite (R f Hf). exact (Hr f Hf).
  - eexists. intros f Hf. rewrite (R f Hf). reflexivity.
  - eexists. intros f Hf. rewrite (R f Hf). reflexivity.
Qed.
Lemma discover_fuel cat n : forall st k j, In (j, k) (p_fks st) -> (missing st <= n)%nat -> exists r, forall f, (S n <= f)%nat -> discover_table f cat st (k_rschema k) (k_rtable k) = Some r.
Proof.
  induction n as [|n IH]; intros st k j I M.
  - exists (st, ROk tt). intros [|f] Hf; [lia|]. cbn [discover_table]. fold (target k). destruct (mget (target k) (p_tabs st)) eqn:E; [reflexivity|]. exfalso. unfold missing in M.
    assert (X : In (j, k) (filter (fun e => negb (has (target (snd e)) (p_tabs st))) (p_fks st))) by (apply filter_In; split; [exact I|]; cbn [snd]; unfold has; rewrite E; reflexivity).
    destruct (filter _ (p_fks st)); [contradiction|cbn in M; lia].
  - destruct (mget (target k) (p_tabs st)) eqn:E; [exists (st, ROk tt); intros [|f] Hf; [lia|]; cbn [discover_table]; fold (target k); rewrite E; reflexivity|].
    destruct (read_columns cat st (k_rschema k) (k_rtable k)) as [st1 [cc|e|]] eqn:R.
    + set (st2 := put_table st1 (mkTab (k_rschema k) (k_rtable k) [] false cc [] None (target k))). apply read_columns_fresh in R as R'. destruct R' as [R1 R2].
      assert (M2 : (missing st2 <= n)%nat).
      { enough (missing st2 < missing st)%nat by lia. unfold missing, st2. cbn [put_table p_fks p_tabs t_fqn]. rewrite R1, R2. eapply filter_lt; [|exact I| |]; cbn [snd].
        - intros x. rewrite has_mput. destruct (has _ (p_tabs st)); [rewrite orb_true_r; discriminate|reflexivity].
        - unfold has. rewrite E. reflexivity.
        - rewrite has_mput, beqb_refl. reflexivity. }
      destruct (each_col_fuel cat n IH cc st2 M2) as [r Hr]. exists r. intros [|f] Hf; [lia|]. cbn [discover_table]. fold (target k). rewrite E, R. fold st2. apply Hr. lia.
    + eexists. intros [|f] Hf; [lia|]. cbn [discover_table]. fold (target k). rewrite E, R. reflexivity.
    + eexists. intros [|f] Hf; [lia|]. cbn [discover_table]. fold (target k). rewrite E, R. reflexivity.
Qed.
Lemma each_key_fuel cat n ord : forall st, (missing st <= n)%nat -> exists r, forall f, (S n <= f)%nat -> each_key f cat st ord = Some r.
Proof.
  induction ord as [|x ord IH]; intros st M; cbn [each_key]; [eexists; reflexivity|]. destruct (mget x (p_cols st)) as [id|]; [|apply IH; exact M]. destruct (mget x (p_fks st)) as [k|] eqn:K; [|apply IH; exact M]. apply mget_in in K.
  destruct (discover_fuel cat n (set_heap st (upd_heap (p_heap st) id (set_ref k))) k x K M) as [[st1 o] R]. pose proof (discover_grows _ _ _ _ _ _ _ (R (S n) (le_n _))) as G. apply grows_missing in G.
  assert (M' : (missing st1 <= n)%nat). { unfold missing in M, G. cbn [set_heap p_tabs p_fks] in G. unfold missing. lia. }
  destruct (IH st1 M') as [r Hr]. destruct o as [[]|e|].
  - exists r. intros f Hf. rewrite (R f Hf). exact (Hr f Hf).
  - eexists. intros f Hf. rewrite (R f Hf). reflexivity.
  - eexists. intros f Hf. rewrite (R f Hf). reflexivity.
Qed.
Lemma deps_terminate cat st schemas tables ord : exists n, forall tord, exists r, forall f, (n <= f)%nat -> list_tables_deps f cat st schemas tables ord tord = Some r.
Proof.
  unfold list_tables_deps. destruct (list_tables_only cat st schemas tables) as [st1 [ts|e|]]; [|exists 0%nat; intros; eexists; reflexivity|exists 0%nat; intros; eexists; reflexivity]. unfold discover.
  destruct (list_fks cat st1 [] []) as [st2 [ks|e|]]; [|exists 0%nat; intros; eexists; reflexivity|exists 0%nat; intros; eexists; reflexivity].
  destruct (each_key_fuel cat (missing st2) ord st2 (le_n _)) as [[st3 o] H]. exists (S (missing st2)). intros tord. destruct o as [[]|e|]; eexists; intros f Hf; rewrite (H f Hf); reflexivity.
Qed.
