(** Proofs about SchemaConc: a program run alone is the sequential listing, and
    goroutines whose accesses do not meet neither end the process nor change
    each other's answers. *)
From Coq Require Import ZArith List Bool Lia Ascii String.
From Verif Require Import GoBase ParamModel SchemaModel SchemaConc.
Import ListNotations.
Open Scope Z_scope.

(** ** Alone: the sequential model *)
Lemma run_bind {A B} (p : prog A) (f : A -> prog B) st :
  prun_alone (pbind p f) st = let '(st', a) := prun_alone p st in prun_alone (f a) st'.
Proof. revert st. induction p; intro st; cbn [pbind prun_alone]; auto. Qed.

(** [f] with the memory threaded is [g]. *)
Lemma run_each {S R} (f : S -> R -> prog (S * outcome unit)) (g : prov * S -> R -> (prov * S) * outcome unit) :
  (forall st a r, prun_alone (f a r) st = let '((st', a'), o) := g (st, a) r in (st', (a', o))) ->
  forall rows st a, prun_alone (p_each f a rows) st = let '((st', a'), o) := each_row g (st, a) rows in (st', (a', o)).
Proof.
  intros H. induction rows as [|[r|e|] rest IH]; intros st a; cbn [p_each each_row prun_alone]; auto.
  rewrite run_bind, H. destruct (g (st, a) r) as [[st' a'] o]. destruct o; cbn [prun_alone]; auto.
Qed.
Lemma run_pquery {S R} (f : S -> R -> prog (S * outcome unit)) (g : prov * S -> R -> (prov * S) * outcome unit) :
  (forall st a r, prun_alone (f a r) st = let '((st', a'), o) := g (st, a) r in (st', (a', o))) ->
  forall q st a, prun_alone (p_query f a q) st = let '((st', a'), o) := run_query g (st, a) q in (st', (a', o)).
Proof.
  intros H q st a. destruct q as [src|e]; cbn [p_query run_query prun_alone]; auto.
  rewrite run_bind, (run_each f g H). destruct (each_row g (st, a) (src_rows src)) as [[st' a'] o].
  destruct o; cbn [prun_alone]; auto.
Qed.

Lemma run_columns cat s t st : prun_alone (p_columns cat s t) st = read_columns cat st s t.
Proof.
  unfold p_columns, read_columns. rewrite run_bind.
  rewrite (run_pquery _ (column_row s t)).
  - destruct (run_query (column_row s t) (st, []) (cat_columns cat s t)) as [[st' ids] o]. destruct o; reflexivity.
  - intros st0 a r. unfold p_column_row, column_row, alloc. reflexivity.
Qed.
Lemma run_indexes cat s t st : prun_alone (p_indexes cat s t) st = (st, read_indexes cat s t).
Proof.
  unfold p_indexes, read_indexes. rewrite run_bind.
  rewrite (run_pquery _ (fun x r => ((fst x, snd x ++ [make_index r]), ROk tt))) by (intros; reflexivity).
  assert (H : run_query (fun (x : prov * list index) r => ((fst x, snd x ++ [make_index r]), ROk tt)) (st, []) (cat_indexes cat s t)
            = let '(ii, o) := run_query (fun ii r => (ii ++ [make_index r], ROk tt)) [] (cat_indexes cat s t) in ((st, ii), o)).
  { destruct (cat_indexes cat s t) as [src|e]; cbn [run_query]; auto.
    assert (E : forall rows ii, each_row (fun (x : prov * list index) r => ((fst x, snd x ++ [make_index r]), ROk tt)) (st, ii) rows
       = let '(ii', o) := each_row (fun ii r => (ii ++ [make_index r], ROk tt)) ii rows in ((st, ii'), o)).
    { induction rows as [|[r|e|] rest IH]; intro ii; cbn [each_row fst snd]; auto. }
    rewrite E. destruct (each_row (fun ii r => (ii ++ [make_index r], ROk tt)) [] (src_rows src)) as [ii o]. destruct o; reflexivity. }
  rewrite H. destruct (run_query (fun ii r => (ii ++ [make_index r], ROk tt)) [] (cat_indexes cat s t)) as [ii o].
  destruct o; reflexivity.
Qed.
Lemma run_attach_cols tfqn ix names : forall pk st, prun_alone (p_attach_cols tfqn ix names pk) st = attach_cols st tfqn ix names pk.
Proof.
  induction names as [|cn r IH]; intros pk st; cbn [p_attach_cols attach_cols prun_alone]; auto.
  destruct (mget (tfqn ++ B "." ++ cn) (p_cols st)); cbn [prun_alone]; auto.
Qed.
Lemma run_attach tfqn ii : forall pk st, prun_alone (p_attach tfqn ii pk) st = attach st tfqn ii pk.
Proof.
  induction ii as [|ix r IH]; intros pk st; cbn [p_attach attach prun_alone]; auto.
  rewrite run_bind, run_attach_cols. destruct (attach_cols st tfqn ix (ix_cols ix) pk) as [st' o]. destruct o; cbn [prun_alone]; auto.
Qed.
Lemma run_table_row cat ss ts st a r :
  prun_alone (p_table_row cat ss ts a r) st = let '((st', a'), o) := table_row cat ss ts (st, a) r in (st', (a', o)).
Proof.
  unfold p_table_row, table_row. destruct (wanted ss ts (tr_schema r) (tr_name r)); cbn [negb]; [|reflexivity].
  cbv zeta. rewrite run_bind, run_columns.
  destruct (read_columns cat st (tr_schema r) (tr_name r)) as [st1 oc]. destruct oc as [cc|e|]; [|reflexivity|reflexivity].
  rewrite run_bind, run_indexes. destruct (read_indexes cat (tr_schema r) (tr_name r)) as [ii|e|]; [|reflexivity|reflexivity].
  rewrite run_bind, run_attach. destruct (attach st1 (fqn2 (tr_schema r) (tr_name r)) ii None) as [st2 op].
  destruct op; reflexivity.
Qed.
Lemma run_list_tables cat ss ts st : prun_alone (p_list_tables cat ss ts) st = list_tables cat st ss ts.
Proof.
  unfold p_list_tables, list_tables, list_tables_only, sorted_tables. rewrite run_bind.
  rewrite (run_pquery _ (table_row cat ss ts)) by (intros; apply run_table_row).
  destruct (run_query (table_row cat ss ts) (st, []) (cat_tables cat)) as [[st' l] o]. destruct o; reflexivity.
Qed.
Lemma run_list_views cat ss ts v st : prun_alone (p_list_views cat ss ts v) st = list_views cat st ss ts v.
Proof.
  unfold p_list_views, list_views. rewrite run_bind.
  rewrite (run_pquery _ (view_row ss ts)).
  - destruct (run_query (view_row ss ts) (st, []) (cat_views cat)) as [[st' l] o]. destruct o; reflexivity.
  - intros st0 a r. unfold p_view_row, view_row, alloc. destruct (wanted ss ts (vr_schema r) (vr_table r)); reflexivity.
Qed.
Lemma run_list_fks cat ss ts st : prun_alone (p_list_fks cat ss ts) st = list_fks cat st ss ts.
Proof.
  unfold p_list_fks, list_fks. rewrite run_bind.
  rewrite (run_pquery _ (fk_row ss ts)).
  - destruct (run_query (fk_row ss ts) (st, []) (cat_fks cat)) as [[st' l] o]. destruct o; reflexivity.
  - intros st0 a r. unfold p_fk_row, fk_row. destruct (wanted ss ts (k_schema r) (k_table r)); reflexivity.
Qed.
Lemma run_request cat q st : snd (prun_alone (p_request cat q) st) = alone cat q st.
Proof.
  destruct q; cbn [p_request alone]; rewrite run_bind; rewrite ?run_list_tables, ?run_list_views, ?run_list_fks.
  - destruct (list_tables cat st schemas tables); reflexivity.
  - destruct (list_views cat st schemas tables vord); reflexivity.
  - destruct (list_fks cat st schemas tables); reflexivity.
Qed.

(** ** What a program may touch: [P m true] a store, [P m false] a read *)
Fixpoint within {R} (P : mid -> bool -> Prop) (p : prog R) : Prop :=
  match p with
  | PRet _ => True
  | PNew _ k => P MHeap true /\ forall i, within P (k i)
  | PPut _ _ k => P MCols true /\ within P k
  | PGet _ k => P MCols false /\ forall o, within P (k o)
  | PAdd _ _ k => P MHeap true /\ within P k
  | PPos k => P MHeap false /\ forall h, within P (k h)
  | PIdx _ k => P MIdx true /\ within P k
  | PTab _ k => P MTabs true /\ within P k
  | PFk _ _ k => P MFks true /\ within P k
  end.
Lemma within_bind {A B} P (p : prog A) (f : A -> prog B) : within P p -> (forall a, within P (f a)) -> within P (pbind p f).
Proof. intros Hp Hf. induction p; cbn [pbind within] in *; intuition auto. Qed.
Lemma within_each {S R} P (f : S -> R -> prog (S * outcome unit)) : (forall a r, within P (f a r)) -> forall rows a, within P (p_each f a rows).
Proof.
  intros H. induction rows as [|[r|e|] rest IH]; intro a; cbn [p_each within]; auto.
  apply within_bind; auto. intros [a' o]. destruct o; cbn [within]; auto.
Qed.
Lemma within_query {S R} P (f : S -> R -> prog (S * outcome unit)) : (forall a r, within P (f a r)) -> forall q a, within P (p_query f a q).
Proof.
  intros H q a. destruct q; cbn [p_query within]; auto. apply within_bind; [apply within_each; auto|].
  intros [a' o]. destruct o; cbn [within]; auto.
Qed.
Definition of_tables (m : mid) (w : bool) : Prop := m <> MFks.
Definition of_keys (m : mid) (w : bool) : Prop := m = MFks.
Lemma within_columns cat s t : within of_tables (p_columns cat s t).
Proof.
  unfold p_columns. apply within_bind.
  - apply within_query. intros a r. cbn. unfold of_tables. repeat split; congruence.
  - intros [ids o]. destruct o; cbn; auto. unfold of_tables. split; [congruence|auto].
Qed.
Lemma within_indexes cat s t : within of_tables (p_indexes cat s t).
Proof.
  unfold p_indexes. apply within_bind.
  - apply within_query. intros a r. cbn. unfold of_tables. repeat split; congruence.
  - intros x. exact I.
Qed.
Lemma within_attach_cols tfqn ix names : forall pk, within of_tables (p_attach_cols tfqn ix names pk).
Proof.
  induction names as [|cn r IH]; intro pk; cbn [p_attach_cols within]; auto. unfold of_tables at 1. split; [congruence|].
  intros [id|]; cbn [within]; auto. unfold of_tables at 1. split; [congruence|auto].
Qed.
Lemma within_attach tfqn ii : forall pk, within of_tables (p_attach tfqn ii pk).
Proof.
  induction ii as [|ix r IH]; intro pk; cbn [p_attach within]; auto.
  apply within_bind; [apply within_attach_cols|]. intros [pk'|e|]; cbn [within]; auto.
Qed.
Lemma within_list_tables cat ss ts : within of_tables (p_list_tables cat ss ts).
Proof.
  unfold p_list_tables. apply within_bind; [|intro; exact I]. apply within_query. intros a r. unfold p_table_row.
  destruct (negb _); [exact I|]. cbv zeta. apply within_bind; [apply within_columns|].
  intros [cc|e|]; [|exact I|exact I]. apply within_bind; [apply within_indexes|].
  intros [ii|e|]; [|exact I|exact I]. apply within_bind; [apply within_attach|].
  intros [pk|e|]; [|exact I|exact I]. cbn. unfold of_tables. split; [congruence|auto].
Qed.
Lemma within_list_views cat ss ts v : within of_tables (p_list_views cat ss ts v).
Proof.
  unfold p_list_views. apply within_bind.
  - apply within_query. intros a r. unfold p_view_row. destruct (negb _); [exact I|]. cbn. unfold of_tables. repeat split; congruence.
  - intros [m o]. destruct o; cbn; auto. unfold of_tables. split; [congruence|auto].
Qed.
Lemma within_list_fks cat ss ts : within of_keys (p_list_fks cat ss ts).
Proof.
  unfold p_list_fks. apply within_bind; [|intro; exact I]. apply within_query. intros a r. unfold p_fk_row.
  destruct (negb _); [exact I|]. cbn. unfold of_keys. auto.
Qed.
Definition touches_of (q : request) : mid -> bool -> Prop := match q with CallKeys _ _ => of_keys | _ => of_tables end.
Lemma within_request cat q : within (touches_of q) (p_request cat q).
Proof.
  destruct q; cbn [p_request touches_of]; (apply within_bind; [|intro; exact I]).
  - apply within_list_tables.
  - apply within_list_views.
  - apply within_list_fks.
Qed.

(** ** Memories that agree on what a program touches *)
Definition agree (P : mid -> bool -> Prop) (a b : prov) : Prop :=
  (forall w, P MHeap w -> p_heap a = p_heap b) /\ (forall w, P MTabs w -> p_tabs a = p_tabs b)
  /\ (forall w, P MCols w -> p_cols a = p_cols b) /\ (forall w, P MFks w -> p_fks a = p_fks b).
Lemma agree_access {R} P (p : prog R) a b : within P p -> agree P a b ->
  snd (paccess p a) = snd (paccess p b) /\ agree P (fst (paccess p a)) (fst (paccess p b)).
Proof.
  intros W (H1 & H2 & H3 & H4).
  destruct p; cbn [within] in W; cbn [paccess fst snd]; try destruct W as [W0 W1];
    try (specialize (H1 _ W0) as E1); try (specialize (H2 _ W0) as E2); try (specialize (H3 _ W0) as E3); try (specialize (H4 _ W0) as E4);
    unfold agree, set_heap, put_table; cbn [p_heap p_tabs p_cols p_fks]; rewrite ?E1, ?E2, ?E3, ?E4; repeat split; auto; intros w Hw; eauto; f_equal; eauto.
Qed.
Lemma alone_access {R} (p : prog R) st : prun_alone p st = prun_alone (snd (paccess p st)) (fst (paccess p st)).
Proof. destruct p; reflexivity. Qed.
Lemma within_access {R} P (p : prog R) st : within P p -> within P (snd (paccess p st)).
Proof. destruct p; cbn [within paccess snd]; intuition auto. Qed.
Lemma agree_run {R} P (p : prog R) : forall a b, within P p -> agree P a b -> snd (prun_alone p a) = snd (prun_alone p b).
Proof.
  induction p; intros a b W HA; pose proof (agree_access P _ a b W HA) as [E1 E2];
    rewrite (alone_access _ a), (alone_access _ b); cbn [paccess fst snd] in *; cbn [within] in W; try destruct W as [W0 W1].
  - reflexivity.
  - rewrite E1 in *. apply H; auto.
  - apply IHp; auto.
  - rewrite E1 in *. apply H; auto.
  - apply IHp; auto.
  - rewrite E1 in *. apply H; auto.
  - apply IHp; auto.
  - apply IHp; auto.
  - apply IHp; auto.
Qed.
(** An access of another program leaves alone what this one touches. *)
Lemma access_agree {R} (P Q : mid -> bool -> Prop) (p : prog R) st : within Q p -> (forall m w, Q m true -> P m w -> False) -> agree P st (fst (paccess p st)).
Proof.
  intros W H. destruct p; cbn [within] in W; try destruct W as [W0 W1]; cbn [paccess fst]; unfold agree, set_heap, put_table; cbn [p_heap p_tabs p_cols p_fks];
    repeat split; auto; intros w0 Hw; exfalso; eapply H; eauto.
Qed.
Lemma stores_within {R} P (p : prog R) m : within P p -> stores p = Some m -> P m true.
Proof. destruct p; cbn [within stores]; intros W E; inversion E; subst; apply W. Qed.
Lemma looks_within {R} P (p : prog R) m : within P p -> looks p = Some m -> P m false.
Proof. destruct p; cbn [within looks]; intros W E; inversion E; subst; apply W. Qed.

(** ** Goroutines whose accesses do not meet *)
Lemma set_gor_same gs i g : (i < length gs)%nat -> nth_error (set_gor gs i g) i = Some g.
Proof.
  intro H. unfold set_gor. rewrite nth_error_app2; rewrite firstn_length_le by lia; [|lia]. rewrite Nat.sub_diag. reflexivity.
Qed.
Lemma nth_error_skip {A} (l : list A) : forall n k, nth_error (skipn n l) k = nth_error l (n + k).
Proof. induction l as [|x l IH]; intros [|n] k; cbn [skipn Nat.add]; auto. destruct k; reflexivity. apply IH. Qed.
Lemma nth_error_first {A} (l : list A) : forall n k, (k < n)%nat -> nth_error (firstn n l) k = nth_error l k.
Proof. induction l as [|x l IH]; intros [|n] k H; cbn [firstn]; auto; try lia. destruct k; cbn [nth_error]; auto. apply IH. lia. Qed.
Lemma set_gor_other gs i j g : (i < length gs)%nat -> i <> j -> nth_error (set_gor gs i g) j = nth_error gs j.
Proof.
  intros H N. unfold set_gor. destruct (Nat.lt_ge_cases j i) as [L|L].
  - rewrite nth_error_app1 by (rewrite firstn_length_le; lia). apply nth_error_first. exact L.
  - rewrite nth_error_app2; rewrite firstn_length_le by lia; [|lia].
    replace (j - i)%nat with (S (j - S i)) by lia. cbn [nth_error]. rewrite nth_error_skip. f_equal. lia.
Qed.
Lemma mid_eq_iff a b : mid_eq a b = true <-> a = b.
Proof. destruct a, b; cbn; split; congruence. Qed.

Record spec := mkS { s_prov : nat; s_fp : mid -> bool -> Prop; s_ans : answer }.
Definition apart (ss : list spec) : Prop :=
  forall i j s s', nth_error ss i = Some s -> nth_error ss j = Some s' -> i <> j -> s_prov s = s_prov s' ->
  forall m w, s_fp s m true -> s_fp s' m w -> False.
Record inv (ss : list spec) (w : world) : Prop := mkInv {
  i_len : length (w_gs w) = length ss;
  i_gor : forall i g s, nth_error (w_gs w) i = Some g -> nth_error ss i = Some s ->
     g_prov g = s_prov s /\ within (s_fp s) (g_prog g) /\ snd (prun_alone (g_prog g) (w_mem w (g_prov g))) = s_ans s;
  i_flag : forall pv m, w_flag w pv m = true -> exists i g, nth_error (w_gs w) i = Some g /\ g_prov g = pv /\ g_mid g = true /\ stores (g_prog g) = Some m }.

Lemma nth_some {A B} (l : list A) (r : list B) i x : length l = length r -> nth_error l i = Some x -> exists y, nth_error r i = Some y.
Proof.
  intros E H. destruct (nth_error r i) as [y|] eqn:F; eauto. apply nth_error_None in F.
  assert (i < length l)%nat by (apply nth_error_Some; congruence). lia.
Qed.

(** A finished access. *)
Lemma inv_finish ss w i g fl : apart ss -> inv ss w -> nth_error (w_gs w) i = Some g ->
  (forall pv m, fl pv m = true -> exists j h, j <> i /\ nth_error (w_gs w) j = Some h /\ g_prov h = pv /\ g_mid h = true /\ stores (g_prog h) = Some m) ->
  inv ss (mkW (upd1 (w_mem w) (g_prov g) (fst (paccess (g_prog g) (w_mem w (g_prov g))))) fl
              (set_gor (w_gs w) i (mkG (g_prov g) false (snd (paccess (g_prog g) (w_mem w (g_prov g))))))).
Proof.
  intros AP [IL IG IF] E HF. assert (Li : (i < length (w_gs w))%nat) by (apply nth_error_Some; congruence).
  destruct (nth_some _ _ _ _ IL E) as [s Es]. destruct (IG _ _ _ E Es) as (P1 & P2 & P3).
  constructor; cbn [w_mem w_flag w_gs].
  - rewrite <- IL. unfold set_gor. rewrite app_length. cbn [length]. rewrite firstn_length_le, skipn_length by lia. lia.
  - intros j h sj Eh Esj. destruct (Nat.eq_dec i j) as [->|N].
    + rewrite set_gor_same in Eh by exact Li. inversion Eh; subst h. cbn [g_prov g_prog].
      assert (sj = s) by congruence. subst sj. split; [exact P1|]. split; [apply within_access; exact P2|].
      unfold upd1. rewrite Nat.eqb_refl. rewrite <- alone_access. exact P3.
    + rewrite set_gor_other in Eh by auto. destruct (IG _ _ _ Eh Esj) as (Q1 & Q2 & Q3). split; [exact Q1|]. split; [exact Q2|].
      unfold upd1. destruct (g_prov h =? g_prov g)%nat eqn:EP; [|exact Q3]. apply Nat.eqb_eq in EP.
      rewrite <- Q3, EP. symmetry. apply (agree_run (s_fp sj)); [exact Q2|].
      apply (access_agree _ (s_fp s)); [exact P2|]. intros m w0 A1 A2. eapply (AP i j s sj); eauto. congruence.
  - intros pv m Hm. destruct (HF _ _ Hm) as (j & h & N & Eh & R). exists j, h. rewrite set_gor_other by auto. auto.
Qed.

Lemma inv_step ss w i : apart ss -> inv ss w -> exists w', wstep w i = Some w' /\ inv ss w'.
Proof.
  intros AP IV. unfold wstep. destruct (nth_error (w_gs w) i) as [g|] eqn:E; [|eauto].
  destruct IV as [IL IG IF] eqn:EI. clear EI.
  assert (Li : (i < length (w_gs w))%nat) by (apply nth_error_Some; congruence).
  destruct (nth_some _ _ _ _ IL E) as [s Es]. destruct (IG _ _ _ E Es) as (P1 & P2 & P3).
  assert (NF : forall m k, (stores (g_prog g) = Some m /\ k = true /\ g_mid g = false) \/ (looks (g_prog g) = Some m /\ stores (g_prog g) = None) -> w_flag w (g_prov g) m = true -> False).
  { intros m k HK HW. destruct (IF _ _ HW) as (j & h & Eh & Ph & Mh & Sh).
    destruct (nth_some _ _ _ _ IL Eh) as [sj Esj]. destruct (IG _ _ _ Eh Esj) as (Q1 & Q2 & Q3).
    assert (N : j <> i). { intros ->. assert (h = g) by congruence. subst h. destruct HK as [(?&?&?)|(?&?)]; congruence. }
    pose proof (stores_within _ _ _ Q2 Sh) as W1.
    destruct HK as [(A&B&C)|(A&B)].
    - pose proof (stores_within _ _ _ P2 A). eapply (AP j i sj s); eauto. congruence.
    - pose proof (looks_within _ _ _ P2 A). eapply (AP j i sj s); eauto. congruence. }
  assert (FIN : forall fl, (forall pv m, fl pv m = true -> exists j h, j <> i /\ nth_error (w_gs w) j = Some h /\ g_prov h = pv /\ g_mid h = true /\ stores (g_prog h) = Some m) ->
    inv ss (mkW (upd1 (w_mem w) (g_prov g) (fst (paccess (g_prog g) (w_mem w (g_prov g))))) fl
              (set_gor (w_gs w) i (mkG (g_prov g) false (snd (paccess (g_prog g) (w_mem w (g_prov g)))))))).
  { intros fl Hfl. apply inv_finish; auto. }
  assert (KEEP : stores (g_prog g) = None -> forall pv m, w_flag w pv m = true -> exists j h, j <> i /\ nth_error (w_gs w) j = Some h /\ g_prov h = pv /\ g_mid h = true /\ stores (g_prog h) = Some m).
  { intros HN pv m HW. destruct (IF _ _ HW) as (j & h & Eh & Ph & Mh & Sh). exists j, h. split; auto.
    intros ->. assert (h = g) by congruence. subst h. congruence. }
  destruct (paccess (g_prog g) (w_mem w (g_prov g))) as [st' k] eqn:EA. cbn [fst snd] in *.
  destruct (stores (g_prog g)) as [m|] eqn:ES.
  - destruct (g_mid g) eqn:EM.
    + eexists. split; [reflexivity|]. apply FIN. intros pv m' HW. unfold upd2 in HW.
      destruct ((pv =? g_prov g)%nat && mid_eq m' m) eqn:EB; [discriminate|].
      destruct (IF _ _ HW) as (j & h & Eh & Ph & Mh & Sh). exists j, h. split; auto.
      intros ->. assert (h = g) by congruence. subst h. assert (m' = m) by congruence. subst m'. rewrite Ph, Nat.eqb_refl in EB.
      assert (X : mid_eq m m = true) by (apply mid_eq_iff; reflexivity). rewrite X in EB. discriminate.
    + destruct (w_flag w (g_prov g) m) eqn:EW; [exfalso; eapply (NF m true); auto|].
      eexists. split; [reflexivity|]. constructor; cbn [w_mem w_flag w_gs].
      * rewrite <- IL. unfold set_gor. rewrite app_length. cbn [length]. rewrite firstn_length_le, skipn_length by lia. lia.
      * intros j h sj Eh Esj. destruct (Nat.eq_dec i j) as [->|N].
        -- rewrite set_gor_same in Eh by exact Li. inversion Eh; subst h. cbn [g_prov g_prog]. assert (sj = s) by congruence. subst sj. auto.
        -- rewrite set_gor_other in Eh by auto. apply (IG j); auto.
      * intros pv m' HW. unfold upd2 in HW. destruct ((pv =? g_prov g)%nat && mid_eq m' m) eqn:EB.
        -- apply andb_true_iff in EB. destruct EB as [B1 B2]. apply Nat.eqb_eq in B1. apply mid_eq_iff in B2. subst.
           exists i, (mkG (g_prov g) true (g_prog g)). rewrite set_gor_same by exact Li. auto.
        -- destruct (IF _ _ HW) as (j & h & Eh & Ph & Mh & Sh). exists j, h. rewrite set_gor_other; auto.
           intros ->. assert (h = g) by congruence. subst h. congruence.
  - destruct (looks (g_prog g)) as [m|] eqn:EK.
    + destruct (w_flag w (g_prov g) m) eqn:EW; [exfalso; eapply (NF m false); auto|]. eexists. split; [reflexivity|]. apply FIN. auto.
    + eexists. split; [reflexivity|]. apply FIN. auto.
Qed.
Lemma inv_run ss : apart ss -> forall sched w, inv ss w -> exists w', wrun w sched = Some w' /\ inv ss w'.
Proof.
  intros AP. induction sched as [|i r IH]; intros w IV; cbn [wrun]; eauto.
  destruct (inv_step ss w i AP IV) as (w' & -> & IV'). auto.
Qed.
Definition specs_of (cat : catalog) (mem : nat -> prov) (calls : list (nat * request)) : list spec :=
  map (fun x => mkS (fst x) (touches_of (snd x)) (alone cat (snd x) (mem (fst x)))) calls.
Lemma inv_start cat mem calls : inv (specs_of cat mem calls) (wstart cat mem calls).
Proof.
  constructor; cbn [wstart w_mem w_flag w_gs].
  - unfold specs_of. rewrite !map_length. reflexivity.
  - intros i g s E1 E2. unfold specs_of in E2. rewrite nth_error_map in E1, E2. destruct (nth_error calls i) as [[pv q]|]; [|discriminate].
    inversion E1; inversion E2; subst. cbn [g_prov s_prov s_fp g_prog s_ans fst snd]. split; auto. split; [apply within_request|]. apply run_request.
  - discriminate.
Qed.
(** Calls that share a provider only when one is ListForeignKeys and the other is not. *)
Definition is_keys (q : request) : bool := match q with CallKeys _ _ => true | _ => false end.
Lemma separate cat mem calls :
  (forall i j pv q q', nth_error calls i = Some (pv, q) -> nth_error calls j = Some (pv, q') -> i <> j -> is_keys q <> is_keys q') ->
  apart (specs_of cat mem calls).
Proof.
  intros H i j s s' E1 E2 N EP m w A B. unfold specs_of in E1, E2. rewrite nth_error_map in E1, E2.
  destruct (nth_error calls i) as [[pv q]|] eqn:F1; [|discriminate]. destruct (nth_error calls j) as [[pv' q']|] eqn:F2; [|discriminate].
  inversion E1; inversion E2; subst. cbn [s_prov s_fp fst snd] in *. subst pv'. specialize (H _ _ _ _ _ F1 F2 N).
  destruct q, q'; cbn [is_keys touches_of] in *; unfold of_tables, of_keys in *; congruence.
Qed.
Lemma separate_runs cat mem calls sched :
  (forall i j pv q q', nth_error calls i = Some (pv, q) -> nth_error calls j = Some (pv, q') -> i <> j -> is_keys q <> is_keys q') ->
  exists w, wrun (wstart cat mem calls) sched = Some w
  /\ forall i pv q a, nth_error calls i = Some (pv, q) -> returned w i = Some a -> a = alone cat q (mem pv).
Proof.
  intros H. destruct (inv_run _ (separate cat mem calls H) sched _ (inv_start cat mem calls)) as (w & E & [IL IG IF]).
  exists w. split; [exact E|]. intros i pv q a F R. unfold returned in R.
  destruct (nth_error (w_gs w) i) as [[gp gm gq]|] eqn:EG; [|discriminate].
  destruct gq; inversion R; subst.
  assert (Es : nth_error (specs_of cat mem calls) i = Some (mkS pv (touches_of q) (alone cat q (mem pv)))) by (unfold specs_of; rewrite nth_error_map, F; reflexivity).
  destruct (IG _ _ _ EG Es) as (_ & _ & X). exact X.
Qed.

(** ** Two listings that both store into the same map *)
Definition begins_col {R} (p : prog R) : Prop := exists c k, p = PNew c k /\ forall id, exists n j k', k id = PPut n j k'.
Definition begins_fk {R} (p : prog R) : Prop := exists n f k, p = PFk n f k.
Lemma begins_col_bind {A B} (p : prog A) (f : A -> prog B) : begins_col p -> begins_col (pbind p f).
Proof.
  intros (c & k & -> & H). cbn [pbind]. exists c, (fun i => pbind (k i) f). split; [reflexivity|].
  intro id. destruct (H id) as (n & j & k' & E). exists n, j, (pbind k' f). rewrite E. reflexivity.
Qed.
Lemma begins_fk_bind {A B} (p : prog A) (f : A -> prog B) : begins_fk p -> begins_fk (pbind p f).
Proof. intros (n & v & k & ->). exists n, v, (pbind k f). reflexivity. Qed.
Lemma each_begins {S R} (Pr : prog (S * outcome unit) -> Prop) (f : S -> R -> prog (S * outcome unit)) (want : R -> bool) e :
  (forall p g, Pr p -> Pr (pbind p g)) ->
  (forall a r, want r = false -> f a r = PRet (a, ROk tt)) ->
  forall rows, (forall a r, In r rows -> want r = true -> Pr (f a r)) -> forall a, (exists r, In r rows /\ want r = true) ->
  Pr (p_query f a (inl (mkSrc (map SRow rows) e))).
Proof.
  intros Hb Hn rows Hw a (r & Hin & Hr). cbn [p_query]. apply Hb. cbn [src_rows]. clear e.
  revert a. induction rows as [|x rest IH]; intro a; [destruct Hin|]. cbn [map p_each]. destruct (want x) eqn:E.
  - apply Hb. apply Hw; cbn; auto.
  - rewrite (Hn a x E). cbn [pbind]. destruct Hin as [->|Hin]; [congruence|]. apply IH; auto. intros. apply Hw; cbn; auto.
Qed.
Lemma columns_begin cat s t c more e : cat_columns cat s t = inl (mkSrc (SRow c :: more) e) -> begins_col (p_columns cat s t).
Proof.
  intro H. unfold p_columns. apply begins_col_bind. rewrite H. cbn [p_query src_rows p_each].
  apply begins_col_bind. apply begins_col_bind. unfold p_column_row. cbv zeta. eexists. eexists. split; [reflexivity|]. intro id. cbn. eauto.
Qed.
Lemma tables_begin cat ss ts rows e :
  cat_tables cat = inl (mkSrc (map SRow rows) e) ->
  (exists r, In r rows /\ wanted ss ts (tr_schema r) (tr_name r) = true) ->
  (forall r, In r rows -> wanted ss ts (tr_schema r) (tr_name r) = true -> exists c more e', cat_columns cat (tr_schema r) (tr_name r) = inl (mkSrc (SRow c :: more) e')) ->
  begins_col (p_request cat (CallTables ss ts)).
Proof.
  intros H1 H2 H3. cbn [p_request]. apply begins_col_bind. unfold p_list_tables. apply begins_col_bind. rewrite H1.
  apply (each_begins begins_col _ (fun r => wanted ss ts (tr_schema r) (tr_name r))); auto.
  - intros. apply begins_col_bind. assumption.
  - intros a r Hr. unfold p_table_row. rewrite Hr. reflexivity.
  - intros a r Hin Hr. unfold p_table_row. rewrite Hr. cbn [negb]. cbv zeta. apply begins_col_bind.
    destruct (H3 r Hin Hr) as (c & more & e' & E). eapply columns_begin; eauto.
Qed.
Lemma views_begin cat ss ts v rows e :
  cat_views cat = inl (mkSrc (map SRow rows) e) ->
  (exists r, In r rows /\ wanted ss ts (vr_schema r) (vr_table r) = true) ->
  begins_col (p_request cat (CallViews ss ts v)).
Proof.
  intros H1 H2. cbn [p_request]. apply begins_col_bind. unfold p_list_views. apply begins_col_bind. rewrite H1.
  apply (each_begins begins_col _ (fun r => wanted ss ts (vr_schema r) (vr_table r))); auto.
  - intros. apply begins_col_bind. assumption.
  - intros a r Hr. unfold p_view_row. rewrite Hr. reflexivity.
  - intros a r Hin Hr. unfold p_view_row. rewrite Hr. cbn [negb]. cbv zeta. eexists. eexists. split; [reflexivity|]. intro id. cbn. eauto.
Qed.
Lemma keys_begin cat ss ts rows e :
  cat_fks cat = inl (mkSrc (map SRow rows) e) ->
  (exists r, In r rows /\ wanted ss ts (k_schema r) (k_table r) = true) ->
  begins_fk (p_request cat (CallKeys ss ts)).
Proof.
  intros H1 H2. cbn [p_request]. apply begins_fk_bind. unfold p_list_fks. apply begins_fk_bind. rewrite H1.
  apply (each_begins begins_fk _ (fun r => wanted ss ts (k_schema r) (k_table r))); auto.
  - intros. apply begins_fk_bind. assumption.
  - intros a r Hr. unfold p_fk_row. rewrite Hr. reflexivity.
  - intros a r Hin Hr. unfold p_fk_row. rewrite Hr. cbn [negb]. eexists. eexists. eexists. reflexivity.
Qed.

(** Single steps. *)
Lemma step_plain w i pv c k : nth_error (w_gs w) i = Some (mkG pv false (PNew c k)) ->
  exists mem, wstep w i = Some (mkW mem (w_flag w) (set_gor (w_gs w) i (mkG pv false (k (length (p_heap (w_mem w pv))))))).
Proof. intro E. unfold wstep. rewrite E. cbn. eauto. Qed.
Lemma step_begin w i pv p m : nth_error (w_gs w) i = Some (mkG pv false p) -> stores p = Some m -> w_flag w pv m = false ->
  wstep w i = Some (mkW (w_mem w) (upd2 (w_flag w) pv m true) (set_gor (w_gs w) i (mkG pv true p))).
Proof. intros E S1 F. unfold wstep. rewrite E. cbn [g_prov g_prog g_mid]. destruct (paccess p (w_mem w pv)). rewrite S1, F. reflexivity. Qed.
Lemma step_fatal w i pv p m : nth_error (w_gs w) i = Some (mkG pv false p) -> stores p = Some m -> w_flag w pv m = true -> wstep w i = None.
Proof. intros E S1 F. unfold wstep. rewrite E. cbn [g_prov g_prog g_mid]. destruct (paccess p (w_mem w pv)). rewrite S1, F. reflexivity. Qed.
Lemma set_gor_len gs i g : (i < length gs)%nat -> length (set_gor gs i g) = length gs.
Proof. intro H. unfold set_gor. rewrite app_length. cbn [length]. rewrite firstn_length_le, skipn_length by lia. lia. Qed.
Lemma start_nth cat mem calls i pv q : nth_error calls i = Some (pv, q) ->
  nth_error (w_gs (wstart cat mem calls)) i = Some (mkG pv false (p_request cat q)).
Proof. intro E. cbn [wstart w_gs]. rewrite nth_error_map, E. reflexivity. Qed.
Lemma upd2_same f pv m : upd2 f pv m true pv m = true.
Proof. unfold upd2. rewrite Nat.eqb_refl. replace (mid_eq m m) with true by (symmetry; apply mid_eq_iff; reflexivity). reflexivity. Qed.
Lemma crash_keys cat mem calls i j pv q q' : i <> j ->
  nth_error calls i = Some (pv, q) -> nth_error calls j = Some (pv, q') ->
  begins_fk (p_request cat q) -> begins_fk (p_request cat q') -> wrun (wstart cat mem calls) [i; j] = None.
Proof.
  intros N E1 E2 (n & f & k & P1) (n' & f' & k' & P2).
  pose proof (start_nth cat mem calls _ _ _ E1) as G1. pose proof (start_nth cat mem calls _ _ _ E2) as G2. rewrite P1 in G1. rewrite P2 in G2.
  assert (L1 : (i < length (w_gs (wstart cat mem calls)))%nat) by (apply nth_error_Some; congruence).
  cbn [wrun]. rewrite (step_begin _ _ _ _ MFks G1) by reflexivity.
  erewrite (step_fatal _ j pv _ MFks); [reflexivity|cbn [w_gs]; rewrite set_gor_other by auto; exact G2|reflexivity|cbn [w_flag]; apply upd2_same].
Qed.
Lemma crash_cols cat mem calls i j pv q q' : i <> j ->
  nth_error calls i = Some (pv, q) -> nth_error calls j = Some (pv, q') ->
  begins_col (p_request cat q) -> begins_col (p_request cat q') -> wrun (wstart cat mem calls) [i; i; j; j] = None.
Proof.
  intros N E1 E2 (c & k & P1 & K1) (c' & k' & P2 & K2).
  pose proof (start_nth cat mem calls _ _ _ E1) as G1. pose proof (start_nth cat mem calls _ _ _ E2) as G2. rewrite P1 in G1. rewrite P2 in G2.
  set (w0 := wstart cat mem calls) in *.
  assert (L1 : (i < length (w_gs w0))%nat) by (apply nth_error_Some; congruence).
  assert (L2 : (j < length (w_gs w0))%nat) by (apply nth_error_Some; congruence).
  cbn [wrun]. destruct (step_plain _ _ _ _ _ G1) as (mem1 & ->).
  destruct (K1 (length (p_heap (w_mem w0 pv)))) as (n1 & j1 & r1 & R1). rewrite R1.
  rewrite (step_begin _ i pv (PPut n1 j1 r1) MCols); [|cbn [w_gs]; apply set_gor_same; exact L1|reflexivity|reflexivity].
  cbn [w_gs w_flag w_mem].
  match goal with |- match wstep ?w j with _ => _ end = _ => set (w2 := w) end.
  assert (G3 : nth_error (w_gs w2) j = Some (mkG pv false (PNew c' k'))).
  { unfold w2. cbn [w_gs]. rewrite !set_gor_other; rewrite ?set_gor_len by exact L1; auto. }
  destruct (step_plain _ _ _ _ _ G3) as (mem3 & ->).
  destruct (K2 (length (p_heap (w_mem w2 pv)))) as (n2 & j2 & r2 & R2). rewrite R2.
  rewrite (step_fatal _ j pv (PPut n2 j2 r2) MCols); [reflexivity| |reflexivity|].
  - cbn [w_gs]. apply set_gor_same. unfold w2. cbn [w_gs]. rewrite !set_gor_len; rewrite ?set_gor_len; auto.
  - cbn [w_flag]. unfold w2. cbn [w_flag]. apply upd2_same.
Qed.

(** ** Every call can be run to its end *)
Lemma one_finishes ss : apart ss -> forall i w, inv ss w -> (i < length (w_gs w))%nat ->
  exists sched w', wrun w sched = Some w' /\ inv ss w' /\ (exists a, returned w' i = Some a)
    /\ forall j, j <> i -> nth_error (w_gs w') j = nth_error (w_gs w) j.
Proof.
  intros AP i.
  assert (G : forall (p : prog answer) w pv b, inv ss w -> nth_error (w_gs w) i = Some (mkG pv b p) ->
    exists sched w', wrun w sched = Some w' /\ inv ss w' /\ (exists a, returned w' i = Some a)
    /\ forall j, j <> i -> nth_error (w_gs w') j = nth_error (w_gs w) j).
  { assert (ST : forall w w' pv b p b', inv ss w -> nth_error (w_gs w) i = Some (mkG pv b p) -> wstep w i = Some w' ->
       (stores p = None \/ b = true) -> b' = false ->
       nth_error (w_gs w') i = Some (mkG pv b' (snd (paccess p (w_mem w pv)))) /\ forall j, j <> i -> nth_error (w_gs w') j = nth_error (w_gs w) j).
    { intros w w' pv b p b' IV E ES HB ->. assert (Li : (i < length (w_gs w))%nat) by (apply nth_error_Some; congruence).
      unfold wstep in ES. rewrite E in ES. cbn [g_prov g_prog g_mid] in ES.
      destruct (paccess p (w_mem w pv)) as [st' k] eqn:EA. cbn [fst snd] in *.
      destruct (stores p) as [m|].
      - destruct HB as [HB|HB]; [discriminate|]. subst b. inversion ES; subst w'. cbn [w_gs].
        split; [apply set_gor_same; exact Li|]. intros. apply set_gor_other; auto.
      - destruct (looks p) as [m|]; [destruct (w_flag w pv m); [discriminate|]|]; inversion ES; subst w'; cbn [w_gs];
          (split; [apply set_gor_same; exact Li|intros; apply set_gor_other; auto]). }
    assert (MOVE : forall p w pv b, inv ss w -> nth_error (w_gs w) i = Some (mkG pv b p) ->
       exists sched w' st, wrun w sched = Some w' /\ inv ss w' /\ nth_error (w_gs w') i = Some (mkG pv false (snd (paccess p st)))
         /\ forall j, j <> i -> nth_error (w_gs w') j = nth_error (w_gs w) j).
    { intros p w pv b IV E. destruct (inv_step ss w i AP IV) as (w1 & E1 & IV1).
      destruct (stores p) as [m|] eqn:ES; [destruct b|].
      - destruct (ST _ _ _ _ _ false IV E E1 (or_intror eq_refl) eq_refl) as [A B]. exists [i], w1, (w_mem w pv). cbn [wrun]. rewrite E1. auto.
      - destruct (inv_step ss w1 i AP IV1) as (w2 & E2 & IV2).
        assert (Li : (i < length (w_gs w))%nat) by (apply nth_error_Some; congruence).
        assert (X : nth_error (w_gs w1) i = Some (mkG pv true p) /\ forall j, j <> i -> nth_error (w_gs w1) j = nth_error (w_gs w) j).
        { unfold wstep in E1. rewrite E in E1. cbn [g_prov g_prog g_mid] in E1. destruct (paccess p (w_mem w pv)). rewrite ES in E1.
          destruct (w_flag w pv m); [discriminate|]. inversion E1; subst w1. cbn [w_gs]. split; [apply set_gor_same; exact Li|]. intros; apply set_gor_other; auto. }
        destruct X as [X1 X2]. destruct (ST _ _ _ _ _ false IV1 X1 E2 (or_intror eq_refl) eq_refl) as [A B].
        exists [i; i], w2, (w_mem w1 pv). cbn [wrun]. rewrite E1, E2. split; [reflexivity|]. split; [exact IV2|]. split; [exact A|]. intros j N. rewrite B by exact N. apply X2. exact N.
      - destruct (ST _ _ _ _ _ false IV E E1 (or_introl ES) eq_refl) as [A B]. exists [i], w1, (w_mem w pv). cbn [wrun]. rewrite E1. auto. }
    assert (JOIN : forall w s1 w1 s2 w2, wrun w s1 = Some w1 -> wrun w1 s2 = Some w2 -> wrun w (s1 ++ s2) = Some w2).
    { intros w s1. revert w. induction s1 as [|x s1 IH]; intros w w1 s2 w2 A B; cbn [wrun app] in *; [congruence|].
      destruct (wstep w x); [eauto|discriminate]. }
    induction p; intros w pv b IV E;
      try (destruct (MOVE _ w pv b IV E) as (s1 & w1 & st & R1 & IV1 & N1 & O1); cbn [paccess snd] in N1;
           first [destruct (H _ w1 pv false IV1 N1) as (s2 & w2 & R2 & IV2 & A2 & O2) | destruct (IHp w1 pv false IV1 N1) as (s2 & w2 & R2 & IV2 & A2 & O2)];
           exists (s1 ++ s2), w2; split; [eapply JOIN; eauto|]; split; [exact IV2|]; split; [exact A2|]; intros j N; rewrite O2 by exact N; apply O1; exact N).
    exists [], w. split; [reflexivity|]. split; [exact IV|]. split; [|auto]. exists r. unfold returned. rewrite E. reflexivity. }
  intros w IV Li. destruct (nth_error (w_gs w) i) as [[pv b p]|] eqn:E; [|apply nth_error_None in E; lia].
  eapply G; eauto.
Qed.
Lemma all_finish ss : apart ss -> forall w, inv ss w -> exists sched w', wrun w sched = Some w' /\ forall i, (i < length ss)%nat -> exists a, returned w' i = Some a.
Proof.
  intros AP.
  assert (JOIN : forall s1 w w1 s2 w2, wrun w s1 = Some w1 -> wrun w1 s2 = Some w2 -> wrun w (s1 ++ s2) = Some w2).
  { induction s1 as [|x s1 IH]; intros w w1 s2 w2 A B; cbn [wrun app] in *; [congruence|]. destruct (wstep w x); [eauto|discriminate]. }
  assert (G : forall n w, (n <= length ss)%nat -> inv ss w -> exists sched w', wrun w sched = Some w' /\ inv ss w' /\ forall i, (i < n)%nat -> exists a, returned w' i = Some a).
  { induction n as [|n IH]; intros w Hn IV; [exists [], w; split; [reflexivity|]; split; [exact IV|lia]|].
    destruct (IH w ltac:(lia) IV) as (s1 & w1 & R1 & IV1 & A1).
    assert (L : (n < length (w_gs w1))%nat) by (rewrite (i_len _ _ IV1); lia).
    destruct (one_finishes ss AP n w1 IV1 L) as (s2 & w2 & R2 & IV2 & A2 & O2).
    exists (s1 ++ s2), w2. split; [eapply JOIN; eauto|]. split; [exact IV2|]. intros i Hi.
    destruct (Nat.eq_dec i n) as [->|N]; [exact A2|]. destruct (A1 i ltac:(lia)) as (a & Ha). exists a. unfold returned in *. rewrite O2 by exact N. exact Ha. }
  intros w IV. destruct (G (length ss) w (le_n _) IV) as (s & w' & A & _ & C). exists s, w'. auto.
Qed.

(** ** Calls that find nothing touch no map *)
Definition nothing (cat : catalog) (q : request) : bool :=
  match q with
  | CallTables ss ts => match cat_tables cat with inr _ => true | inl src => forallb (fun x => match x with SRow r => negb (wanted ss ts (tr_schema r) (tr_name r)) | _ => true end) (src_rows src) end
  | CallViews _ _ _ => false
  | CallKeys ss ts => match cat_fks cat with inr _ => true | inl src => forallb (fun x => match x with SRow k => negb (wanted ss ts (k_schema k) (k_table k)) | _ => true end) (src_rows src) end
  end.
Definition no_touch (m : mid) (w : bool) : Prop := False.
Definition touches2 (cat : catalog) (q : request) : mid -> bool -> Prop := if nothing cat q then no_touch else touches_of q.
Lemma within_each_skip {S R} (f : S -> R -> prog (S * outcome unit)) (skip : R -> bool) :
  (forall a r, skip r = true -> f a r = PRet (a, ROk tt)) -> forall rows, forallb (fun x => match x with SRow r => skip r | _ => true end) rows = true -> forall a, within no_touch (p_each f a rows).
Proof.
  intros H. induction rows as [|[r|e|] rest IH]; intros F a; cbn [p_each within]; auto.
  cbn [forallb] in F. apply andb_prop in F as [F1 F2]. rewrite (H a r F1). cbn [pbind]. apply IH, F2.
Qed.
Lemma within2_request cat q : within (touches2 cat q) (p_request cat q).
Proof.
  unfold touches2. destruct (nothing cat q) eqn:N; [|apply within_request].
  destruct q as [ss ts|ss ts v|ss ts]; cbn [nothing] in N; [|discriminate|]; cbn [p_request]; (apply within_bind; [|intro; exact I]).
  - unfold p_list_tables. apply within_bind; [|intro; exact I]. unfold p_query. destruct (cat_tables cat) as [src|e]; [|exact I].
    apply within_bind; [|intros [a [u|e|]]; exact I]. apply (within_each_skip _ (fun r => negb (wanted ss ts (tr_schema r) (tr_name r)))); [|exact N].
    intros a r E. unfold p_table_row. rewrite E. reflexivity.
  - unfold p_list_fks. apply within_bind; [|intro; exact I]. unfold p_query. destruct (cat_fks cat) as [src|e]; [|exact I].
    apply within_bind; [|intros [a [u|e|]]; exact I]. apply (within_each_skip _ (fun k => negb (wanted ss ts (k_schema k) (k_table k)))); [|exact N].
    intros a r E. unfold p_fk_row. rewrite E. reflexivity.
Qed.
Definition specs2 (cat : catalog) (mem : nat -> prov) (calls : list (nat * request)) : list spec :=
  map (fun x => mkS (fst x) (touches2 cat (snd x)) (alone cat (snd x) (mem (fst x)))) calls.
Lemma inv_start2 cat mem calls : inv (specs2 cat mem calls) (wstart cat mem calls).
Proof.
  constructor; cbn [wstart w_mem w_flag w_gs].
  - unfold specs2. rewrite !map_length. reflexivity.
  - intros i g s E1 E2. unfold specs2 in E2. rewrite nth_error_map in E1, E2. destruct (nth_error calls i) as [[pv q]|]; [|discriminate].
    inversion E1; inversion E2; subst. cbn [g_prov s_prov s_fp g_prog s_ans fst snd]. split; auto. split; [apply within2_request|]. apply run_request.
  - discriminate.
Qed.
Lemma separate2 cat mem calls :
  (forall i j pv q q', nth_error calls i = Some (pv, q) -> nth_error calls j = Some (pv, q') -> i <> j -> nothing cat q = true \/ nothing cat q' = true \/ is_keys q <> is_keys q') ->
  apart (specs2 cat mem calls).
Proof.
  intros H i j s s' E1 E2 N EP m w A B. unfold specs2 in E1, E2. rewrite nth_error_map in E1, E2.
  destruct (nth_error calls i) as [[pv q]|] eqn:F1; [|discriminate]. destruct (nth_error calls j) as [[pv' q']|] eqn:F2; [|discriminate].
  inversion E1; inversion E2; subst. cbn [s_prov s_fp fst snd] in *. subst pv'. specialize (H _ _ _ _ _ F1 F2 N). unfold touches2 in A, B.
  destruct (nothing cat q); [exact A|]. destruct (nothing cat q'); [exact B|]. destruct H as [H|[H|H]]; [discriminate|discriminate|].
  destruct q, q'; cbn [is_keys touches_of] in *; unfold of_tables, of_keys in *; congruence.
Qed.
Lemma separate_runs2 cat mem calls sched :
  (forall i j pv q q', nth_error calls i = Some (pv, q) -> nth_error calls j = Some (pv, q') -> i <> j -> nothing cat q = true \/ nothing cat q' = true \/ is_keys q <> is_keys q') ->
  exists w, wrun (wstart cat mem calls) sched = Some w
  /\ forall i pv q a, nth_error calls i = Some (pv, q) -> returned w i = Some a -> a = alone cat q (mem pv).
Proof.
  intros H. destruct (inv_run _ (separate2 cat mem calls H) sched _ (inv_start2 cat mem calls)) as (w & E & [IL IG IF]).
  exists w. split; [exact E|]. intros i pv q a F R. unfold returned in R.
  destruct (nth_error (w_gs w) i) as [[gp gm gq]|] eqn:EG; [|discriminate].
  destruct gq; inversion R; subst.
  assert (Es : nth_error (specs2 cat mem calls) i = Some (mkS pv (touches2 cat q) (alone cat q (mem pv)))) by (unfold specs2; rewrite nth_error_map, F; reflexivity).
  destruct (IG _ _ _ EG Es) as (_ & _ & X). exact X.
Qed.
