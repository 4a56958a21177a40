(** Dependency discovery finds exactly the reachable tables. *)
From Verif Require Import GoBase GoBaseFacts TypeModel TypeSpec TypeProofs ParamModel SchemaModel SchemaSpec SchemaProofs SchemaGraph.
From Coq Require Import Relations Permutation Sorted.
Open Scope Z_scope.

Definition strip (c : column) : column := mkCol (c_name c) (c_type c) (c_udt c) (c_null c) (c_max c) (c_pos c) (c_fqn c) None (c_idx c).
Definition col_in (st : prov) (s t : bytes) (id : nat) : Prop :=
  exists c, nth_error (p_heap st) id = Some c /\ c_fqn c = fqn3 s t (c_name c) /\ mget (c_fqn c) (p_cols st) = Some id.
Record wf (cols : bytes -> bytes -> list colrow) (st : prov) : Prop := {
  w_keys : NoDup (map fst (p_tabs st));
  w_name : forall n x, In (n, x) (p_tabs st) -> n = fqn2 (t_schema x) (t_name x) /\ t_fqn x = n /\ no_dot (t_schema x) /\ no_dot (t_name x);
  w_cols : forall n x id, In (n, x) (p_tabs st) -> In id (t_cols x) -> col_in st (t_schema x) (t_name x) id;
  w_all : forall n x r, In (n, x) (p_tabs st) -> In r (cols (t_schema x) (t_name x)) -> exists id c, In id (t_cols x) /\ nth_error (p_heap st) id = Some c /\ c_name c = cr_name r;
  w_own : forall n id, mget n (p_cols st) = Some id -> exists m x c, In (m, x) (p_tabs st) /\ In id (t_cols x) /\ nth_error (p_heap st) id = Some c /\ c_fqn c = n;
  w_ref : forall id c, nth_error (p_heap st) id = Some c -> c_ref c = None \/ c_ref c = mget (c_fqn c) (p_fks st) }.
Record ext (st st' : prov) : Prop := {
  e_fks : p_fks st' = p_fks st;
  e_heap : forall id c, nth_error (p_heap st) id = Some c -> exists c', nth_error (p_heap st') id = Some c' /\ strip c' = strip c /\ (c_ref c = mget (c_fqn c) (p_fks st) -> c_ref c' = c_ref c);
  e_cols : forall n id, mget n (p_cols st) = Some id -> mget n (p_cols st') = Some id;
  e_tabs : forall e, In e (p_tabs st) -> In e (p_tabs st') }.
Lemma strip_fqn c c' : strip c' = strip c -> c_fqn c' = c_fqn c.
Proof. intros E. apply (f_equal c_fqn) in E. exact E. Qed.
Lemma ext_refl st : ext st st.
Proof. constructor; auto. intros id c H. exists c. auto. Qed.
Lemma ext_trans a b c : ext a b -> ext b c -> ext a c.
Proof.
  intros H1 H2. constructor.
  - rewrite (e_fks _ _ H2). apply (e_fks _ _ H1).
  - intros id x Hx. destruct (e_heap _ _ H1 id x Hx) as (y & Hy & Sy & Ry). destruct (e_heap _ _ H2 id y Hy) as (z & Hz & Sz & Rz). exists z. split; [exact Hz|]. split; [congruence|]. intros R. rewrite <- (Ry R). apply Rz. rewrite (strip_fqn _ _ Sy), (Ry R), (e_fks _ _ H1). exact R.
  - intros n id X. apply (e_cols _ _ H2), (e_cols _ _ H1), X.
  - intros e X. apply (e_tabs _ _ H2), (e_tabs _ _ H1), X.
Qed.
Lemma in_mget {A} k (v : A) m : NoDup (map fst m) -> In (k, v) m -> mget k m = Some v.
Proof.
  induction m as [|[j w] m IH]; cbn; intros N H; [contradiction|]. inversion N as [|? ? N1 N2]; subst. destruct H as [H|H].
  - injection H as -> ->. rewrite beqb_refl. reflexivity.
  - destruct (beqb_spec j k) as [->|]; [|auto]. exfalso. apply N1. change k with (fst (k, v)). apply in_map. exact H.
Qed.
Lemma has_keys {A} n (m : list (bytes * A)) : has n m = true <-> In n (map fst m).
Proof. rewrite <- mget_keys. unfold has. destruct (mget n m); split; congruence. Qed.
Lemma ext_has st st' n : ext st st' -> has n (p_tabs st) = true -> has n (p_tabs st') = true.
Proof. intros H. rewrite !has_keys. intros X. apply in_map_iff in X as (e & <- & He). apply in_map. exact (e_tabs _ _ H e He). Qed.

Definition linked_col (st : prov) (id : nat) : Prop :=
  exists c, nth_error (p_heap st) id = Some c /\ c_ref c = mget (c_fqn c) (p_fks st) /\ forall k, mget (c_fqn c) (p_fks st) = Some k -> has (target k) (p_tabs st) = true.
Definition linked (st : prov) (x : table) : Prop := forall id, In id (t_cols x) -> linked_col st id.
Definition dep_ok (cols : bytes -> bytes -> list colrow) (st : prov) (x : table) : Prop :=
  t_type x = [] /\ t_view x = false /\ t_idx x = [] /\ t_pk x = None /\
  map (fun id => option_map strip (nth_error (p_heap st) id)) (t_cols x) = map Some (sort_by col_by_pos (map (column_of (t_schema x) (t_name x) []) (cols (t_schema x) (t_name x)))).
Lemma linked_ext st st' id : ext st st' -> linked_col st id -> linked_col st' id.
Proof.
  intros X (c & Hc & R & T). destruct (e_heap _ _ X id c Hc) as (c' & Hc' & S & R'). exists c'. split; [exact Hc'|]. rewrite (strip_fqn _ _ S), (e_fks _ _ X). split; [rewrite (R' R); exact R|]. intros k K. exact (ext_has _ _ _ X (T k K)).
Qed.
Lemma dep_ext cols st st' x : ext st st' -> dep_ok cols st x -> dep_ok cols st' x.
Proof.
  intros X (A1 & A2 & A3 & A4 & A5). repeat split; try assumption. rewrite <- A5. apply map_ext_in. intros id Hi.
  assert (Y : In (option_map strip (nth_error (p_heap st) id)) (map (fun id => option_map strip (nth_error (p_heap st) id)) (t_cols x))) by (apply (in_map (fun id => option_map strip (nth_error (p_heap st) id))); exact Hi).
  rewrite A5 in Y. apply in_map_iff in Y as (d & Ed & _). destruct (nth_error (p_heap st) id) as [c|] eqn:Hc; [|discriminate]. destruct (e_heap _ _ X id c Hc) as (c' & -> & S & _). cbn [option_map]. congruence.
Qed.

(** The foreign keys known to the provider. *)
Definition fk_map (fks : list fkey) (m : list (bytes * fkey)) : Prop := forall n k, mget n m = Some k -> In k fks /\ n = fqn3 (k_schema k) (k_table k) (k_column k).
Definition fk_names (fks : list fkey) : Prop := forall k, In k fks -> no_dot (k_schema k) /\ no_dot (k_table k) /\ no_dot (k_rschema k) /\ no_dot (k_rtable k).
(** From [st] to [st'] by reading tables reachable from [from]. *)
Definition steps (cols : bytes -> bytes -> list colrow) (fks : list fkey) (from : bytes * bytes -> Prop) (st st' : prov) : Prop :=
  wf cols st' /\ ext st st' /\ exists new, p_tabs st' = p_tabs st ++ new /\
    forall n x, In (n, x) new -> dep_ok cols st' x /\ linked st' x /\ exists a, from a /\ reachable fks a (t_schema x, t_name x).
Lemma steps_refl cols fks from st : wf cols st -> steps cols fks from st st.
Proof. intros W. split; [exact W|]. split; [apply ext_refl|]. exists []. split; [rewrite app_nil_r; reflexivity|]. intros n x []. Qed.
Lemma steps_trans cols fks from st st1 st2 : steps cols fks from st st1 -> steps cols fks from st1 st2 -> steps cols fks from st st2.
Proof.
  intros (W1 & X1 & n1 & E1 & H1) (W2 & X2 & n2 & E2 & H2). split; [exact W2|]. split; [exact (ext_trans _ _ _ X1 X2)|]. exists (n1 ++ n2). split; [rewrite E2, E1, <- app_assoc; reflexivity|].
  intros n x I. apply in_app_or in I as [I|I]; [|exact (H2 n x I)]. destruct (H1 n x I) as (D & L & R). split; [exact (dep_ext _ _ _ _ X2 D)|]. split; [intros id Hi; exact (linked_ext _ _ _ X2 (L id Hi))|exact R].
Qed.
Lemma steps_weaken cols fks (from from' : bytes * bytes -> Prop) st st' : (forall a, from a -> exists b, from' b /\ reachable fks b a) -> steps cols fks from st st' -> steps cols fks from' st st'.
Proof.
  intros H (W & X & new & E & N). split; [exact W|]. split; [exact X|]. exists new. split; [exact E|]. intros n x I. destruct (N n x I) as (D & L & a & Fa & R). split; [exact D|]. split; [exact L|]. destruct (H a Fa) as (b & Fb & Rb). exists b. split; [exact Fb|].
  clear -Rb R. unfold reachable in *. induction Rb; [exact R|]. econstructor; [eassumption|auto].
Qed.
(** Writing a reference. *)
Lemma set_ref_steps cols fks from st id c k : wf cols st -> nth_error (p_heap st) id = Some c -> mget (c_fqn c) (p_fks st) = Some k ->
  steps cols fks from st (set_heap st (upd_heap (p_heap st) id (set_ref k))) /\ nth_error (p_heap (set_heap st (upd_heap (p_heap st) id (set_ref k)))) id = Some (set_ref k c).
Proof.
  intros W Hc K. set (st' := set_heap st _). assert (N : forall j d, nth_error (p_heap st) j = Some d -> nth_error (p_heap st') j = Some (if (j =? id)%nat then set_ref k d else d)).
  { intros j d Hd. unfold st'. cbn [set_heap p_heap]. rewrite upd_heap_nth. destruct (Nat.eqb_spec j id) as [->|]; [rewrite Hd; reflexivity|exact Hd]. }
  split; [|rewrite (N id c Hc), Nat.eqb_refl; reflexivity].
  assert (N' : forall j d', nth_error (p_heap st') j = Some d' -> exists d, nth_error (p_heap st) j = Some d /\ d' = if (j =? id)%nat then set_ref k d else d).
  { intros j d' Hd. destruct (nth_error (p_heap st) j) as [d|] eqn:D; [exists d; split; [reflexivity|]; rewrite (N j d D) in Hd; congruence|]. exfalso. unfold st' in Hd. cbn [set_heap p_heap] in Hd. rewrite upd_heap_nth, Hc in Hd. cbn [option_map] in Hd. destruct (Nat.eqb_spec j id) as [->|]; congruence. }
  assert (C1 : forall (b : bool) d, c_fqn (if b then set_ref k d else d) = c_fqn d /\ c_name (if b then set_ref k d else d) = c_name d /\ strip (if b then set_ref k d else d) = strip d) by (intros [] d; repeat split).
  split; [|split; [|exists []; split; [rewrite app_nil_r; reflexivity|intros ? ? []]]].
  - constructor.
    + exact (w_keys _ _ W).
    + exact (w_name _ _ W).
    + intros n x j Hx Hj. destruct (w_cols _ _ W n x j Hx Hj) as (d & Hd & F & M). eexists. split; [exact (N j d Hd)|]. destruct (C1 (j =? id)%nat d) as (-> & -> & _). split; assumption.
    + intros n x r Hx Hr. destruct (w_all _ _ W n x r Hx Hr) as (j & d & Hj & Hd & F). exists j. eexists. split; [exact Hj|]. split; [exact (N j d Hd)|]. destruct (C1 (j =? id)%nat d) as (_ & -> & _). exact F.
    + intros n j Hj. destruct (w_own _ _ W n j Hj) as (m & x & d & Hx & Hi & Hd & F). exists m, x. eexists. split; [exact Hx|]. split; [exact Hi|]. split; [exact (N j d Hd)|]. destruct (C1 (j =? id)%nat d) as (-> & _ & _). exact F.
    + intros j d' Hd. destruct (N' j d' Hd) as (d & Hd0 & ->). destruct (Nat.eqb_spec j id) as [->|]; [|exact (w_ref _ _ W j d Hd0)]. right. cbn. rewrite Hd0 in Hc. injection Hc as ->. symmetry. exact K.
  - constructor; auto.
    intros j d Hd. eexists. split; [exact (N j d Hd)|]. destruct (C1 (j =? id)%nat d) as (_ & _ & E). split; [exact E|]. intros R. destruct (Nat.eqb_spec j id) as [->|]; [|reflexivity]. rewrite Hd in Hc. injection Hc as ->. cbn. congruence.
Qed.
(** Reading a table that was not known. *)
Definition add_table (cols : bytes -> bytes -> list colrow) (ii : list index) (st : prov) (x : table) : prov :=
  let s := t_schema x in let t := t_name x in
  mkP (p_heap st ++ map (column_of s t ii) (cols s t)) (mput (t_fqn x) x (p_tabs st)) (put_cols s t (cols s t) (length (p_heap st)) (p_cols st)) (p_fks st).
Lemma ids_of_in st s t rows id : In id (ids_of st s t rows) <-> (length (p_heap st) <= id < length (p_heap st) + length rows)%nat.
Proof. unfold ids_of. rewrite <- in_seq. split; intros H; [eapply Permutation_in; [apply Permutation_sym, sort_perm_by|exact H]|eapply Permutation_in; [apply sort_perm_by|exact H]]. Qed.
Lemma add_table_ok cols ii st x : wf cols st -> (forall s t, NoDup (map cr_name (cols s t))) -> no_dot (t_schema x) -> no_dot (t_name x) -> t_fqn x = fqn2 (t_schema x) (t_name x) -> mget (t_fqn x) (p_tabs st) = None ->
  t_cols x = ids_of st (t_schema x) (t_name x) (cols (t_schema x) (t_name x)) -> wf cols (add_table cols ii st x) /\ ext st (add_table cols ii st x) /\ p_tabs (add_table cols ii st x) = p_tabs st ++ [(t_fqn x, x)].
Proof.
  intros W Nc Ds Dt Ex Mx Ec. set (st' := add_table cols ii st x). set (s := t_schema x) in *. set (t := t_name x) in *.
  assert (Et : p_tabs st' = p_tabs st ++ [(t_fqn x, x)]) by (unfold st', add_table; cbn [p_tabs]; apply mget_mput_new; exact Mx).
  assert (Hold : forall j d, nth_error (p_heap st) j = Some d -> nth_error (p_heap st') j = Some d).
  { intros j d Hd. unfold st', add_table. cbn [p_heap]. rewrite nth_error_app1; [exact Hd|]. apply nth_error_Some. congruence. }
  assert (Hnew : forall i r, nth_error (cols s t) i = Some r -> nth_error (p_heap st') (length (p_heap st) + i) = Some (column_of s t ii r)).
  { intros i r Hr. unfold st', add_table. cbn [p_heap]. fold s t. rewrite nth_tail, nth_error_map, Hr. reflexivity. }
  assert (Hc : forall n id, mget n (p_cols st) = Some id -> mget n (p_cols st') = Some id).
  { intros n id Hn. unfold st', add_table. cbn [p_cols]. fold s t. rewrite put_cols_other; [exact Hn|]. intros r Hr Hf. destruct (w_own _ _ W n id Hn) as (m & y & d & Hy & Hi & Hd & F). destruct (w_cols _ _ W m y id Hy Hi) as (d' & Hd' & F' & _). rewrite Hd in Hd'. injection Hd' as <-.
    destruct (w_name _ _ W m y Hy) as (Em & _ & D1 & D2). rewrite <- F, F' in Hf. destruct (fqn3_inj _ _ _ _ _ _ Ds D1 Dt D2 Hf) as (E1 & E2 & _).
    rewrite Ex, E1, E2, <- Em in Mx. rewrite (in_mget _ _ _ (w_keys _ _ W) Hy) in Mx. discriminate. }
  assert (Hcn : forall i r, nth_error (cols s t) i = Some r -> mget (fqn3 s t (cr_name r)) (p_cols st') = Some (length (p_heap st) + i)%nat).
  { intros i r Hr. unfold st', add_table. cbn [p_cols]. fold s t. apply put_cols_get; [apply Nc|exact Hr]. }
  assert (Hin : forall id, In id (t_cols x) -> exists i r, id = (length (p_heap st) + i)%nat /\ nth_error (cols s t) i = Some r).
  { intros id Hi. rewrite Ec in Hi. apply ids_of_in in Hi. exists (id - length (p_heap st))%nat. destruct (nth_error (cols s t) (id - length (p_heap st))) as [r|] eqn:R; [exists r; split; [lia|reflexivity]|]. apply nth_error_None in R. lia. }
  split; [|split; [|exact Et]].
  - constructor.
    + unfold st', add_table. cbn [p_tabs]. apply mput_keys. exact (w_keys _ _ W).
    + intros n y Hy. rewrite Et in Hy. apply in_app_or in Hy as [Hy|[Hy|[]]]; [exact (w_name _ _ W n y Hy)|]. injection Hy as <- <-. repeat split; assumption.
    + intros n y id Hy Hi. rewrite Et in Hy. apply in_app_or in Hy as [Hy|[Hy|[]]].
      * destruct (w_cols _ _ W n y id Hy Hi) as (d & Hd & F & M). exists d. split; [exact (Hold id d Hd)|]. split; [exact F|]. exact (Hc _ _ M).
      * injection Hy as <- <-. destruct (Hin id Hi) as (i & r & -> & Hr). exists (column_of s t ii r). split; [exact (Hnew i r Hr)|]. split; [reflexivity|]. exact (Hcn i r Hr).
    + intros n y r Hy Hr. rewrite Et in Hy. apply in_app_or in Hy as [Hy|[Hy|[]]].
      * destruct (w_all _ _ W n y r Hy Hr) as (j & d & Hj & Hd & F). exists j, d. split; [exact Hj|]. split; [exact (Hold j d Hd)|exact F].
      * injection Hy as <- <-. fold s t in Hr. apply In_nth_error in Hr as (i & Hr). exists (length (p_heap st) + i)%nat, (column_of s t ii r). split; [|split; [exact (Hnew i r Hr)|reflexivity]]. rewrite Ec. apply ids_of_in. assert (i < length (cols s t))%nat by (apply nth_error_Some; congruence). lia.
    + intros n id Hn. destruct (in_dec (list_eq_dec Ascii.ascii_dec) n (map (fun r => fqn3 s t (cr_name r)) (cols s t))) as [I|I].
      * apply in_map_iff in I as (r & Er & Hr). apply In_nth_error in Hr as (i & Hr). rewrite <- Er, (Hcn i r Hr) in Hn. injection Hn as <-. exists (t_fqn x), x, (column_of s t ii r). split; [rewrite Et; apply in_or_app; right; left; reflexivity|].
        split; [rewrite Ec; apply ids_of_in; assert (i < length (cols s t))%nat by (apply nth_error_Some; congruence); lia|]. split; [exact (Hnew i r Hr)|exact Er].
      * unfold st', add_table in Hn. cbn [p_cols] in Hn. fold s t in Hn. rewrite put_cols_other in Hn; [|intros r Hr Hf; apply I; rewrite <- Hf; apply (in_map (fun r => fqn3 s t (cr_name r))); exact Hr].
        destruct (w_own _ _ W n id Hn) as (m & y & d & Hy & Hi & Hd & F). exists m, y, d. split; [rewrite Et; apply in_or_app; left; exact Hy|]. split; [exact Hi|]. split; [exact (Hold id d Hd)|exact F].
    + intros id d Hd. unfold st', add_table in Hd |- *. cbn [p_heap p_fks] in *. fold s t in Hd. destruct (Nat.lt_ge_cases id (length (p_heap st))) as [L|L].
      * rewrite nth_error_app1 in Hd by exact L. exact (w_ref _ _ W id d Hd).
      * rewrite nth_error_app2 in Hd by exact L. rewrite nth_error_map in Hd. destruct (nth_error (cols s t) _); [|discriminate]. injection Hd as <-. left. reflexivity.
  - constructor.
    + reflexivity.
    + intros id d Hd. exists d. split; [exact (Hold id d Hd)|]. split; [reflexivity|]. auto.
    + exact Hc.
    + intros e He. rewrite Et. apply in_or_app. left. exact He.
Qed.

(** ** The search *)
Lemma ext_fk fks st st' : ext st st' -> fk_map fks (p_fks st) -> fk_map fks (p_fks st').
Proof. intros X. rewrite (e_fks _ _ X). auto. Qed.
Lemma each_col_ok cols fks s t rec : fk_names fks -> no_dot s -> no_dot t ->
  (forall st s t st' o, wf cols st -> fk_map fks (p_fks st) -> no_dot s -> no_dot t -> rec st s t = Some (st', o) -> o = ROk tt /\ steps cols fks (eq (s, t)) st st' /\ has (fqn2 s t) (p_tabs st') = true) ->
  forall ids st st' o, wf cols st -> fk_map fks (p_fks st) -> (forall id, In id ids -> col_in st s t id) -> each_col rec st ids = Some (st', o) ->
  o = ROk tt /\ steps cols fks (eq (s, t)) st st' /\ forall id, In id ids -> linked_col st' id.
Proof.
  intros Fn Ds Dt Hrec. induction ids as [|id ids IH]; intros st st' o W Fm Hids E; cbn [each_col] in E.
  - injection E as <- <-. split; [reflexivity|]. split; [apply steps_refl; exact W|]. intros id [].
  - destruct (Hids id (or_introl eq_refl)) as (c & Hc & Fc & Mc). rewrite Hc in E. destruct (mget (c_fqn c) (p_fks st)) as [k|] eqn:K.
    + destruct (set_ref_steps cols fks (eq (s, t)) st id c k W Hc K) as [S1 H1]. set (st1 := set_heap st _) in *. destruct (Fm _ _ K) as [Hk En]. destruct (Fn k Hk) as (D1 & D2 & D3 & D4).
      destruct (rec st1 (k_rschema k) (k_rtable k)) as [[st2 o2]|] eqn:R; [|discriminate]. destruct (Hrec _ _ _ _ _ (proj1 S1) (ext_fk fks _ _ (proj1 (proj2 S1)) Fm) D3 D4 R) as (-> & S2 & T2).
      assert (S2' : steps cols fks (eq (s, t)) st1 st2).
      { revert S2. apply steps_weaken. intros a <-. exists (s, t). split; [reflexivity|]. econstructor; [|constructor]. exists k. split; [exact Hk|]. split; [|reflexivity]. rewrite Fc in En. destruct (fqn3_inj _ _ _ _ _ _ Ds D1 Dt D2 En) as (-> & -> & _). reflexivity. }
      pose proof (steps_trans _ _ _ _ _ _ S1 S2') as S12. assert (X12 := proj1 (proj2 S12)).
      destruct (IH st2 st' o (proj1 S2) (ext_fk fks _ _ X12 Fm)) as (-> & S3 & L3).
      { intros j Hj. destruct (Hids j (or_intror Hj)) as (d & Hd & Fd & Md). destruct (e_heap _ _ X12 j d Hd) as (d' & Hd' & Sd & _). exists d'. split; [exact Hd'|]. rewrite (strip_fqn _ _ Sd). apply (f_equal c_name) in Sd. cbn in Sd. rewrite Sd. split; [exact Fd|]. exact (e_cols _ _ X12 _ _ Md). }
      { exact E. }
      split; [reflexivity|]. split; [exact (steps_trans _ _ _ _ _ _ S12 S3)|]. intros j [<-|Hj]; [|exact (L3 j Hj)]. apply (linked_ext st2 st' id (proj1 (proj2 S3))).
      destruct (e_heap _ _ (proj1 (proj2 S2)) id _ H1) as (c2 & Hc2 & Sc & Rc). exists c2. split; [exact Hc2|]. rewrite (strip_fqn _ _ Sc). cbn [set_ref c_fqn]. rewrite (e_fks _ _ X12), K. split.
      * rewrite Rc; [reflexivity|]. cbn [set_ref c_ref c_fqn]. rewrite (e_fks _ _ (proj1 (proj2 S1))). symmetry. exact K.
      * intros k' [= <-]. exact T2.
    + destruct (IH st st' o W Fm (fun j Hj => Hids j (or_intror Hj)) E) as (-> & S & L). split; [reflexivity|]. split; [exact S|]. intros j [<-|Hj]; [|exact (L j Hj)]. apply (linked_ext st st' id (proj1 (proj2 S))).
      exists c. split; [exact Hc|]. rewrite K. split; [|discriminate]. destruct (w_ref _ _ W id c Hc) as [X|X]; [exact X|]. rewrite X. exact K.
Qed.
Lemma column_of_nil s t r : column_of s t [] r = make_column s t r.
Proof. reflexivity. Qed.
Lemma strip_make s t r : strip (make_column s t r) = make_column s t r.
Proof. reflexivity. Qed.
Lemma discover_table_ok cat tabs cols idxs fks fuel : described cat tabs cols idxs fks -> forall st s t st' o, wf cols st -> fk_map fks (p_fks st) -> no_dot s -> no_dot t -> discover_table fuel cat st s t = Some (st', o) ->
  o = ROk tt /\ steps cols fks (eq (s, t)) st st' /\ has (fqn2 s t) (p_tabs st') = true.
Proof.
  intros D. induction fuel as [|f IH]; intros st s t st' o W Fm Ds Dt E; cbn [discover_table] in E; [discriminate|]. destruct (mget (fqn2 s t) (p_tabs st)) as [y|] eqn:M.
  - injection E as <- <-. split; [reflexivity|]. split; [apply steps_refl; exact W|]. unfold has. rewrite M. reflexivity.
  - rewrite (read_columns_ok cat st s t (cols s t)) in E by apply (d_cols _ _ _ _ _ D). set (x := mkTab s t [] false (ids_of st s t (cols s t)) [] None (fqn2 s t)) in E.
    assert (Ea : put_table (read_state st s t (cols s t)) x = add_table cols [] st x) by reflexivity. rewrite Ea in E. set (st1 := add_table cols [] st x) in *.
    destruct (add_table_ok cols [] st x W (d_cols_once _ _ _ _ _ D) Ds Dt eq_refl M eq_refl) as (W1 & X1 & E1). fold st1 in W1, X1, E1.
    assert (Ix : In (fqn2 s t, x) (p_tabs st1)) by (rewrite E1; apply in_or_app; right; left; reflexivity).
    destruct (each_col_ok cols fks s t (discover_table f cat) (d_fk_names _ _ _ _ _ D) Ds Dt IH _ st1 st' o W1 (ext_fk fks _ _ X1 Fm) (fun id Hi => w_cols _ _ W1 _ x id Ix Hi) E) as (-> & (W2 & X2 & new & E2 & H2) & L).
    split; [reflexivity|]. split.
    + split; [exact W2|]. split; [exact (ext_trans _ _ _ X1 X2)|]. exists ((fqn2 s t, x) :: new). split; [rewrite E2, E1, <- app_assoc; reflexivity|]. intros n y [Hy|Hy]; [|exact (H2 n y Hy)]. injection Hy as <- <-. split; [|split; [exact L|exists (s, t); split; [reflexivity|constructor]]].
      apply (dep_ext _ _ _ _ X2). repeat split. unfold st1, add_table, x. cbn [t_cols t_schema t_name p_heap]. unfold ids_of.
      rewrite <- (map_length (make_column s t) (cols s t)). rewrite <- (map_map (nth_error (p_heap st ++ map (column_of s t []) (cols s t))) (option_map strip)).
      rewrite (map_ext _ _ (column_of_nil s t)). pose proof (ids_rel (p_heap st) (map (make_column s t) (cols s t)) (fun c => c) (fun c => eq_refl)) as R. rewrite map_id in R. rewrite R, map_map. apply map_ext_in. intros c Hc. cbn [option_map]. f_equal.
      eapply Permutation_in in Hc; [|apply Permutation_sym, sort_perm_by]. apply in_map_iff in Hc as (r & <- & _). reflexivity.
    + rewrite E2. apply has_keys. rewrite E1, !map_app. apply in_or_app. left. apply in_or_app. right. left. reflexivity.
Qed.
Definition known (st : prov) (a : bytes * bytes) : Prop := exists n x, In (n, x) (p_tabs st) /\ a = (t_schema x, t_name x).
Lemma each_key_ok cat tabs cols idxs fks fuel : described cat tabs cols idxs fks -> forall ord st st' o, wf cols st -> fk_map fks (p_fks st) -> each_key fuel cat st ord = Some (st', o) ->
  o = ROk tt /\ steps cols fks (known st) st st' /\ forall n id, In n ord -> mget n (p_cols st) = Some id -> linked_col st' id.
Proof.
  intros D. induction ord as [|n ord IH]; intros st st' o W Fm E; cbn [each_key] in E.
  - injection E as <- <-. split; [reflexivity|]. split; [apply steps_refl; exact W|]. intros n id [].
  - destruct (mget n (p_cols st)) as [id|] eqn:Mn.
    2:{ destruct (IH st st' o W Fm E) as (-> & S & L). split; [reflexivity|]. split; [exact S|]. intros m j [<-|Hm] Hj; [congruence|exact (L m j Hm Hj)]. }
    destruct (w_own _ _ W n id Mn) as (m & y & c & Hy & Hi & Hc & Fc). destruct (mget n (p_fks st)) as [k|] eqn:K.
    + rewrite <- Fc in K. destruct (set_ref_steps cols fks (known st) st id c k W Hc K) as [S1 H1]. set (st1 := set_heap st _) in *. destruct (Fm _ _ K) as [Hk En]. destruct (d_fk_names _ _ _ _ _ D k Hk) as (D1 & D2 & D3 & D4).
      destruct (discover_table fuel cat st1 (k_rschema k) (k_rtable k)) as [[st2 o2]|] eqn:R; [|discriminate].
      destruct (discover_table_ok cat tabs cols idxs fks fuel D _ _ _ _ _ (proj1 S1) (ext_fk fks _ _ (proj1 (proj2 S1)) Fm) D3 D4 R) as (-> & S2 & T2).
      assert (S2' : steps cols fks (known st) st1 st2).
      { revert S2. apply steps_weaken. intros a <-. exists (t_schema y, t_name y). split; [exists m, y; split; [exact Hy|reflexivity]|]. econstructor; [|constructor]. exists k. split; [exact Hk|]. split; [|reflexivity].
        destruct (w_cols _ _ W m y id Hy Hi) as (c' & Hc' & F' & _). rewrite Hc in Hc'. injection Hc' as <-. destruct (w_name _ _ W m y Hy) as (_ & _ & N1 & N2). rewrite F' in En. destruct (fqn3_inj _ _ _ _ _ _ N1 D1 N2 D2 En) as (-> & -> & _). reflexivity. }
      pose proof (steps_trans _ _ _ _ _ _ S1 S2') as S12. assert (X12 := proj1 (proj2 S12)).
      destruct (IH st2 st' o (proj1 S2) (ext_fk fks _ _ X12 Fm) E) as (-> & S3 & L3).
      assert (S3' : steps cols fks (known st) st2 st').
      { revert S3. apply steps_weaken. intros a (l & z & Hz & ->). destruct S12 as (_ & _ & new & E12 & H12). rewrite E12 in Hz. apply in_app_or in Hz as [Hz|Hz].
        - exists (t_schema z, t_name z). split; [exists l, z; split; [exact Hz|reflexivity]|constructor].
        - destruct (H12 l z Hz) as (_ & _ & b & Hb & Rb). exists b. split; assumption. }
      split; [reflexivity|]. split; [exact (steps_trans _ _ _ _ _ _ S12 S3')|]. intros l j [<-|Hl] Hj; [|exact (L3 l j Hl (e_cols _ _ X12 _ _ Hj))]. rewrite Mn in Hj. injection Hj as <-. apply (linked_ext st2 st' id (proj1 (proj2 S3))).
      destruct (e_heap _ _ (proj1 (proj2 S2)) id _ H1) as (c2 & Hc2 & Sc & Rc). exists c2. split; [exact Hc2|]. rewrite (strip_fqn _ _ Sc). cbn [set_ref c_fqn]. rewrite (e_fks _ _ X12), K. split.
      * rewrite Rc; [reflexivity|]. cbn [set_ref c_ref c_fqn]. rewrite (e_fks _ _ (proj1 (proj2 S1))). symmetry. exact K.
      * intros k' [= <-]. exact T2.
    + destruct (IH st st' o W Fm E) as (-> & S & L). split; [reflexivity|]. split; [exact S|]. intros l j [<-|Hl] Hj; [|exact (L l j Hl Hj)]. rewrite Mn in Hj. injection Hj as <-. apply (linked_ext st st' id (proj1 (proj2 S))).
      exists c. split; [exact Hc|]. rewrite Fc, K. split; [|discriminate]. destruct (w_ref _ _ W id c Hc) as [X|X]; [exact X|]. rewrite X, Fc. exact K.
Qed.

(** ** From the request to the result *)
Lemma sort_perm_eq {A} (key : A -> bytes) l l' : NoDup (map key l) -> Permutation l l' -> sort_by (fun a b => bltb (key a) (key b)) l = sort_by (fun a b => bltb (key a) (key b)) l' /\
  StronglySorted (fun a b => bltb (key a) (key b) = true) (sort_by (fun a b => bltb (key a) (key b)) l).
Proof.
  intros N P. set (lt := fun a b => bltb (key a) (key b)).
  assert (St : forall m, NoDup (map key m) -> StronglySorted (fun a b => lt a b = true) (sort_by lt m)).
  { intros m Nm. pose proof (sort_sorted lt m (fun a b => bltb_asym _ _) (fun a b c => bltb_neg_trans _ _ _)) as S.
    assert (Ns : NoDup (map key (sort_by lt m))) by (eapply Permutation_NoDup; [apply Permutation_map, sort_perm_by|exact Nm]).
    revert S Ns. generalize (sort_by lt m) as q. induction 1 as [|x q S IH F]; intros Nq; constructor; inversion Nq as [|? ? N1 N2]; subst; [auto|].
    apply Forall_forall. intros y Hy. rewrite Forall_forall in F. specialize (F y Hy). unfold le_by, lt in *. destruct (bltb_total (key x) (key y)) as [X|[X|X]]; [exact X| |congruence]. exfalso. apply N1. rewrite X. apply in_map. exact Hy. }
  split; [|exact (St l N)]. apply (sorted_unique lt).
  - intros a. apply bltb_irrefl.
  - intros a b. apply bltb_asym.
  - rewrite <- (sort_perm_by lt l), <- (sort_perm_by lt l'). exact P.
  - exact (St l N).
  - apply St. eapply Permutation_NoDup; [apply Permutation_map; exact P|exact N].
Qed.
Lemma mvalues_perm {A} tord (m : list (bytes * A)) : NoDup (map fst m) -> Permutation tord (map fst m) -> Permutation (mvalues tord m) (map snd m).
Proof.
  intros N P. assert (E : forall p, (forall e, In e p -> In e m) -> mvalues (map fst p) m = map snd p).
  { induction p as [|[k v] p IH]; intros H; [reflexivity|]. unfold mvalues in *. cbn [map flat_map fst snd]. rewrite (in_mget k v m N (H _ (or_introl eq_refl))). cbn [app]. f_equal. apply IH. intros e He. apply H. right. exact He. }
  rewrite <- (E m (fun e H => H)). unfold mvalues. apply Permutation_flat_map. exact P.
Qed.
Lemma table_state_add cols idxs st r pk : table_state cols idxs st r pk = (let x := mkTab (tr_schema r) (tr_name r) (tr_type r) false (ids_of st (tr_schema r) (tr_name r) (cols (tr_schema r) (tr_name r))) (map make_index (idxs (tr_schema r) (tr_name r))) pk (fqn2 (tr_schema r) (tr_name r)) in
  (add_table cols (map make_index (idxs (tr_schema r) (tr_name r))) st x, x)).
Proof. reflexivity. Qed.
Lemma table_rows_wf cat tabs cols idxs fks schemas tables : described cat tabs cols idxs fks -> forall rows st ts,
  NoDup (map (fun r => (tr_schema r, tr_name r)) rows) -> (forall r, In r rows -> no_dot (tr_schema r) /\ no_dot (tr_name r)) -> (forall r, In r rows -> mget (fqn2 (tr_schema r) (tr_name r)) (p_tabs st) = None) -> wf cols st ->
  exists st' ts', each_row (table_row cat schemas tables) (st, ts) (map SRow rows) = ((st', ts ++ ts'), ROk tt) /\ wf cols st' /\ p_tabs st' = p_tabs st ++ map (fun x => (t_fqn x, x)) ts' /\
    (forall x id, In x ts' -> t_pk x = Some id -> In id (t_cols x)).
Proof.
  intros D. induction rows as [|r rows IH]; intros st ts N Dt Nk W; cbn [map each_row].
  - exists st, []. rewrite !app_nil_r. split; [reflexivity|]. split; [exact W|]. split; [reflexivity|]. intros x id [].
  - inversion N as [|? ? N1 N2]; subst. destruct (wanted schemas tables (tr_schema r) (tr_name r)) eqn:Wa.
    + destruct (table_row_ok cat tabs cols idxs fks schemas tables st ts r D Wa) as (pk & E & S). rewrite E. rewrite table_state_add in S |- *. cbv zeta in S |- *. set (x := mkTab _ _ _ _ _ _ pk _) in *. set (ii := map make_index _) in *. destruct S as [_ Pk].
      destruct (Dt r (or_introl eq_refl)) as [D1 D2]. destruct (add_table_ok cols ii st x W (d_cols_once _ _ _ _ _ D) D1 D2 eq_refl (Nk r (or_introl eq_refl)) eq_refl) as (W1 & X1 & E1). set (st1 := add_table cols ii st x) in *.
      destruct (IH st1 (ts ++ [x]) N2 (fun q Hq => Dt q (or_intror Hq))) as (st2 & ts2 & E2 & W2 & T2 & P2).
      { intros q Hq. unfold st1, add_table. cbn [p_tabs]. rewrite mget_mput. destruct (beqb_spec (t_fqn x) (fqn2 (tr_schema q) (tr_name q))) as [Eq|_]; [|exact (Nk q (or_intror Hq))]. exfalso. apply N1. destruct (Dt q (or_intror Hq)) as [Q1 Q2].
        destruct (fqn2_inj _ _ _ _ D1 Q1 Eq) as [-> ->]. apply (in_map (fun r => (tr_schema r, tr_name r))). exact Hq. }
      { exact W1. }
      exists st2, (x :: ts2). rewrite E2, <- app_assoc. split; [reflexivity|]. split; [exact W2|]. split; [rewrite T2, E1, <- app_assoc; reflexivity|]. intros y id [<-|Hy] Hid; [|exact (P2 y id Hy Hid)]. unfold x in Hid |- *. cbn [t_pk t_cols] in *. subst pk.
      apply ids_of_in. cbn [p_heap] in Pk. unfold st1, add_table, x in Pk. cbn [p_heap t_schema t_name] in Pk. rewrite app_length, map_length in Pk. lia.
    + replace (table_row cat schemas tables (st, ts) r) with ((st, ts), ROk tt : outcome unit) by (unfold table_row; rewrite Wa; reflexivity). apply IH; try assumption; intros q Hq; [apply Dt|apply Nk]; right; exact Hq.
Qed.
Lemma wf_new cols : wf cols new_prov.
Proof. constructor; cbn; try (intros; contradiction); try discriminate; [constructor|]. intros [|id] c H; discriminate. Qed.

Definition fk_key (k : fkey) : bytes := fqn3 (k_schema k) (k_table k) (k_column k).
Definition put_fks (ks : list fkey) (m : list (bytes * fkey)) : list (bytes * fkey) := fold_left (fun m k => mput (fk_key k) k m) ks m.
Lemma wanted_all s t : wanted [] [] s t = true.
Proof. reflexivity. Qed.
Lemma fk_rows ks : forall st acc, each_row (fk_row [] []) (st, acc) (map SRow ks) = ((mkP (p_heap st) (p_tabs st) (p_cols st) (put_fks ks (p_fks st)), acc ++ ks), ROk tt).
Proof.
  induction ks as [|k ks IH]; intros st acc; cbn [map each_row]; [rewrite app_nil_r; destruct st; reflexivity|]. unfold fk_row at 1. rewrite wanted_all. cbn [negb]. rewrite IH, <- app_assoc. reflexivity.
Qed.
Lemma list_fks_ok cat st fks : delivers (cat_fks cat) fks -> list_fks cat st [] [] = (mkP (p_heap st) (p_tabs st) (p_cols st) (put_fks fks (p_fks st)), ROk fks).
Proof. intros H. unfold list_fks. rewrite (run_delivers _ _ _ _ H), fk_rows. reflexivity. Qed.
Lemma put_fks_in ks : forall m n k, mget n (put_fks ks m) = Some k -> (In k ks /\ n = fk_key k) \/ mget n m = Some k.
Proof.
  induction ks as [|q ks IH]; intros m n k H; cbn in H; [right; exact H|]. apply IH in H as [[H E]|H]; [left; split; [right; exact H|exact E]|]. rewrite mget_mput in H. destruct (beqb_spec (fk_key q) n) as [E|]; [|right; exact H]. injection H as ->. left. split; [left; reflexivity|symmetry; exact E].
Qed.
Lemma put_fks_get ks : NoDup (map fk_key ks) -> forall m n, mget n (put_fks ks m) = match find (fun k => beqb (fk_key k) n) ks with Some k => Some k | None => mget n m end.
Proof.
  induction ks as [|q ks IH]; intros N m n; cbn [find]; [reflexivity|]. inversion N as [|? ? N1 N2]; subst. change (put_fks (q :: ks) m) with (put_fks ks (mput (fk_key q) q m)). rewrite IH by exact N2. rewrite mget_mput. destruct (beqb_spec (fk_key q) n) as [E|]; [|destruct (find _ ks); reflexivity].
  destruct (find _ ks) as [k|] eqn:F; [|reflexivity]. apply find_some in F as [F1 F2]. exfalso. apply N1. destruct (beqb_spec (fk_key k) n) as [E'|]; [|discriminate]. rewrite E, <- E'. apply in_map. exact F1.
Qed.
Lemma fk_keys_nodup fks : fk_names fks -> one_fk_per_column fks -> NoDup (map fk_key fks).
Proof.
  intros Fn N. unfold one_fk_per_column in N. induction fks as [|k ks IH]; cbn [map] in *; [constructor|]. inversion N as [|? ? N1 N2]; subst. constructor; [|apply IH; [intros q Hq; apply Fn; right; exact Hq|exact N2]].
  intros X. apply in_map_iff in X as (q & Eq & Hq). apply N1. destruct (Fn k (or_introl eq_refl)) as (A1 & A2 & _). destruct (Fn q (or_intror Hq)) as (B1 & B2 & _). destruct (fqn3_inj _ _ _ _ _ _ B1 A1 B2 A2 Eq) as (<- & <- & <-). apply (in_map (fun k => (k_schema k, k_table k, k_column k))). exact Hq.
Qed.
Lemma refer_eq fks c c' : strip c' = strip c -> c_ref c' = fk_of fks c' -> c' = referring fks c.
Proof.
  intros S R. unfold referring. assert (F : fk_of fks c = fk_of fks c') by (unfold fk_of; rewrite (strip_fqn _ _ S); reflexivity). rewrite F, <- R.
  destruct c as [a1 a2 a3 a4 a5 a6 a7 a8 a9], c' as [b1 b2 b3 b4 b5 b6 b7 b8 b9]. unfold strip in S. cbn in *. injection S as -> -> -> -> -> -> -> ->. reflexivity.
Qed.

Lemma see_linked fks st0 st st' x : p_heap st = p_heap st0 -> ext st st' -> (forall id c, nth_error (p_heap st') id = Some c -> mget (c_fqn c) (p_fks st') = fk_of fks c) ->
  (forall id, In id (t_cols x) -> exists c, nth_error (p_heap st) id = Some c) -> (forall id, t_pk x = Some id -> In id (t_cols x)) -> linked st' x -> see st' x = with_refs fks (see st0 x).
Proof.
  intros E0 X Fk V P L.
  assert (Q : forall id, In id (t_cols x) -> nth_error (p_heap st') id = option_map (referring fks) (nth_error (p_heap st) id)).
  { intros id Hi. destruct (V id Hi) as (c & Hc). destruct (e_heap _ _ X id c Hc) as (c' & Hc' & S & _). destruct (L id Hi) as (d & Hd & R & _). rewrite Hc' in Hd. injection Hd as <-. rewrite Hc, Hc'. cbn [option_map]. f_equal. apply refer_eq; [exact S|]. rewrite R. exact (Fk id c' Hc'). }
  unfold see, with_refs. cbn [v_schema v_name v_type v_view v_fqn v_columns v_indexes v_pk]. rewrite <- E0. f_equal.
  - unfold seen_columns. rewrite map_map. apply map_ext_in. intros id Hi. rewrite <- E0. exact (Q id Hi).
  - destruct (t_pk x) as [id|] eqn:Px; [|reflexivity]. cbn [option_map]. f_equal. exact (Q id (P id eq_refl)).
Qed.
Lemma see_dep cols fks st x : wf cols st -> In (t_fqn x, x) (p_tabs st) -> (forall id c, nth_error (p_heap st) id = Some c -> mget (c_fqn c) (p_fks st) = fk_of fks c) ->
  dep_ok cols st x -> linked st x -> see st x = with_refs fks (dependency cols (t_schema x, t_name x)).
Proof.
  intros W Hx Fk (A1 & A2 & A3 & A4 & A5) L. unfold see, with_refs, dependency. cbn [v_schema v_name v_type v_view v_fqn v_columns v_indexes v_pk option_map]. rewrite A1, A2, A3, A4. f_equal; [apply (w_name _ _ W _ x Hx)|].
  rewrite <- A5, map_map. unfold seen_columns. apply map_ext_in. intros id Hi. destruct (L id Hi) as (c & Hc & R & _). rewrite Hc. cbn [option_map]. f_equal. apply refer_eq; [reflexivity|]. rewrite R. exact (Fk id c Hc).
Qed.
Lemma nodup_app_r {A} (l l' : list A) : NoDup (l ++ l') -> NoDup l'.
Proof. induction l as [|x l IH]; intros N; [exact N|]. inversion N; auto. Qed.
Definition requested (tabs : list tabrow) (schemas tables : list bytes) (a : bytes * bytes) : Prop :=
  exists r, In r tabs /\ wanted schemas tables (tr_schema r) (tr_name r) = true /\ a = (tr_schema r, tr_name r).
Lemma deps_ok cat tabs cols idxs fks schemas tables fuel ord tord st' o : described cat tabs cols idxs fks -> one_fk_per_column fks ->
  (forall a r, requested tabs schemas tables a -> In r (cols (fst a) (snd a)) -> In (fqn3 (fst a) (snd a) (cr_name r)) ord) ->
  list_tables_deps fuel cat new_prov schemas tables ord tord = Some (st', o) -> Permutation tord (map fst (p_tabs st')) ->
  exists ts ds, o = ROk ts /\ NoDup ds /\ (forall a, In a ds <-> ~ requested tabs schemas tables a /\ exists b, requested tabs schemas tables b /\ reachable fks b a) /\
    map (see st') ts = sort_by seen_by_name (map (with_refs fks) (map (expected cols idxs) (filter (fun r => wanted schemas tables (tr_schema r) (tr_name r)) tabs) ++ map (dependency cols) ds)) /\
    StronglySorted (fun a b => bltb (v_fqn a) (v_fqn b) = true) (map (see st') ts).
Proof.
  intros D One Hord E Ht. pose proof (d_fk_names _ _ _ _ _ D) as Fn. unfold list_tables_deps in E.
  destruct (list_tables_only_ok cat tabs cols idxs fks new_prov schemas tables D) as (st1 & ts1 & h1 & E1 & Hh1 & In1 & See1 & Fk1).
  assert (Ex : exists W1 : wf cols st1, p_tabs st1 = map (fun x => (t_fqn x, x)) ts1 /\ (forall x id, In x ts1 -> t_pk x = Some id -> In id (t_cols x))).
  { destruct (table_rows_wf cat tabs cols idxs fks schemas tables D tabs new_prov [] (d_tabs_once _ _ _ _ _ D) (d_tab_names _ _ _ _ _ D) (fun r _ => eq_refl) (wf_new cols)) as (sx & tx & Er & Wx & Tx & Px).
    unfold list_tables_only in E1. rewrite (run_delivers _ _ _ _ (d_tabs _ _ _ _ _ D)), Er in E1. injection E1 as <- <-. exists Wx. split; [exact Tx|exact Px]. }
  destruct Ex as (W1 & T1 & P1). rewrite E1 in E. unfold discover in E. rewrite (list_fks_ok cat st1 fks (d_fks _ _ _ _ _ D)) in E. set (st2 := mkP (p_heap st1) (p_tabs st1) (p_cols st1) (put_fks fks (p_fks st1))) in E.
  cbn [new_prov p_fks] in Fk1.
  assert (Nk : NoDup (map fk_key fks)) by (apply fk_keys_nodup; assumption).
  assert (Get : forall n, mget n (put_fks fks (p_fks st1)) = find (fun k => beqb (fk_key k) n) fks) by (intros n; rewrite put_fks_get, Fk1 by exact Nk; destruct (find _ fks); reflexivity).
  assert (W2 : wf cols st2).
  { destruct W1 as [A1 A2 A3 A4 A5 A6]. constructor; try assumption. intros id c Hc. left. destruct (A6 id c Hc) as [R|R]; [exact R|]. rewrite Fk1 in R. exact R. }
  assert (Fm : fk_map fks (p_fks st2)).
  { intros n k K. apply put_fks_in in K as [[K1 K2]|K]; [split; assumption|]. rewrite Fk1 in K. discriminate. }
  destruct (each_key fuel cat st2 ord) as [[st3 o3]|] eqn:Ek; [|discriminate].
  destruct (each_key_ok cat tabs cols idxs fks fuel D ord st2 st3 o3 W2 Fm Ek) as (-> & (W3 & X3 & new & T3 & N3) & L3).
  cbn [sorted_tables] in E. injection E as <- <-.
  set (vals := mvalues tord (p_tabs st3)). assert (Pv : Permutation vals (map snd (p_tabs st3))) by (apply mvalues_perm; [exact (w_keys _ _ W3)|exact Ht]).
  assert (Get3 : forall n, mget n (p_fks st3) = find (fun k => beqb (fk_key k) n) fks) by (intros n; rewrite (e_fks _ _ X3); apply Get).
  assert (FkO : forall id c, nth_error (p_heap st3) id = Some c -> mget (c_fqn c) (p_fks st3) = fk_of fks c) by (intros id c _; rewrite Get3; reflexivity).
  (* the requested tables *)
  assert (Rq : forall a, requested tabs schemas tables a <-> exists x, In x ts1 /\ a = (t_schema x, t_name x)).
  { intros a. assert (M : map (fun x => (t_schema x, t_name x)) ts1 = map (fun r => (tr_schema r, tr_name r)) (filter (fun r => wanted schemas tables (tr_schema r) (tr_name r)) tabs)).
    { pose proof (f_equal (map (fun v => (v_schema v, v_name v))) See1) as Q. rewrite !map_map in Q. exact Q. }
    split.
    - intros (r & Hr & Hw & ->). assert (Q : In (tr_schema r, tr_name r) (map (fun x => (t_schema x, t_name x)) ts1)) by (rewrite M; apply (in_map (fun r => (tr_schema r, tr_name r))); apply filter_In; split; assumption). apply in_map_iff in Q as (x & Hx & Ix). exists x. split; [exact Ix|symmetry; exact Hx].
    - intros (x & Hx & ->). apply (in_map (fun x => (t_schema x, t_name x))) in Hx. rewrite M in Hx. apply in_map_iff in Hx as (r & Er & Hr). apply filter_In in Hr as [Hr Hw]. exists r. split; [exact Hr|]. split; [exact Hw|symmetry; exact Er]. }
  assert (In1' : forall x, In x ts1 -> In (t_fqn x, x) (p_tabs st2)) by (intros x Hx; change (p_tabs st2) with (p_tabs st1); rewrite T1; apply (in_map (fun x => (t_fqn x, x))); exact Hx).
  assert (Lk : forall n x, In (n, x) (p_tabs st3) -> linked st3 x).
  { intros n x Hx. rewrite T3 in Hx. apply in_app_or in Hx as [Hx|Hx]; [|apply (N3 n x Hx)]. intros id Hi. pose proof (w_cols _ _ W2 n x id Hx Hi) as (c & Hc & Fc & Mc). apply (L3 (c_fqn c) id); [|exact Mc].
    change (p_tabs st2) with (p_tabs st1) in Hx. rewrite T1 in Hx. apply in_map_iff in Hx as (x' & Ex & Hx'). injection Ex as <- ->.
    assert (Rx : requested tabs schemas tables (t_schema x, t_name x)) by (apply Rq; exists x; split; [exact Hx'|reflexivity]).
    assert (Sx : In (see st1 x) (map (see st1) ts1)) by (apply in_map; exact Hx'). rewrite See1 in Sx. apply in_map_iff in Sx as (r & Er & _).
    pose proof (f_equal v_columns Er) as Ec. pose proof (f_equal v_schema Er) as Es. pose proof (f_equal v_name Er) as Ent. cbn [see expected v_columns v_schema v_name] in Ec, Es, Ent. unfold seen_columns in Ec.
    assert (Ic : In (Some c) (map (nth_error (p_heap st1)) (t_cols x))) by (rewrite <- Hc; apply in_map; exact Hi). rewrite <- Ec in Ic. apply in_map_iff in Ic as (c0 & [= ->] & Ic). eapply Permutation_in in Ic; [|apply Permutation_sym, sort_perm_by]. apply in_map_iff in Ic as (q & Eq & Hq).
    rewrite Es, Ent in Hq. pose proof (Hord _ q Rx Hq) as O. cbn [fst snd] in O. rewrite Fc. rewrite <- Eq. exact O. }
  assert (Known3 : forall a, known st3 a <-> exists b, requested tabs schemas tables b /\ reachable fks b a).
  { intros a. split.
    - intros (n & x & Hx & ->). rewrite T3 in Hx. apply in_app_or in Hx as [Hx|Hx].
      + change (p_tabs st2) with (p_tabs st1) in Hx. rewrite T1 in Hx. apply in_map_iff in Hx as (x' & Ex & Hx'). injection Ex as <- ->. exists (t_schema x, t_name x). split; [apply Rq; exists x; split; [exact Hx'|reflexivity]|constructor].
      + destruct (N3 n x Hx) as (_ & _ & b & (m & y & Hy & ->) & R). change (p_tabs st2) with (p_tabs st1) in Hy. rewrite T1 in Hy. apply in_map_iff in Hy as (y' & Ey & Hy'). injection Ey as <- ->. exists (t_schema y, t_name y). split; [apply Rq; exists y; split; [exact Hy'|reflexivity]|exact R].
    - intros (b & Hb & R). apply Rq in Hb as (x & Hx & ->). assert (K0 : known st3 (t_schema x, t_name x)) by (exists (t_fqn x), x; split; [apply (e_tabs _ _ X3), In1', Hx|reflexivity]).
      clear Hx. revert K0. unfold reachable in R. induction R as [a0|a0 b0 c0 H R IH]; intros K0; [exact K0|]. apply IH. clear IH R. destruct H as (k & Hk & -> & ->). destruct K0 as (n & y & Hy & Ey). injection Ey as Es Et.
      destruct (proj1 (in_map_iff _ _ _) (d_fk_cols _ _ _ _ _ D k Hk)) as (r & Er & Hr). rewrite Es, Et in Hr. destruct (w_all _ _ W3 n y r Hy Hr) as (id & c & Hi & Hc & Nc). destruct (w_cols _ _ W3 n y id Hy Hi) as (c' & Hc' & Fc & _). rewrite Hc in Hc'. injection Hc' as <-.
      destruct (Lk n y Hy id Hi) as (c' & Hc' & _ & T). rewrite Hc in Hc'. injection Hc' as <-.
      assert (Kk : mget (c_fqn c) (p_fks st3) = Some k).
      { rewrite Get3. assert (Fq : c_fqn c = fk_key k) by (unfold fk_key; rewrite Fc, Nc, Er, <- Es, <- Et; reflexivity). rewrite Fq. clear -Hk Nk. induction fks as [|q fks IH]; [contradiction|]. cbn [find]. cbn [map] in Nk. inversion Nk as [|? ? N1 N2]; subst. destruct Hk as [->|Hk]; [rewrite beqb_refl; reflexivity|].
        destruct (beqb_spec (fk_key q) (fk_key k)) as [E|]; [|auto]. exfalso. apply N1. rewrite E. apply in_map. exact Hk. }
      specialize (T k Kk). apply has_keys in T. apply in_map_iff in T as ([m z] & Em & Hz). cbn [fst] in Em. destruct (w_name _ _ W3 m z Hz) as (Nz & _ & Z1 & Z2). rewrite Nz in Em. unfold target in Em. destruct (Fn k Hk) as (_ & _ & K3 & K4). destruct (fqn2_inj _ _ _ _ Z1 K3 Em) as [Q1 Q2]. exists m, z. split; [exact Hz|]. congruence. }
  set (ds := map (fun e : bytes * table => (t_schema (snd e), t_name (snd e))) new).
  assert (Keys : NoDup (map fst (p_tabs st3))) by exact (w_keys _ _ W3).
  assert (Names : NoDup (map (fun e : bytes * table => (t_schema (snd e), t_name (snd e))) (p_tabs st3))).
  { apply NoDup_map_inv with (f := fun a : bytes * bytes => fqn2 (fst a) (snd a)). rewrite map_map. rewrite (map_ext_in _ fst); [exact Keys|]. intros [n x] Hx. cbn [fst snd]. symmetry. apply (w_name _ _ W3 n x Hx). }
  exists (sort_by by_name vals), ds. split; [reflexivity|]. split; [|split].
  - rewrite T3, map_app in Names. apply nodup_app_r in Names. exact Names.
  - intros a. split.
    + intros Ha. split.
      * intros Hr. apply Rq in Hr as (x & Hx & ->). unfold ds in Ha. rewrite T3, map_app in Names. apply In1' in Hx. apply (in_map (fun e : bytes * table => (t_schema (snd e), t_name (snd e)))) in Hx. cbn [snd] in Hx.
        clear -Names Hx Ha. revert Names Hx Ha. generalize (map (fun e : bytes * table => (t_schema (snd e), t_name (snd e))) (p_tabs st2)) as l. generalize (map (fun e : bytes * table => (t_schema (snd e), t_name (snd e))) new) as l'. intros l' l.
        induction l as [|y l IH]; intros N Hx Ha; [contradiction|]. cbn [app] in N. inversion N as [|? ? N1 N2]; subst. destruct Hx as [->|Hx]; [apply N1, in_or_app; right; exact Ha|auto].
      * apply Known3. unfold ds in Ha. apply in_map_iff in Ha as ([n x] & <- & Hx). exists n, x. split; [rewrite T3; apply in_or_app; right; exact Hx|reflexivity].
    + intros [Hn Hr]. apply Known3 in Hr as (n & x & Hx & ->). rewrite T3 in Hx. apply in_app_or in Hx as [Hx|Hx].
      * exfalso. apply Hn, Rq. change (p_tabs st2) with (p_tabs st1) in Hx. rewrite T1 in Hx. apply in_map_iff in Hx as (x' & Ex & Hx'). injection Ex as <- ->. exists x. split; [exact Hx'|reflexivity].
      * unfold ds. apply (in_map (fun e : bytes * table => (t_schema (snd e), t_name (snd e)))) in Hx. exact Hx.
  - assert (Fq : map (fun x => v_fqn (see st3 x)) (map snd (p_tabs st3)) = map fst (p_tabs st3)).
    { rewrite map_map. apply map_ext_in. intros [n x] Hx. cbn [fst snd see v_fqn]. apply (w_name _ _ W3 n x Hx). }
    assert (Nv : NoDup (map v_fqn (map (see st3) vals))).
    { rewrite map_map. eapply Permutation_NoDup; [apply Permutation_map, Permutation_sym; exact Pv|]. rewrite Fq. exact Keys. }
    rewrite (sort_map (see st3) by_name seen_by_name) by reflexivity.
    assert (Pf : Permutation (map (see st3) vals) (map (with_refs fks) (map (expected cols idxs) (filter (fun r => wanted schemas tables (tr_schema r) (tr_name r)) tabs) ++ map (dependency cols) ds))).
    { rewrite Pv, T3, !map_app. rewrite <- See1. change (p_tabs st2) with (p_tabs st1). rewrite T1. apply Permutation_app; apply Permutation_refl'.
      - rewrite (map_map (fun x => (t_fqn x, x)) snd), (map_map _ (see st3)), (map_map (see st1) (with_refs fks)). apply map_ext_in. intros x Hx. cbn [snd]. apply (see_linked fks st1 st2 st3); [reflexivity|exact X3|exact FkO| | |].
        + intros id Hi. destruct (w_cols _ _ W2 _ x id (In1' x Hx) Hi) as (c & Hc & _). exists c. exact Hc.
        + intros id Hi. exact (P1 x id Hx Hi).
        + apply (Lk (t_fqn x)). apply (e_tabs _ _ X3), In1', Hx.
      - change (map (see st3) (map snd new) = map (with_refs fks) (map (dependency cols) ds)). unfold ds. rewrite (map_map snd (see st3)), (map_map _ (dependency cols)), (map_map _ (with_refs fks)). apply map_ext_in. intros [n x] Hx. cbn [snd]. destruct (N3 n x Hx) as (Do & Lx & _). assert (Ix : In (n, x) (p_tabs st3)) by (rewrite T3; apply in_or_app; right; exact Hx). apply see_dep; try assumption. rewrite (proj1 (proj2 (w_name _ _ W3 n x Ix))). exact Ix. }
    exact (sort_perm_eq v_fqn _ _ Nv Pf).
Qed.
