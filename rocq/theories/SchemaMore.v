(** Views, failures, column lists. *)
From Verif Require Import GoBase GoBaseFacts TypeModel TypeSpec TypeProofs ParamModel SchemaModel SchemaSpec SchemaProofs SchemaGraph SchemaDeps.
From Coq Require Import Relations Permutation Sorted.
Open Scope Z_scope.

(** ** ListTables *)
Lemma list_tables_ok cat tabs cols idxs fks st schemas tables : described cat tabs cols idxs fks ->
  exists st' ts, list_tables cat st schemas tables = (st', ROk ts) /\
    map (see st') ts = sort_by seen_by_name (map (expected cols idxs) (filter (fun r => wanted schemas tables (tr_schema r) (tr_name r)) tabs)).
Proof.
  intros D. unfold list_tables. destruct (list_tables_only_ok cat tabs cols idxs fks st schemas tables D) as (st' & ts & h & -> & _ & _ & M & _). exists st', (sort_by by_name ts). split; [reflexivity|].
  rewrite (sort_map (see st') by_name seen_by_name) by reflexivity. rewrite M. reflexivity.
Qed.
Lemma nodup_filter {A B} (f : A -> B) (p : A -> bool) l : NoDup (map f l) -> NoDup (map f (filter p l)).
Proof.
  induction l as [|x l IH]; cbn; intros N; [constructor|]. inversion N as [|? ? N1 N2]; subst. destruct (p x); cbn; [|auto]. constructor; [|auto]. intros X. apply N1. apply in_map_iff in X as (y & E & Hy). rewrite <- E. apply in_map. apply filter_In in Hy as [Hy _]. exact Hy.
Qed.
Lemma expected_sorted cat tabs cols idxs fks p : described cat tabs cols idxs fks ->
  StronglySorted (fun a b => bltb (v_fqn a) (v_fqn b) = true) (sort_by seen_by_name (map (expected cols idxs) (filter p tabs))).
Proof.
  intros D. refine (proj2 (sort_perm_eq v_fqn _ (map (expected cols idxs) (filter p tabs)) _ (Permutation_refl _))). rewrite map_map. cbn [expected v_fqn]. apply nodup_filter. pose proof (d_tabs_once _ _ _ _ _ D) as N. pose proof (d_tab_names _ _ _ _ _ D) as Dn. clear D. induction tabs as [|r tabs IH]; [constructor|]. cbn [map] in *. inversion N as [|? ? N1 N2]; subst. constructor.
  - intros X. apply in_map_iff in X as (q & E & Hq). apply N1. destruct (Dn r (or_introl eq_refl)) as [D1 _]. destruct (Dn q (or_intror Hq)) as [D2 _]. destruct (fqn2_inj _ _ _ _ D2 D1 E) as [<- <-]. apply (in_map (fun r => (tr_schema r, tr_name r))). exact Hq.
  - apply IH; [exact N2|]. intros q Hq. apply Dn. right. exact Hq.
Qed.

(** ** ListForeignKeys *)
Lemma fk_rows_filter schemas tables ks : forall st acc, exists st', each_row (fk_row schemas tables) (st, acc) (map SRow ks) = ((st', acc ++ filter (fun k => wanted schemas tables (k_schema k) (k_table k)) ks), ROk tt).
Proof.
  induction ks as [|k ks IH]; intros st acc; cbn [map each_row filter]; [exists st; rewrite app_nil_r; reflexivity|]. unfold fk_row at 1. destruct (wanted schemas tables (k_schema k) (k_table k)); cbn [negb]; [|apply IH].
  match goal with |- context [each_row _ (?s, ?a) _] => destruct (IH s a) as (st' & ->) end. exists st'. rewrite <- app_assoc. reflexivity.
Qed.
Lemma list_fks_filter cat fks st schemas tables : delivers (cat_fks cat) fks -> exists st', list_fks cat st schemas tables = (st', ROk (filter (fun k => wanted schemas tables (k_schema k) (k_table k)) fks)).
Proof. intros H. unfold list_fks. rewrite (run_delivers _ _ _ _ H). destruct (fk_rows_filter schemas tables fks st []) as (st' & ->). exists st'. reflexivity. Qed.

(** ** ListViews *)
Record views_inv (done : list viewrow) (h : list column) (m : list (bytes * table)) : Prop := {
  i_keys : NoDup (map fst m);
  i_val : forall n t, mget n m = Some t -> t = mkTab (t_schema t) (t_name t) [] true (t_cols t) [] None n /\ n = fqn2 (t_schema t) (t_name t) /\ no_dot (t_schema t) /\
           map (nth_error h) (t_cols t) = map Some (map (fun r => make_column (t_schema t) (t_name t) (vr_col r)) (filter (is_view_row (t_schema t, t_name t)) done));
  i_from : forall n, mget n m <> None <-> exists r, In r done /\ n = fqn2 (vr_schema r) (vr_table r) }.
Lemma nth_map_grow (h x : list column) ids l : map (nth_error h) ids = map Some l -> map (nth_error (h ++ x)) ids = map Some l.
Proof.
  revert l. induction ids as [|i ids IH]; intros [|c l] E; try discriminate; [reflexivity|]. cbn [map] in *. injection E as E1 E2. rewrite (IH l E2). f_equal. rewrite nth_error_app1; [exact E1|]. apply nth_error_Some. congruence.
Qed.
Lemma view_rows_ok schemas tables : forall rows done st m, (forall r, In r rows -> no_dot (vr_schema r)) -> views_inv done (p_heap st) m ->
  exists st' m', each_row (view_row schemas tables) (st, m) (map SRow rows) = ((st', m'), ROk tt) /\ views_inv (done ++ filter (fun r => wanted schemas tables (vr_schema r) (vr_table r)) rows) (p_heap st') m'.
Proof.
  induction rows as [|r rows IH]; intros done st m Dn I; cbn [map each_row filter]; [exists st, m; rewrite app_nil_r; split; [reflexivity|exact I]|].
  unfold view_row at 1. destruct (wanted schemas tables (vr_schema r) (vr_table r)); cbn [negb]; [|apply IH; [intros q Hq; apply Dn; right; exact Hq|exact I]].
  unfold alloc. set (n := fqn2 (vr_schema r) (vr_table r)). set (c := make_column (vr_schema r) (vr_table r) (vr_col r)). set (t := match mget n m with Some t => t | None => _ end). set (st1 := mkP _ _ _ _). set (t1 := mkTab (t_schema t) _ _ _ _ _ _ _).
  pose proof (Dn r (or_introl eq_refl)) as Dr.
  assert (Ht : t = mkTab (vr_schema r) (vr_table r) [] true (t_cols t) [] None n /\ map (nth_error (p_heap st)) (t_cols t) = map Some (map (fun q => make_column (vr_schema r) (vr_table r) (vr_col q)) (filter (is_view_row (vr_schema r, vr_table r)) done))).
  { unfold t. destruct (mget n m) as [u|] eqn:M.
    - destruct (i_val _ _ _ I n u M) as (E & En & Du & C). unfold n in En. destruct (fqn2_inj _ _ _ _ Dr Du En) as [E1 E2]. rewrite E1, E2. split; [exact E|exact C].
    - split; [reflexivity|]. cbn [t_cols map]. symmetry. replace (filter (is_view_row (vr_schema r, vr_table r)) done) with (@nil viewrow); [reflexivity|]. symmetry. clear -M I. 
      assert (Nx : forall q, In q done -> is_view_row (vr_schema r, vr_table r) q = false).
      { intros q Hq. unfold is_view_row. cbn [fst snd]. destruct (beqb_spec (vr_schema q) (vr_schema r)) as [E1|]; [|reflexivity]. destruct (beqb_spec (vr_table q) (vr_table r)) as [E2|]; [|reflexivity]. exfalso. apply (proj2 (i_from _ _ _ I n)); [|exact M]. exists q. split; [exact Hq|]. unfold n. rewrite E1, E2. reflexivity. }
      clear I. induction done as [|q done IHd]; [reflexivity|]. cbn [filter]. rewrite (Nx q (or_introl eq_refl)). apply IHd. intros x Hx. apply Nx. right. exact Hx. }
  destruct Ht as [Et Ec].
  assert (I1 : views_inv (done ++ [r]) (p_heap st1) (mput n t1 m)).
  { constructor.
    - apply mput_keys. exact (i_keys _ _ _ I).
    - intros k u Hu. rewrite mget_mput in Hu. destruct (beqb_spec n k) as [<-|Nk].
      + injection Hu as <-. unfold t1. rewrite Et. cbn [t_schema t_name t_type t_view t_cols t_idx t_pk t_fqn]. split; [reflexivity|]. split; [reflexivity|]. split; [exact Dr|]. rewrite filter_app. cbn [filter is_view_row fst snd]. unfold is_view_row at 2. cbn [fst snd]. rewrite !beqb_refl. cbn [andb]. rewrite !map_app. cbn [map]. f_equal; [exact (nth_map_grow _ _ _ _ Ec)|].
        unfold st1. cbn [p_heap]. rewrite nth_error_app2, Nat.sub_diag by lia. reflexivity.
      + destruct (i_val _ _ _ I k u Hu) as (E & En & Du & C). split; [exact E|]. split; [exact En|]. split; [exact Du|]. rewrite filter_app. cbn [filter]. replace (is_view_row (t_schema u, t_name u) r) with false; [rewrite app_nil_r; exact (nth_map_grow _ _ _ _ C)|].
        unfold is_view_row. cbn [fst snd]. destruct (beqb_spec (vr_schema r) (t_schema u)) as [E1|]; [|reflexivity]. destruct (beqb_spec (vr_table r) (t_name u)) as [E2|]; [|reflexivity]. exfalso. apply Nk. rewrite En. unfold n. rewrite E1, E2. reflexivity.
    - intros k. rewrite mget_mput. destruct (beqb_spec n k) as [<-|Nk].
      + split; [intros _; exists r; split; [apply in_or_app; right; left; reflexivity|reflexivity]|discriminate].
      + rewrite (i_from _ _ _ I k). split; intros (q & Hq & E); exists q; (split; [|exact E]); [apply in_or_app; left; exact Hq|]. apply in_app_or in Hq as [Hq|[<-|[]]]; [exact Hq|]. exfalso. apply Nk. symmetry. exact E. }
  destruct (IH (done ++ [r]) st1 (mput n t1 m) (fun q Hq => Dn q (or_intror Hq)) I1) as (st' & m' & E & I'). exists st', m'. rewrite <- app_assoc in I'. split; [exact E|exact I'].
Qed.
Lemma sort_ids h ids cs : map (nth_error h) ids = map Some cs -> map (nth_error h) (sort_by (by_pos h) ids) = map Some (sort_by col_by_pos cs).
Proof.
  intros E. assert (F : Forall2 (fun id c => nth_error h id = Some c) ids cs).
  { revert cs E. induction ids as [|i ids IH]; intros [|c cs] E; try discriminate; constructor; cbn [map] in E; injection E as E1 E2; auto. }
  assert (F' : Forall2 (fun id c => nth_error h id = Some c) (sort_by (by_pos h) ids) (sort_by col_by_pos cs)) by (apply sort_rel; [intros a b a' b' Ha Hb; unfold by_pos, pos_of, col_by_pos; rewrite Ha, Hb; reflexivity|exact F]).
  induction F' as [|i c l l' H F' IH]; cbn [map]; [reflexivity|]. rewrite H, IH. reflexivity.
Qed.
Lemma list_views_ok cat rows st schemas tables vord : delivers (cat_views cat) rows -> (forall r, In r rows -> no_dot (vr_schema r)) -> NoDup vord ->
  (forall n, In n vord <-> exists r, In r rows /\ wanted schemas tables (vr_schema r) (vr_table r) = true /\ n = fqn2 (vr_schema r) (vr_table r)) ->
  exists st' ts vs, list_views cat st schemas tables vord = (st', ROk ts) /\ NoDup vs /\
    (forall a, In a vs <-> exists r, In r rows /\ wanted schemas tables (vr_schema r) (vr_table r) = true /\ a = (vr_schema r, vr_table r)) /\
    map (see st') ts = sort_by seen_by_name (map (view_of rows) vs) /\ StronglySorted (fun a b => bltb (v_fqn a) (v_fqn b) = true) (map (see st') ts).
Proof.
  intros Dv Dn No Ho. unfold list_views. rewrite (run_delivers _ _ _ _ Dv).
  destruct (view_rows_ok schemas tables rows [] st [] Dn) as (st' & m & -> & I). { constructor; [constructor|discriminate|]. intros n. split; [intros X; contradiction X; reflexivity|]. intros (r & [] & _). }
  cbn [app] in I. set (keep := filter _ rows) in *. set (vals := mvalues vord m). set (name := fun t => (t_schema t, t_name t)).
  assert (Hv : forall t, In t vals -> exists n, In n vord /\ mget n m = Some t).
  { intros t Ht. unfold vals, mvalues in Ht. apply in_flat_map in Ht as (n & Hn & Ht). destruct (mget n m) as [u|] eqn:M; [|contradiction]. destruct Ht as [<-|[]]. exists n. split; assumption. }
  assert (Ev : map (see st') (map (sort_cols (p_heap st')) vals) = map (view_of rows) (map name vals)).
  { rewrite !map_map. apply map_ext_in. intros t Ht. destruct (Hv t Ht) as (n & Hn & M). destruct (i_val _ _ _ I n t M) as (E & En & _ & C). unfold view_of, see, sort_cols. rewrite E. cbn [name fst snd t_schema t_name t_type t_view t_cols t_idx t_pk t_fqn]. rewrite En. f_equal. unfold seen_columns. cbn [t_cols]. rewrite (sort_ids _ _ _ C). f_equal. f_equal. f_equal.
    unfold keep. assert (Wt : wanted schemas tables (t_schema t) (t_name t) = true).
    { destruct (proj1 (i_from _ _ _ I n)) as (z & Hz & Ez); [rewrite M; discriminate|]. unfold keep in Hz. apply filter_In in Hz as [Hz Wz]. destruct (i_val _ _ _ I n t M) as (_ & _ & Dt & _). rewrite En in Ez. destruct (fqn2_inj _ _ _ _ Dt (Dn z Hz) Ez) as [-> ->]. exact Wz. }
    change (name (mkTab (t_schema t) (t_name t) [] true (t_cols t) [] None (fqn2 (t_schema t) (t_name t)))) with (t_schema t, t_name t). clear -Wt. induction rows as [|q rows IH]; [reflexivity|]. cbn [filter]. destruct (wanted schemas tables (vr_schema q) (vr_table q)) eqn:Wq; cbn [filter].
    - destruct (is_view_row (t_schema t, t_name t) q); rewrite IH; reflexivity.
    - destruct (is_view_row (t_schema t, t_name t) q) eqn:Vq; [|exact IH]. exfalso. unfold is_view_row in Vq. cbn [fst snd] in Vq. apply andb_true_iff in Vq as [X1 X2]. destruct (beqb_spec (vr_schema q) (t_schema t)) as [E1|]; [|discriminate]. destruct (beqb_spec (vr_table q) (t_name t)) as [E2|]; [|discriminate]. rewrite E1, E2 in Wq. congruence. }
  assert (Fq : map (fun t => fqn2 (t_schema t) (t_name t)) vals = vord).
  { assert (Hm : forall n, In n vord -> exists t, mget n m = Some t /\ fqn2 (t_schema t) (t_name t) = n).
    { intros n Hn. destruct (mget n m) as [t|] eqn:M; [exists t; split; [reflexivity|]; symmetry; apply (i_val _ _ _ I n t M)|]. exfalso. apply (proj2 (i_from _ _ _ I n)); [|exact M]. apply Ho in Hn as (r & Hr & Wr & En). exists r. split; [unfold keep; apply filter_In; split; assumption|exact En]. }
    unfold vals, mvalues. clear -Hm. induction vord as [|n l IH]; [reflexivity|]. cbn [flat_map]. destruct (Hm n (or_introl eq_refl)) as (t & -> & E). cbn [app map]. rewrite E, IH; [reflexivity|]. intros k Hk. apply Hm. right. exact Hk. }
  assert (Nv : NoDup (map name vals)). { apply NoDup_map_inv with (f := fun a : bytes * bytes => fqn2 (fst a) (snd a)). rewrite map_map. cbn [name fst snd]. rewrite Fq. exact No. }
  exists st', (sort_by by_name (map (sort_cols (p_heap st')) vals)), (map name vals). split; [reflexivity|]. split; [exact Nv|]. split.
  - intros a. split.
    + intros Ha. apply in_map_iff in Ha as (t & <- & Ht). destruct (Hv t Ht) as (n & Hn & M). apply Ho in Hn as (r & Hr & Wr & En). exists r. split; [exact Hr|]. split; [exact Wr|]. destruct (i_val _ _ _ I n t M) as (_ & En' & Dt & _). rewrite En' in En. destruct (fqn2_inj _ _ _ _ Dt (Dn r Hr) En) as [E1 E2]. unfold name. rewrite E1, E2. reflexivity.
    + intros (r & Hr & Wr & ->). assert (In (fqn2 (vr_schema r) (vr_table r)) vord) by (apply Ho; exists r; repeat split; assumption). rewrite <- Fq in H. apply in_map_iff in H as (t & Et & Ht). destruct (Hv t Ht) as (n & _ & M). destruct (i_val _ _ _ I n t M) as (_ & _ & Dt & _). destruct (fqn2_inj _ _ _ _ Dt (Dn r Hr) Et) as [<- <-]. apply (in_map name). exact Ht.
  - rewrite (sort_map (see st') by_name seen_by_name) by reflexivity. rewrite Ev. split; [reflexivity|]. refine (proj2 (sort_perm_eq v_fqn _ (map (view_of rows) (map name vals)) _ (Permutation_refl _))). rewrite map_map. cbn [view_of v_fqn]. rewrite map_map. cbn [name fst snd]. rewrite Fq. exact No.
Qed.

(** ** Failures *)
Definition delivered {R} (q : rowsrc R + Z) : Prop := exists l, delivers q l.
Lemma each_row_all {S R} (f : S -> R -> S * outcome unit) : forall rows st st', each_row f st rows = (st', ROk tt) ->
  exists l, rows = map SRow l /\ forall r, In r l -> exists st1 st2, f st1 r = (st2, ROk tt).
Proof.
  induction rows as [|[r|e|] rows IH]; intros st st' E; cbn [each_row] in E; [exists []; split; [reflexivity|intros r []]| |discriminate|discriminate].
  destruct (f st r) as [st1 [[]|e|]] eqn:F; [|discriminate|discriminate]. destruct (IH st1 st' E) as (l & -> & H). exists (r :: l). split; [reflexivity|]. intros q [<-|Hq]; [exists st, st1; exact F|exact (H q Hq)].
Qed.
Lemma run_query_all {S R} (f : S -> R -> S * outcome unit) q st st' : run_query f st q = (st', ROk tt) -> exists l, delivers q l /\ forall r, In r l -> exists st1 st2, f st1 r = (st2, ROk tt).
Proof.
  unfold run_query. destruct q as [[rows err]|e]; [|discriminate]. cbn [src_rows src_err]. destruct (each_row f st rows) as [st1 [[]|e|]] eqn:E; [|discriminate|discriminate]. destruct err as [e|]; [discriminate|]. intros _.
  destruct (each_row_all f rows st st1 E) as (l & -> & H). exists l. split; [reflexivity|exact H].
Qed.
Lemma read_columns_delivered cat st s t st' cc : read_columns cat st s t = (st', ROk cc) -> delivered (cat_columns cat s t).
Proof. unfold read_columns. destruct (run_query _ _ _) as [[st1 ids] [[]|e|]] eqn:E; [|discriminate|discriminate]. intros _. apply run_query_all in E as (l & H & _). exists l. exact H. Qed.
Lemma read_indexes_delivered cat s t ii : read_indexes cat s t = ROk ii -> delivered (cat_indexes cat s t).
Proof. unfold read_indexes. destruct (run_query _ _ _) as [l [[]|e|]] eqn:E; [|discriminate|discriminate]. intros _. apply run_query_all in E as (r & H & _). exists r. exact H. Qed.
Lemma tables_delivered cat st schemas tables st' ts : list_tables_only cat st schemas tables = (st', ROk ts) ->
  exists rows, delivers (cat_tables cat) rows /\ forall r, In r rows -> wanted schemas tables (tr_schema r) (tr_name r) = true -> delivered (cat_columns cat (tr_schema r) (tr_name r)) /\ delivered (cat_indexes cat (tr_schema r) (tr_name r)).
Proof.
  unfold list_tables_only. destruct (run_query _ _ _) as [[st1 l1] [[]|e|]] eqn:E; [|discriminate|discriminate]. intros _. apply run_query_all in E as (rows & H & A). exists rows. split; [exact H|]. intros r Hr W. destruct (A r Hr) as ([sa la] & sb & Er). unfold table_row in Er. rewrite W in Er. cbn [negb] in Er.
  destruct (read_columns cat sa (tr_schema r) (tr_name r)) as [sc [cc|e|]] eqn:Rc; [|discriminate|discriminate]. destruct (read_indexes cat (tr_schema r) (tr_name r)) as [ii|e|] eqn:Ri; [|discriminate|discriminate]. split; [exact (read_columns_delivered _ _ _ _ _ _ Rc)|exact (read_indexes_delivered _ _ _ _ Ri)].
Qed.
Definition read_all (cat : catalog) (st : prov) : Prop := forall n x, In (n, x) (p_tabs st) -> delivered (cat_columns cat (t_schema x) (t_name x)).
Lemma mput_in {A} k (v : A) m e : In e (mput k v m) -> e = (k, v) \/ In e m.
Proof. induction m as [|[j w] m IH]; cbn; [intros [<-|[]]; auto|]. destruct (beqb j k); cbn; intros [<-|H]; auto. apply IH in H as [H|H]; auto. Qed.
Lemma each_col_read cat rec : (forall st s t st', read_all cat st -> rec st s t = Some (st', ROk tt) -> read_all cat st') -> forall ids st st', read_all cat st -> each_col rec st ids = Some (st', ROk tt) -> read_all cat st'.
Proof.
  intros H. induction ids as [|id ids IH]; intros st st' R E; cbn [each_col] in E; [injection E as <-; exact R|]. destruct (nth_error (p_heap st) id) as [c|]; [|discriminate]. destruct (mget (c_fqn c) (p_fks st)) as [k|]; [|exact (IH _ _ R E)].
  destruct (rec _ _ _) as [[st1 [[]|e|]]|] eqn:X; [|discriminate..]. apply (IH st1 st'); [|exact E]. refine (H _ _ _ _ _ X). exact R.
Qed.
Lemma discover_read cat fuel : forall st s t st', read_all cat st -> discover_table fuel cat st s t = Some (st', ROk tt) -> read_all cat st'.
Proof.
  induction fuel as [|f IH]; intros st s t st' R E; cbn [discover_table] in E; [discriminate|]. destruct (mget (fqn2 s t) (p_tabs st)); [injection E as <-; exact R|]. destruct (read_columns cat st s t) as [st1 [cc|e|]] eqn:Rc; [|discriminate|discriminate].
  refine (each_col_read cat _ IH _ _ _ _ E). intros n x Hx. cbn [put_table p_tabs] in Hx. apply mput_in in Hx as [Hx|Hx]; [injection Hx as _ ->; exact (read_columns_delivered _ _ _ _ _ _ Rc)|]. rewrite (proj1 (read_columns_fresh _ _ _ _ _ _ Rc)) in Hx. exact (R n x Hx).
Qed.
Lemma each_key_read cat fuel ord : forall st st', read_all cat st -> each_key fuel cat st ord = Some (st', ROk tt) -> read_all cat st'.
Proof.
  induction ord as [|n ord IH]; intros st st' R E; cbn [each_key] in E; [injection E as <-; exact R|]. destruct (mget n (p_cols st)) as [id|]; [|exact (IH _ _ R E)]. destruct (mget n (p_fks st)) as [k|]; [|exact (IH _ _ R E)].
  destruct (discover_table _ _ _ _ _) as [[st1 [[]|e|]]|] eqn:X; [|discriminate..]. apply (IH st1 st'); [|exact E]. refine (discover_read cat fuel _ _ _ _ _ X). exact R.
Qed.
Lemma each_row_keep {S R} (P : S -> Prop) (f : S -> R -> S * outcome unit) : (forall st r st', P st -> f st r = (st', ROk tt) -> P st') -> forall rows st st', P st -> each_row f st rows = (st', ROk tt) -> P st'.
Proof.
  intros H. induction rows as [|[r|e|] rows IH]; intros st st' Hs E; cbn [each_row] in E; [injection E as <-; exact Hs| |discriminate|discriminate]. destruct (f st r) as [st1 [[]|e|]] eqn:F; [|discriminate|discriminate]. exact (IH st1 st' (H _ _ _ Hs F) E).
Qed.
Lemma attach_tabs ii : forall st n pk st' o, attach st n ii pk = (st', o) -> p_tabs st' = p_tabs st.
Proof.
  assert (C : forall ix names st n pk st' o, attach_cols st n ix names pk = (st', o) -> p_tabs st' = p_tabs st).
  { intros ix. induction names as [|cn names IH]; intros st n pk st' o E; cbn [attach_cols] in E; [injection E as <- _; reflexivity|]. destruct (mget _ (p_cols st)); [|injection E as <- _; reflexivity]. apply IH in E. exact E. }
  induction ii as [|ix ii IH]; intros st n pk st' o E; cbn [attach] in E; [injection E as <- _; reflexivity|]. destruct (attach_cols st n ix (ix_cols ix) pk) as [st1 [pk1|e|]] eqn:A; apply C in A; [|injection E as <- _; exact A|injection E as <- _; exact A]. apply IH in E. congruence.
Qed.
Lemma tables_read cat schemas tables st st' ts : read_all cat st -> list_tables_only cat st schemas tables = (st', ROk ts) -> read_all cat st'.
Proof.
  intros R. unfold list_tables_only, run_query. destruct (cat_tables cat) as [[rows err]|e]; [|discriminate]. cbn [src_rows src_err]. destruct (each_row _ _ rows) as [[st1 l1] [[]|e|]] eqn:E; [|discriminate|discriminate]. destruct err; [discriminate|]. intros X. injection X as <- _.
  refine (each_row_keep (fun x : prov * list table => read_all cat (fst x)) _ _ _ _ _ _ E); [|exact R]. intros [sa la] r [sb lb] Ra Er. cbn [fst] in *. unfold table_row in Er. destruct (wanted _ _ _ _); cbn [negb] in Er; [|injection Er as <- _; exact Ra].
  destruct (read_columns cat sa (tr_schema r) (tr_name r)) as [sc [cc|e|]] eqn:Rc; [|discriminate|discriminate]. destruct (read_indexes cat (tr_schema r) (tr_name r)) as [ii|e|]; [|discriminate|discriminate]. destruct (attach sc _ ii None) as [sd [pk|e|]] eqn:At; [|discriminate|discriminate].
  injection Er as <- _. intros n x Hx. cbn [put_table p_tabs t_fqn] in Hx. apply mput_in in Hx as [Hx|Hx]; [injection Hx as _ ->; exact (read_columns_delivered _ _ _ _ _ _ Rc)|]. rewrite (attach_tabs _ _ _ _ _ _ At), (proj1 (read_columns_fresh _ _ _ _ _ _ Rc)) in Hx. exact (Ra n x Hx).
Qed.
Lemma mvalues_in {A} ord (m : list (bytes * A)) v : In v (mvalues ord m) -> exists n, In (n, v) m.
Proof. unfold mvalues. intros H. apply in_flat_map in H as (n & _ & H). destruct (mget n m) as [w|] eqn:M; [|contradiction]. destruct H as [<-|[]]. exists n. exact (mget_in _ _ _ M). Qed.
Lemma deps_delivered fuel cat schemas tables ord tord st' ts : list_tables_deps fuel cat new_prov schemas tables ord tord = Some (st', ROk ts) ->
  (exists rows, delivers (cat_tables cat) rows /\ forall r, In r rows -> wanted schemas tables (tr_schema r) (tr_name r) = true -> delivered (cat_columns cat (tr_schema r) (tr_name r)) /\ delivered (cat_indexes cat (tr_schema r) (tr_name r))) /\
  delivered (cat_fks cat) /\ forall x, In x ts -> delivered (cat_columns cat (t_schema x) (t_name x)).
Proof.
  unfold list_tables_deps. destruct (list_tables_only cat new_prov schemas tables) as [st1 [t1|e|]] eqn:E1; [|discriminate|discriminate]. intros E. split; [exact (tables_delivered _ _ _ _ _ _ E1)|]. unfold discover in E. destruct (list_fks cat st1 [] []) as [st2 [ks|e|]] eqn:E2; [|discriminate|discriminate].
  assert (R1 : read_all cat st1) by (refine (tables_read _ _ _ _ _ _ _ E1); intros n x []).
  assert (X2 : delivered (cat_fks cat) /\ p_tabs st2 = p_tabs st1).
  { unfold list_fks in E2. destruct (run_query _ _ _) as [[sa la] [[]|e|]] eqn:Q; [|discriminate|discriminate]. injection E2 as <- <-. split; [apply run_query_all in Q as (l & H & _); exists l; exact H|].
    pose proof (run_query_inv (fun x : prov * list fkey => p_tabs (fst x) = p_tabs st1) (fk_row [] []) (cat_fks cat) (st1, [])) as K. rewrite Q in K. apply K; [|reflexivity]. intros [sx lx] k H. unfold fk_row. destruct (wanted _ _ _ _); exact H. }
  destruct X2 as [X2 T2]. split; [exact X2|]. destruct (each_key fuel cat st2 ord) as [[st3 [[]|e|]]|] eqn:E3; [|discriminate..]. cbn [sorted_tables] in E. injection E as <- <-.
  assert (R3 : read_all cat st3) by (refine (each_key_read _ _ _ _ _ _ E3); intros n x Hx; rewrite T2 in Hx; exact (R1 n x Hx)).
  intros x Hx. eapply Permutation_in in Hx; [|apply Permutation_sym, sort_perm_by]. apply mvalues_in in Hx as (n & Hx). exact (R3 n x Hx).
Qed.
Lemma views_delivered cat st schemas tables vord st' ts : list_views cat st schemas tables vord = (st', ROk ts) -> delivered (cat_views cat).
Proof. unfold list_views. destruct (run_query _ _ _) as [[sa m] [[]|e|]] eqn:E; [|discriminate|discriminate]. intros _. apply run_query_all in E as (l & H & _). exists l. exact H. Qed.
Lemma fks_delivered cat st schemas tables st' ts : list_fks cat st schemas tables = (st', ROk ts) -> delivered (cat_fks cat).
Proof. unfold list_fks. destruct (run_query _ _ _) as [[sa m] [[]|e|]] eqn:E; [|discriminate|discriminate]. intros _. apply run_query_all in E as (l & H & _). exists l. exact H. Qed.

(** ** Column lists *)
Lemma split_comma ws : Forall (fun w => ~ In (ch 44) w) ws -> forall w, ~ In (ch 44) w -> split_on (ch 44) (join (B ", ") (w :: ws)) = w :: map (fun x => ch 32 :: x) ws.
Proof.
  induction ws as [|x ws IH]; intros F w Hw; [apply split_on_word; exact Hw|]. inversion F as [|? ? F1 F2]; subst. change (join (B ", ") (w :: x :: ws)) with (w ++ ch 44 :: ch 32 :: join (B ", ") (x :: ws)). rewrite split_on_cons by exact Hw. f_equal. cbn [map].
  rewrite <- (IH F2 (ch 32 :: x)) by (intros [X|X]; [discriminate|exact (F1 X)]). f_equal. destruct ws; reflexivity.
Qed.
Lemma items_join ws : ws <> [] -> Forall (fun w => ~ In (ch 44) w) ws -> items (join (B ", ") ws) = ws.
Proof.
  intros Hn F. destruct ws as [|w ws]; [congruence|]. inversion F as [|? ? F1 F2]; subst. unfold items. rewrite (split_comma ws F2 w F1). f_equal. rewrite map_map. rewrite <- (map_id ws) at 2. apply map_ext. intros x. destruct (ascii_dec (ch 32) (ch 32)); [reflexivity|congruence].
Qed.
Lemma sql_string_plain v rest : ~ In (ch 39) v -> (forall r, rest <> ch 39 :: r) -> sql_string (v ++ ch 39 :: rest) = Some (v, rest).
Proof.
  intros H Hr. induction v as [|c v IH]; cbn [app sql_string].
  - destruct (ascii_dec (ch 39) (ch 39)); [|congruence]. destruct rest as [|d rest]; [reflexivity|]. destruct (ascii_dec d (ch 39)) as [->|]; [exfalso; exact (Hr rest eq_refl)|reflexivity].
  - destruct (ascii_dec c (ch 39)) as [->|]; [exfalso; apply H; left; reflexivity|]. rewrite IH; [reflexivity|]. intros X. apply H. right. exact X.
Qed.
