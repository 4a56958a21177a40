(** From what a server answers to what ListTables returns. *)
From Verif Require Import GoBase GoBaseFacts TypeModel ParamModel SchemaModel SchemaSpec SchemaProofs SchemaMore CatalogModel CatalogSpec CatalogProofs.
From Coq Require Import Permutation Sorted Lia.
Open Scope Z_scope.

Definition rows_of {R} (q : rowsrc R + Z) : list R :=
  match q with inl src => flat_map (fun r => match r with SRow x => [x] | _ => [] end) (src_rows src) | inr _ => [] end.
Lemma rows_delivered {R} (q : rowsrc R + Z) l : delivers q l -> rows_of q = l.
Proof. intros ->. unfold rows_of. cbn [src_rows]. rewrite flat_map_map. rewrite (flat_map_single (fun x => x)). apply map_id. Qed.
Lemma some_order_rows {R} (q : rowsrc R + Z) l : some_order q l -> Permutation l (rows_of q) /\ delivers q (rows_of q).
Proof. intros (l' & P & D). rewrite (rows_delivered q l' D). auto. Qed.

(** Only the answers for the tables that are listed matter. *)
Lemma list_tables_congr cat cat' st schemas tables rows : delivers (cat_tables cat) rows -> cat_tables cat' = cat_tables cat ->
  (forall r, In r rows -> cat_columns cat' (tr_schema r) (tr_name r) = cat_columns cat (tr_schema r) (tr_name r) /\ cat_indexes cat' (tr_schema r) (tr_name r) = cat_indexes cat (tr_schema r) (tr_name r)) ->
  list_tables cat' st schemas tables = list_tables cat st schemas tables.
Proof.
  intros D E H. unfold list_tables, list_tables_only. rewrite E. unfold run_query. rewrite D. cbn [src_rows src_err].
  enough (G : forall x, each_row (table_row cat' schemas tables) x (map SRow rows) = each_row (table_row cat schemas tables) x (map SRow rows)) by (rewrite G; reflexivity).
  clear D. induction rows as [|r rows IH]; intros x; [reflexivity|]. cbn [map each_row].
  assert (T : table_row cat' schemas tables x r = table_row cat schemas tables x r).
  { destruct (H r (or_introl eq_refl)) as [E1 E2]. unfold table_row, read_columns, read_indexes. rewrite E1, E2. reflexivity. }
  rewrite T. destruct (table_row cat schemas tables x r) as [y [u|e|]]; [|reflexivity|reflexivity]. apply IH. intros r' Hr'. apply H. right. exact Hr'.
Qed.

(** ** Columns *)
Lemma yes_no_fold b : contains_fold nullable_vals (yes_no b) = b. Proof. destruct b; reflexivity. Qed.
Lemma pos_sorted {C} (f : nat * C -> column) l : forall n, (forall e, In e (combine (seq n (length l)) l) -> c_pos (f e) = Z.of_nat (S (fst e))) ->
  StronglySorted (fun a b => col_by_pos a b = true) (map f (combine (seq n (length l)) l)).
Proof.
  induction l as [|c l IH]; intros n H; cbn [length seq combine map]; [constructor|]. constructor.
  - apply IH. intros e He. apply H. right. exact He.
  - apply Forall_forall. intros k Hk. apply in_map_iff in Hk. destruct Hk as ([i d] & <- & Hi). pose proof (in_combine_l _ _ _ _ Hi) as Hs. apply in_seq in Hs. unfold col_by_pos.
    rewrite (H (n, c) (or_introl eq_refl)), (H (i, d)) by (right; exact Hi). cbn [fst]. apply Z.ltb_lt. lia.
Qed.
Lemma strict_sort cs l : Permutation l cs -> StronglySorted (fun a b => col_by_pos a b = true) l -> sort_by col_by_pos cs = l.
Proof.
  intros P S. assert (As : forall a b, col_by_pos a b = true -> col_by_pos b a = false) by (unfold col_by_pos; intros a b H; apply Z.ltb_lt in H; apply Z.ltb_ge; lia).
  assert (P2 : Permutation l (sort_by col_by_pos cs)) by (eapply Permutation_trans; [exact P|apply sort_perm_by]).
  assert (SS : StronglySorted (le_by col_by_pos) (sort_by col_by_pos cs)) by (apply sort_sorted; [exact As|unfold col_by_pos; intros a b c H1 H2; apply Z.ltb_ge in H1, H2; apply Z.ltb_ge; lia]).
  symmetry. apply (sorted_unique col_by_pos); [intros a; apply Z.ltb_irrefl|exact As|exact P2|exact S|].
  (* positions are distinct *)
  assert (ND : NoDup (map c_pos l)).
  { clear - S. induction S as [|x l S IH F]; cbn [map]; constructor; [|exact IH]. intros H. apply in_map_iff in H. destruct H as (y & E & Hy). rewrite Forall_forall in F. specialize (F y Hy). unfold col_by_pos in F. apply Z.ltb_lt in F. lia. }
  assert (ND2 : NoDup (map c_pos (sort_by col_by_pos cs))) by (eapply Permutation_NoDup; [apply Permutation_map, P2|exact ND]).
  clear - SS ND2. induction SS as [|x l S IH F]; constructor; cbn [map] in ND2; inversion ND2 as [|? ? N ND E]; subst; [apply IH, ND|]. apply Forall_forall. intros y Hy. rewrite Forall_forall in F. specialize (F y Hy). unfold le_by, col_by_pos in *. apply Z.ltb_ge in F. apply Z.ltb_lt.
  assert (c_pos x <> c_pos y) by (intros Q; apply N; rewrite Q; apply in_map, Hy). lia.
Qed.
Definition col_row (udt : acol -> bytes) (e : nat * acol) : colrow := mkCR (a_name (snd e)) (a_type (snd e)) (udt (snd e)) (yes_no (a_null (snd e))) (a_max (snd e)) (Z.of_nat (S (fst e))).
Lemma col_rows_map udt t : col_rows udt t = map (col_row udt) (enum (at_cols t)).
Proof. unfold col_rows. apply map_ext. intros [i c]. reflexivity. Qed.
Lemma col_rows_names udt t : map cr_name (col_rows udt t) = col_names t.
Proof. rewrite col_rows_map, map_map. unfold col_names. rewrite <- (enum_snd (at_cols t)) at 2. rewrite map_map. reflexivity. Qed.
Lemma sorted_columns udt t ii rows : Z.of_nat (length (at_cols t)) < 2 ^ 32 -> Permutation (col_rows udt t) rows ->
  sort_by col_by_pos (map (column_of (at_schema t) (at_name t) ii) rows) = map (fun e => column_of (at_schema t) (at_name t) ii (col_row udt e)) (enum (at_cols t)).
Proof.
  intros L P. apply strict_sort.
  - rewrite <- (map_map (col_row udt)), <- col_rows_map. apply Permutation_map, P.
  - unfold enum. apply (pos_sorted (fun e => column_of (at_schema t) (at_name t) ii (col_row udt e)) (at_cols t) 0). intros [i c] H. cbn [fst column_of make_column c_pos col_row cr_pos snd]. unfold u32, wrap_u. apply Z.mod_small.
    apply in_combine_l in H. apply in_seq in H. lia.
Qed.

(** ** The primary key *)
Lemma pk_of_some ii n : pk_of ii = Some n -> exists ix, In ix ii /\ ix_primary ix = true /\ ix_cols ix = [n].
Proof.
  unfold pk_of. assert (G : forall l pk, fold_left (fun pk ix => match ix_cols ix with [n] => if ix_primary ix then Some n else pk | _ => pk end) l pk = Some n -> pk = Some n \/ exists ix, In ix l /\ ix_primary ix = true /\ ix_cols ix = [n]).
  { induction l as [|ix l IH]; intros pk H; [left; exact H|]. cbn [fold_left] in H. apply IH in H. destruct H as [H|(y & Hy & R)]; [|right; exists y; split; [right; exact Hy|exact R]]. destruct (ix_cols ix) as [|c [|d r]] eqn:Ec; auto. destruct (ix_primary ix) eqn:Ep; auto.
    right. exists ix. injection H as ->. split; [left; reflexivity|auto]. }
  intros H. destruct (G ii None H) as [|R]; [discriminate|exact R].
Qed.
Lemma pk_of_one ii ix n : In ix ii -> ix_primary ix = true -> ix_cols ix = [n] -> (forall y, In y ii -> ix_primary y = true -> y = ix) -> pk_of ii = Some n.
Proof.
  intros Hin Hp Hc U. unfold pk_of.
  assert (G : forall ii, (forall y, In y ii -> ix_primary y = true -> y = ix) -> forall pk, In ix ii \/ pk = Some n -> fold_left (fun pk ix => match ix_cols ix with [n] => if ix_primary ix then Some n else pk | _ => pk end) ii pk = Some n).
  { clear - Hp Hc. induction ii as [|y ii IH]; intros U pk H; [destruct H as [[]|H]; exact H|]. cbn [fold_left]. apply IH; [intros z Hz; apply U; right; exact Hz|]. destruct H as [[->|H]| ->]; [right; rewrite Hc, Hp; reflexivity|left; exact H|right].
    destruct (ix_cols y) as [|c [|d r]] eqn:Ec; try reflexivity. destruct (ix_primary y) eqn:Ep; [|reflexivity]. assert (y = ix) by (apply U; [left; reflexivity|exact Ep]). congruence. }
  apply G; auto.
Qed.

(** ** Listing *)
(** The index rows of a table, whatever the server: *)
Definition index_row_of (t : atable) (a : aindex) (r : idxrow) : Prop :=
  ir_name r = ai_name a /\ ir_primary r = ai_primary a /\ ir_unique r = ai_unique a /\ exists cs, Permutation (index_columns t a) cs /\ split_on (ch 44) (ir_cols r) = cs.
Lemma forall2_perm {A C} (R : A -> C -> Prop) l r r' : Forall2 R l r -> Permutation r r' -> exists l', Permutation l l' /\ Forall2 R l' r'.
Proof.
  intros F P. revert l F. induction P as [|x r r' P IH|x y r|r1 r2 r3 P1 IH1 P2 IH2]; intros l F.
  - inversion F; subst. exists []. split; constructor.
  - inversion F as [|a ? l0 ? Ra F']; subst. destruct (IH l0 F') as (l' & Pl & Fl). exists (a :: l'). split; constructor; assumption.
  - inversion F as [|a ? l0 ? Ra F']; subst. inversion F' as [|b ? l1 ? Rb F'']; subst. exists (b :: a :: l1). split; [apply perm_swap|repeat constructor; assumption].
  - destruct (IH1 l F) as (l1 & Pl1 & F1). destruct (IH2 l1 F1) as (l2 & Pl2 & F2). exists l2. split; [eapply Permutation_trans; eassumption|exact F2].
Qed.
Lemma perm_filter {A} (p : A -> bool) l l' : Permutation l l' -> Permutation (filter p l) (filter p l').
Proof.
  induction 1 as [|x l l' P IH|x y l|l1 l2 l3 P1 IH1 P2 IH2]; cbn [filter].
  - constructor.
  - destruct (p x); [constructor; exact IH|exact IH].
  - destruct (p x), (p y); try apply Permutation_refl. apply perm_swap.
  - eapply Permutation_trans; eassumption.
Qed.
Lemma f2_in_r {A C} (R : A -> C -> Prop) l r y : Forall2 R l r -> In y r -> exists a, In a l /\ R a y.
Proof. induction 1 as [|a z l r H F IH]; intros Hy; [destruct Hy|]. destruct Hy as [->|Hy]; [exists a; split; [left; reflexivity|exact H]|]. destruct (IH Hy) as (b & Hb & Rb). exists b. split; [right; exact Hb|exact Rb]. Qed.
Lemma f2_in_l {A C} (R : A -> C -> Prop) l r a : Forall2 R l r -> In a l -> exists y, In y r /\ R a y.
Proof. induction 1 as [|b z l r H F IH]; intros Hy; [destruct Hy|]. destruct Hy as [->|Hy]; [exists z; split; [left; reflexivity|exact H]|]. destruct (IH Hy) as (y & Hb & Rb). exists y. split; [right; exact Hb|exact Rb]. Qed.
Lemma f2_one {A C} (R : A -> C -> Prop) (P : A -> Prop) (Q : C -> Prop) l r : Forall2 R l r -> NoDup l -> (forall a b, In a l -> In b l -> P a -> P b -> a = b) -> (forall a y, R a y -> Q y -> P a) ->
  forall y z, In y r -> In z r -> Q y -> Q z -> y = z.
Proof.
  induction 1 as [|a x l r H F IH]; intros ND U RQ y z Hy Hz Qy Qz; [destruct Hy|]. inversion ND as [|? ? N ND' E]; subst.
  assert (K : forall w, In w r -> Q w -> Q x -> False).
  { intros w Hw Qw Qx. destruct (f2_in_r R l r w F Hw) as (b & Hb & Rb). assert (a = b) by (apply U; [left; reflexivity|right; exact Hb|eapply RQ; eassumption|eapply RQ; eassumption]). subst. contradiction. }
  destruct Hy as [->|Hy], Hz as [->|Hz]; [reflexivity|exfalso; apply (K z); assumption|exfalso; apply (K y); assumption|]. apply IH; auto. intros b c Hb Hc. apply U; right; assumption.
Qed.
Lemma listing cat (L : list atable) (ty : atable -> bytes) (udt : acol -> bytes) (idx : atable -> list aindex) schemas tables st :
  NoDup (map table_key L) -> (forall t, In t L -> NoDup (col_names t) /\ no_dot (at_schema t) /\ no_dot (at_name t) /\ Z.of_nat (length (at_cols t)) < 2 ^ 32) ->
  (forall t a b, In t L -> In a (idx t) -> In b (idx t) -> ai_primary a = true -> ai_primary b = true -> a = b) ->
  (forall t, In t L -> NoDup (idx t)) ->
  some_order (cat_tables cat) (map (fun t => mkTR (at_schema t) (at_name t) (ty t)) L) ->
  (forall t, In t L -> some_order (cat_columns cat (at_schema t) (at_name t)) (col_rows udt t)) ->
  (forall t, In t L -> exists rs, some_order (cat_indexes cat (at_schema t) (at_name t)) rs /\ Forall2 (index_row_of t) (idx t) rs) ->
  exists st' ts l, list_tables cat st schemas tables = (st', ROk ts) /\ Permutation l (filter (fun t => wanted schemas tables (at_schema t) (at_name t)) L) /\
    Forall2 (fun t x => shows (ty t) udt (idx t) st' t x) l ts /\ StronglySorted (fun a b => bltb (t_fqn a) (t_fqn b) = true) ts.
Proof.
  intros NDL Names Pk NDi HT HC HI.
  set (key := fun t => (at_schema t, at_name t)). set (row := fun t => mkTR (at_schema t) (at_name t) (ty t)) in *.
  destruct (some_order_rows _ _ HT) as [PT DT]. set (tabs := rows_of (cat_tables cat)) in *.
  set (listed := fun s n => existsb (fun t => beqb (at_schema t) s && beqb (at_name t) n) L).
  assert (LI : forall s n, listed s n = true <-> exists t, In t L /\ at_schema t = s /\ at_name t = n).
  { intros s n. unfold listed. rewrite existsb_exists. split; [intros (t & Ht & E); exists t; apply andb_true_iff in E; destruct E as [E1 E2]; destruct (beqb_spec (at_schema t) s); [|discriminate]; destruct (beqb_spec (at_name t) n); [auto|discriminate]|].
    intros (t & Ht & <- & <-). exists t. split; [exact Ht|]. rewrite !beqb_refl. reflexivity. }
  set (cols := fun s n => if listed s n then rows_of (cat_columns cat s n) else []).
  set (idxs := fun s n => if listed s n then rows_of (cat_indexes cat s n) else []).
  set (cat' := mkCat (cat_tables cat) (cat_views cat) (fun s n => if listed s n then cat_columns cat s n else inl (mkSrc [] None)) (fun s n => if listed s n then cat_indexes cat s n else inl (mkSrc [] None)) (inl (mkSrc [] None))).
  assert (TL : forall r, In r tabs -> exists t, In t L /\ r = row t).
  { intros r Hr. apply (Permutation_in _ (Permutation_sym PT)) in Hr. apply in_map_iff in Hr. destruct Hr as (t & <- & Ht). exists t. auto. }
  assert (IR : forall t, In t L -> exists rs l, delivers (cat_indexes cat (at_schema t) (at_name t)) rs /\ Permutation (idx t) l /\ Forall2 (index_row_of t) l rs).
  { intros t Ht. destruct (HI t Ht) as (rs & (rs' & P & D) & F). destruct (forall2_perm _ _ _ _ F P) as (l & Pl & Fl). exists rs', l. auto. }
  assert (Des : described cat' tabs cols idxs []).
  { constructor; cbn [cat_tables cat_columns cat_indexes cat_fks cat'].
    - exact DT.
    - intros s n. unfold cols. destruct (listed s n) eqn:E; [|reflexivity]. apply LI in E. destruct E as (t & Ht & <- & <-). apply (some_order_rows _ _ (HC t Ht)).
    - intros s n. unfold idxs. destruct (listed s n) eqn:E; [|reflexivity]. apply LI in E. destruct E as (t & Ht & <- & <-). destruct (IR t Ht) as (rs & l & D & _). rewrite (rows_delivered _ _ D). exact D.
    - reflexivity.
    - eapply Permutation_NoDup; [apply Permutation_map, PT|]. rewrite map_map. exact NDL.
    - intros s n. unfold cols. destruct (listed s n) eqn:E; [|constructor]. apply LI in E. destruct E as (t & Ht & <- & <-). destruct (some_order_rows _ _ (HC t Ht)) as [P _].
      eapply Permutation_NoDup; [apply Permutation_map, P|]. rewrite col_rows_names. apply (Names t Ht).
    - intros s n i m. unfold idxs, cols. destruct (listed s n) eqn:E; [|intros []]. apply LI in E. destruct E as (t & Ht & <- & <-). destruct (IR t Ht) as (rs & l & D & _ & F). rewrite (rows_delivered _ _ D). intros Hi Hm.
      destruct (some_order_rows _ _ (HC t Ht)) as [P _]. apply (Permutation_in _ (Permutation_map cr_name P)). rewrite col_rows_names.
      assert (exists a, index_row_of t a i) as (a & _ & _ & _ & cs & Pc & <-). { clear - F Hi. induction F as [|a r l rs R F IH]; [destruct Hi|]. destruct Hi as [->|Hi]; [exists a; exact R|apply IH, Hi]. }
      apply (Permutation_in _ (Permutation_sym Pc)) in Hm. unfold index_columns in Hm. apply filter_In in Hm. apply Hm.
    - intros k [].
    - intros r Hr. destruct (TL r Hr) as (t & Ht & ->). cbn [row tr_schema tr_name]. destruct (Names t Ht) as (_ & N1 & N2 & _). auto.
    - intros k []. }
  assert (CE : list_tables cat' st schemas tables = list_tables cat st schemas tables).
  { apply (list_tables_congr cat cat' st schemas tables tabs DT eq_refl). intros r Hr. destruct (TL r Hr) as (t & Ht & ->). cbn [row tr_schema tr_name cat' cat_columns cat_indexes]. assert (E : listed (at_schema t) (at_name t) = true) by (apply LI; exists t; auto). rewrite E. auto. }
  destruct (list_tables_ok cat' tabs cols idxs [] st schemas tables Des) as (st' & ts & E & M). pose proof (expected_sorted cat' tabs cols idxs [] (fun r => wanted schemas tables (tr_schema r) (tr_name r)) Des) as Srt. rewrite CE in E.
  (* the listed tables, in the order of the result *)
  assert (PF : Permutation (map (see st') ts) (map (fun t => expected cols idxs (row t)) (filter (fun t => wanted schemas tables (at_schema t) (at_name t)) L))).
  { rewrite M. eapply Permutation_trans; [apply Permutation_sym, sort_perm_by|]. rewrite <- (map_map row (expected cols idxs)). apply Permutation_map.
    assert (FE : forall l, filter (fun r => wanted schemas tables (tr_schema r) (tr_name r)) (map row l) = map row (filter (fun t => wanted schemas tables (at_schema t) (at_name t)) l)).
    { induction l as [|t l IH]; [reflexivity|]. cbn [map filter row tr_schema tr_name]. rewrite IH. destruct (wanted _ _ _ _); reflexivity. }
    rewrite <- FE. apply Permutation_sym, perm_filter, PT. }
  apply Permutation_map_inv in PF. destruct PF as (l & El & Pl). exists st', ts, l. split; [exact E|]. split; [apply Permutation_sym, Pl|]. split.
  2:{ rewrite <- M in Srt. clear - Srt. assert (FQ : forall a, v_fqn (see st' a) = t_fqn a) by reflexivity. induction ts as [|x ts IH]; [constructor|]. cbn [map] in Srt. inversion Srt as [|? ? S F]; subst. constructor; [apply IH, S|]. apply Forall_forall. intros y Hy. rewrite Forall_forall in F. apply (F (see st' y)). apply in_map, Hy. }
  assert (LL : forall t, In t l -> In t L) by (intros t Ht; apply (Permutation_in _ (Permutation_sym Pl)) in Ht; apply filter_In in Ht; apply Ht).
  clear Pl E M Srt. revert ts El. induction l as [|t l IH]; intros ts El; destruct ts as [|x ts]; try discriminate; [constructor|]. cbn [map] in El. injection El as E1 E2 E3 E4 E5 E6 E7 E8 El.
  constructor; [|apply IH; [intros u Hu; apply LL; right; exact Hu|exact El]]. assert (Ht : In t L) by (apply LL; left; reflexivity). clear IH El LL.
  assert (LT : listed (at_schema t) (at_name t) = true) by (apply LI; exists t; auto). unfold cols, idxs in E6, E7, E8. rewrite LT in E6, E7, E8.
  destruct (some_order_rows _ _ (HC t Ht)) as [PC _]. destruct (Names t Ht) as (NDc & _ & _ & Len). destruct (IR t Ht) as (rs & li & D & Pi & F). rewrite (rows_delivered _ _ D) in E6, E7, E8.
  rewrite (sorted_columns udt t _ _ Len PC) in E6, E8.
  assert (FI : Forall2 (fun a i => ix_name i = ai_name a /\ ix_primary i = ai_primary a /\ ix_unique i = ai_unique a /\ Permutation (ix_cols i) (index_columns t a)) li (map make_index rs)).
  { clear - F. induction F as [|a r li rs (R1 & R2 & R3 & cs & Pc & Sc) F IH]; cbn [map]; constructor; [|exact IH]. cbn [make_index ix_name ix_primary ix_unique ix_cols]. rewrite Sc. repeat split; auto. apply Permutation_sym, Pc. }
  constructor.
  - auto 8.
  - rewrite E6. rewrite map_map. assert (B : forall e, In e (enum (at_cols t)) -> (fst e < length (at_cols t))%nat) by (intros [i c] He; apply enum_in in He; cbn [fst]; apply nth_error_Some; congruence).
    clear - B Len. induction (enum (at_cols t)) as [|[i c] l IH]; cbn [map]; constructor; [|apply IH; intros e He; apply B; right; exact He]. eexists. split; [reflexivity|]. cbn [column_of make_column col_row cr_name cr_type cr_udt cr_null cr_max cr_pos c_name c_type c_udt c_null c_max c_pos snd fst].
    rewrite yes_no_fold. repeat (split; [reflexivity|]). specialize (B (i, c) (or_introl eq_refl)). cbn [fst] in B. unfold u32, wrap_u. apply Z.mod_small. lia.
  - rewrite E7. exists li. split; [apply Permutation_sym, Pi|exact FI].
  - set (ii := map make_index rs) in *.
    set (cs := map (fun e => column_of (at_schema t) (at_name t) ii (col_row udt e)) (enum (at_cols t))) in *.
    assert (NDl : NoDup li) by (eapply Permutation_NoDup; [exact Pi|apply NDi, Ht]).
    assert (PU : forall a b, In a li -> In b li -> ai_primary a = true -> ai_primary b = true -> a = b) by (intros a b Ha Hb; apply (Pk t); auto; eapply Permutation_in; try apply Permutation_sym, Pi; assumption).
    assert (One : forall y z, In y ii -> In z ii -> ix_primary y = true -> ix_primary z = true -> y = z) by (apply (f2_one _ (fun a => ai_primary a = true) (fun y => ix_primary y = true) li ii FI NDl PU); intros a y (_ & Q & _) Qy; congruence).
    assert (CN : map c_name cs = col_names t) by (unfold cs, col_names; rewrite map_map; rewrite <- (enum_snd (at_cols t)) at 2; rewrite map_map; reflexivity).
    assert (Fd : forall n, In n (col_names t) -> exists k, find (fun c => beqb (c_name c) n) cs = Some k /\ c_name k = n /\ In k cs).
    { intros n Hn. rewrite <- CN in Hn. clear - Hn. induction cs as [|k cs IH]; [destruct Hn|]. cbn [find]. destruct (beqb_spec (c_name k) n) as [E|E]; [exists k; split; [reflexivity|split; [exact E|left; reflexivity]]|]. cbn [map] in Hn. destruct Hn as [Hn|Hn]; [contradiction|]. destruct (IH Hn) as (k' & F1 & F2 & F3). exists k'. split; [exact F1|split; [exact F2|right; exact F3]]. }
    assert (IC : forall a n, In n (index_columns t a) -> In n (col_names t)) by (intros a n H; unfold index_columns in H; apply filter_In in H; apply H).
    destruct (t_pk x) as [id|].
    + destruct (pk_of ii) as [n|] eqn:PO; [|discriminate]. injection E8 as E8. destruct (pk_of_some ii n PO) as (ix & Hix & Xp & Xc). destruct (f2_in_r _ li ii ix FI Hix) as (a & Ha & _ & Ap & _ & Ac). rewrite Xc in Ac. apply Permutation_length_1_inv in Ac.
      destruct (Fd n) as (k & Fk & Nk & Ik); [apply (IC a); rewrite Ac; left; reflexivity|]. exists k, a. split; [congruence|]. split; [rewrite E6; apply in_map; exact Ik|]. split; [apply (Permutation_in _ (Permutation_sym Pi)), Ha|]. split; congruence.
    + intros a Ha Pa La. destruct (index_columns t a) as [|c [|d r]] eqn:Ia; try discriminate. apply (Permutation_in _ Pi) in Ha. destruct (f2_in_l _ li ii a FI Ha) as (ix & Hix & _ & Xp & _ & Xc). rewrite Ia in Xc. apply Permutation_sym, Permutation_length_1_inv in Xc.
      assert (PO : pk_of ii = Some c) by (apply (pk_of_one ii ix c Hix); [congruence|exact Xc|]; intros y Hy Py; apply One; auto; congruence). rewrite PO in E8. discriminate.
Qed.
