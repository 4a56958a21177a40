(** Lemmas on maps, sorting, listing and attaching of indexes. *)
From Verif Require Import GoBase GoBaseFacts TypeModel TypeSpec TypeProofs ParamModel SchemaModel SchemaSpec.
From Coq Require Import Permutation Sorted.
Open Scope Z_scope.

(** ** Maps *)
Lemma mget_mput {A} k j (v : A) m : mget j (mput k v m) = if beqb k j then Some v else mget j m.
Proof.
  induction m as [|[i w] m IH]; cbn [mput mget]; [reflexivity|]. destruct (beqb_spec i k) as [->|N]; cbn [mget].
  - destruct (beqb k j); reflexivity.
  - rewrite IH. destruct (beqb_spec i j) as [->|N2]; [|reflexivity]. destruct (beqb_spec k j) as [->|]; [congruence|reflexivity].
Qed.
Lemma mget_in {A} k (v : A) m : mget k m = Some v -> In (k, v) m.
Proof. induction m as [|[j w] m IH]; cbn; [discriminate|]. destruct (beqb_spec j k) as [->|]; [intros [= ->]; left; reflexivity|intros H; right; exact (IH H)]. Qed.
Lemma mget_keys {A} k (m : list (bytes * A)) : mget k m <> None <-> In k (map fst m).
Proof.
  induction m as [|[j w] m IH]; cbn; [tauto|]. destruct (beqb_spec j k) as [->|N]; [split; [left; reflexivity|discriminate]|]. rewrite IH. split; [right; assumption|intros [E|E]; [congruence|exact E]].
Qed.
Lemma mput_len {A} k (v : A) m : (length (mput k v m) <= S (length m))%nat.
Proof. induction m as [|[j w] m IH]; cbn; [lia|]. destruct (beqb j k); cbn; lia. Qed.
Lemma mput_keys {A} k (v : A) m : NoDup (map fst m) -> NoDup (map fst (mput k v m)).
Proof.
  induction m as [|[j w] m IH]; cbn; intros N; [repeat constructor; intros []|]. inversion N as [|? ? N1 N2]; subst. destruct (beqb_spec j k) as [->|Hn]; cbn; constructor; try assumption; [|apply IH; exact N2].
  intros X. apply mget_keys in X. rewrite mget_mput in X. destruct (beqb_spec k j) as [->|]; [congruence|]. apply mget_keys in X. exact (N1 X).
Qed.

(** ** Sorting *)
Lemma ins_perm {A} lt (x : A) l : Permutation (x :: l) (ins_by lt x l).
Proof. induction l as [|y l IH]; cbn; [reflexivity|]. destruct (lt y x); [|reflexivity]. rewrite perm_swap. constructor. exact IH. Qed.
Lemma sort_perm_by {A} lt (l : list A) : Permutation l (sort_by lt l).
Proof. induction l as [|x l IH]; cbn; [reflexivity|]. rewrite <- ins_perm. constructor. exact IH. Qed.
Lemma ins_rel {A C} (R : A -> C -> Prop) lt lt' x x' l l' : (forall a b a' b', R a a' -> R b b' -> lt a b = lt' a' b') -> R x x' -> Forall2 R l l' -> Forall2 R (ins_by lt x l) (ins_by lt' x' l').
Proof.
  intros H Hx F. induction F as [|y y' l l' Hy F IH]; cbn; [repeat constructor; exact Hx|]. rewrite (H y x y' x' Hy Hx). destruct (lt' y' x'); [constructor; assumption|constructor; [exact Hx|constructor; assumption]].
Qed.
Lemma sort_rel {A C} (R : A -> C -> Prop) lt lt' l l' : (forall a b a' b', R a a' -> R b b' -> lt a b = lt' a' b') -> Forall2 R l l' -> Forall2 R (sort_by lt l) (sort_by lt' l').
Proof. intros H F. induction F as [|y y' l l' Hy F IH]; cbn; [constructor|]. apply ins_rel; assumption. Qed.
Lemma sort_map {A C} (f : A -> C) lt lt' l : (forall a b, lt a b = lt' (f a) (f b)) -> map f (sort_by lt l) = sort_by lt' (map f l).
Proof.
  intros H. assert (F : Forall2 (fun a c => c = f a) (sort_by lt l) (sort_by lt' (map f l))).
  { apply sort_rel; [intros a b a' b' -> ->; apply H|]. induction l; constructor; auto. }
  induction F as [|a c l1 l2 E F IH]; cbn; congruence.
Qed.
Definition le_by {A} (lt : A -> A -> bool) (a b : A) : Prop := lt b a = false.
Lemma sort_sorted {A} (lt : A -> A -> bool) l : (forall a b, lt a b = true -> lt b a = false) -> (forall a b c, lt b a = false -> lt c b = false -> lt c a = false) -> StronglySorted (le_by lt) (sort_by lt l).
Proof.
  intros As Tr. assert (I : forall x l, StronglySorted (le_by lt) l -> StronglySorted (le_by lt) (ins_by lt x l)).
  { intros x. induction 1 as [|y r S IH Fa]; cbn; [repeat constructor|]. destruct (lt y x) eqn:E.
    - constructor; [exact IH|]. eapply Permutation_Forall; [apply ins_perm|]. constructor; [apply As; exact E|exact Fa].
    - constructor; [constructor; assumption|]. constructor; [exact E|]. eapply Forall_impl; [|exact Fa]. intros z Hz. exact (Tr _ _ _ E Hz). }
  induction l; cbn; [constructor|]. apply I. assumption.
Qed.
Lemma bltb_asym a b : bltb a b = true -> bltb b a = false.
Proof. intros H. destruct (bltb b a) eqn:E; [|reflexivity]. pose proof (bltb_trans _ _ _ H E) as X. rewrite bltb_irrefl in X. discriminate. Qed.
Lemma bltb_neg_trans a b c : bltb b a = false -> bltb c b = false -> bltb c a = false.
Proof.
  intros H1 H2. destruct (bltb c a) eqn:E; [|reflexivity]. exfalso. destruct (bltb_total b a) as [X|[X|X]]; [congruence| |].
  - subst b. congruence.
  - pose proof (bltb_trans _ _ _ E X). congruence.
Qed.
(** Sorted lists with the same elements and distinct keys are equal. *)
Lemma sorted_unique {A} (lt : A -> A -> bool) l l' : (forall a, lt a a = false) -> (forall a b, lt a b = true -> lt b a = false) -> Permutation l l' ->
  StronglySorted (fun a b => lt a b = true) l -> StronglySorted (fun a b => lt a b = true) l' -> l = l'.
Proof.
  intros Ir As. revert l'. induction l as [|x l IH]; intros l' P S S'; [apply Permutation_nil in P; congruence|]. destruct l' as [|y l']; [apply Permutation_sym, Permutation_nil in P; discriminate|].
  inversion S as [|? ? S1 F1]; inversion S' as [|? ? S1' F1']; subst. assert (x = y).
  { pose proof (Permutation_in x P (or_introl eq_refl)) as X. pose proof (Permutation_in y (Permutation_sym P) (or_introl eq_refl)) as Y. destruct X as [->|X]; [reflexivity|]. destruct Y as [Y|Y]; [congruence|].
    rewrite Forall_forall in F1, F1'. specialize (F1 y Y). specialize (F1' x X). apply As in F1. congruence. }
  subst y. f_equal. apply IH; try assumption. apply Permutation_cons_inv in P. exact P.
Qed.

(** ** Names *)
Lemma dot_inj a b a' b' : no_dot a -> no_dot a' -> a ++ B "." ++ b = a' ++ B "." ++ b' -> a = a' /\ b = b'.
Proof.
  unfold no_dot. revert a'. induction a as [|x a IH]; intros [|y a'] H H' E; cbn in E.
  - split; congruence.
  - injection E as <- E. exfalso. apply H'. left. reflexivity.
  - injection E as -> E. exfalso. apply H. left. reflexivity.
  - injection E as -> E. destruct (IH a') as [-> ->]; [intros X; apply H; right; exact X|intros X; apply H'; right; exact X|exact E|]. split; reflexivity.
Qed.
Lemma fqn2_inj s t s' t' : no_dot s -> no_dot s' -> fqn2 s t = fqn2 s' t' -> s = s' /\ t = t'.
Proof. intros H H' E. exact (dot_inj _ _ _ _ H H' E). Qed.
Lemma fqn3_inj s t c s' t' c' : no_dot s -> no_dot s' -> no_dot t -> no_dot t' -> fqn3 s t c = fqn3 s' t' c' -> s = s' /\ t = t' /\ c = c'.
Proof. intros H1 H2 H3 H4 E. apply dot_inj in E as [-> E]; [|assumption..]. apply dot_inj in E as [-> ->]; [|assumption..]. repeat split. Qed.
Lemma fqn3_col s t c c' : fqn3 s t c = fqn3 s t c' -> c = c'.
Proof. unfold fqn3. intros E. apply app_inv_head in E. apply app_inv_head in E. apply app_inv_head in E. apply app_inv_head in E. exact E. Qed.
Lemma fqn2_dot s t c : fqn2 s t ++ B "." ++ c = fqn3 s t c.
Proof. unfold fqn2, fqn3. rewrite <- !app_assoc. reflexivity. Qed.

(** ** Reading columns *)
Lemma run_delivers {S R} (f : S -> R -> S * outcome unit) st q (l : list R) : delivers q l ->
  run_query f st q = each_row f st (map SRow l).
Proof. intros ->. unfold run_query. cbn [src_rows src_err]. destruct (each_row f st (map SRow l)) as [st' [[]|e|]]; reflexivity. Qed.

Fixpoint put_cols (s t : bytes) (rows : list colrow) (n : nat) (m : list (bytes * nat)) : list (bytes * nat) :=
  match rows with [] => m | r :: rest => put_cols s t rest (S n) (mput (fqn3 s t (cr_name r)) n m) end.
Definition read_state (st : prov) (s t : bytes) (rows : list colrow) : prov :=
  mkP (p_heap st ++ map (make_column s t) rows) (p_tabs st) (put_cols s t rows (length (p_heap st)) (p_cols st)) (p_fks st).
Lemma column_rows s t rows : forall st ids, each_row (column_row s t) (st, ids) (map SRow rows) = ((read_state st s t rows, ids ++ seq (length (p_heap st)) (length rows)), ROk tt).
Proof.
  induction rows as [|r rows IH]; intros st ids; cbn [map each_row].
  - unfold read_state. cbn [map put_cols length seq]. rewrite !app_nil_r. destruct st; reflexivity.
  - unfold column_row at 1. unfold alloc. cbn [c_fqn make_column]. rewrite IH. unfold read_state. cbn [p_heap p_tabs p_cols p_fks map put_cols length seq]. rewrite app_length. cbn [length]. rewrite Nat.add_1_r, <- !app_assoc. reflexivity.
Qed.
Definition ids_of (st : prov) (s t : bytes) (rows : list colrow) : list nat :=
  sort_by (by_pos (p_heap st ++ map (make_column s t) rows)) (seq (length (p_heap st)) (length rows)).
Lemma read_columns_ok cat st s t rows : delivers (cat_columns cat s t) rows -> read_columns cat st s t = (read_state st s t rows, ROk (ids_of st s t rows)).
Proof. intros H. unfold read_columns. rewrite (run_delivers _ _ _ _ H), column_rows. reflexivity. Qed.
Lemma nth_tail {A} (h x : list A) i : nth_error (h ++ x) (length h + i) = nth_error x i.
Proof. rewrite nth_error_app2 by lia. f_equal. lia. Qed.
Lemma seq_rel h0 (cs : list column) : Forall2 (fun id c => nth_error (h0 ++ cs) id = Some c) (seq (length h0) (length cs)) cs.
Proof.
  revert h0. induction cs as [|c cs IH]; intros h0; cbn [length seq]; constructor.
  - pose proof (nth_tail h0 (c :: cs) 0) as H. rewrite Nat.add_0_r in H. rewrite H. reflexivity.
  - specialize (IH (h0 ++ [c])). rewrite app_length, <- app_assoc in IH. cbn [length app] in IH. rewrite Nat.add_1_r in IH. exact IH.
Qed.
Lemma seq_ids_rel h0 cs (g : column -> column) : Forall2 (fun id c => nth_error (h0 ++ map g cs) id = Some (g c)) (seq (length h0) (length cs)) cs.
Proof.
  pose proof (seq_rel h0 (map g cs)) as H. rewrite map_length in H. clear -H. revert H. generalize (h0 ++ map g cs) as h. generalize (seq (length h0) (length cs)) as l. induction cs as [|c cs IH]; intros l h H; inversion H; subst; constructor; auto.
Qed.
(** The sorted ids point to the sorted columns, also after the columns were
    changed without touching their positions. *)
Lemma ids_rel h0 cs (g : column -> column) : (forall c, c_pos (g c) = c_pos c) ->
  map (nth_error (h0 ++ map g cs)) (sort_by (by_pos (h0 ++ cs)) (seq (length h0) (length cs))) = map Some (sort_by col_by_pos (map g cs)).
Proof.
  intros Hg. assert (F : Forall2 (fun id c => nth_error (h0 ++ map g cs) id = Some (g c) /\ nth_error (h0 ++ cs) id = Some c) (seq (length h0) (length cs)) cs).
  { pose proof (seq_ids_rel h0 cs g) as F1. pose proof (seq_rel h0 cs) as F2. revert F1 F2. generalize (seq (length h0) (length cs)) as l. generalize (h0 ++ map g cs) as h1. generalize (h0 ++ cs) as h2.
    intros h2 h1 l F1. induction F1 as [|i c l cs' H F IH]; intros F2; inversion F2; subst; constructor; auto. }
  rewrite <- (sort_map g col_by_pos col_by_pos) by (intros a b; unfold col_by_pos; rewrite !Hg; reflexivity).
  assert (F' : Forall2 (fun id c => nth_error (h0 ++ map g cs) id = Some (g c) /\ nth_error (h0 ++ cs) id = Some c) (sort_by (by_pos (h0 ++ cs)) (seq (length h0) (length cs))) (sort_by col_by_pos cs)).
  { apply sort_rel; [|exact F]. intros a b a' b' [_ Ha] [_ Hb]. unfold by_pos, pos_of, col_by_pos. rewrite Ha, Hb. reflexivity. }
  revert F'. generalize (sort_by (by_pos (h0 ++ cs)) (seq (length h0) (length cs))) as l, (sort_by col_by_pos cs) as l'. intros l l' F'.
  induction F' as [|i c l l' [Ha _] F' IH]; cbn [map]; [reflexivity|]. rewrite Ha, IH. reflexivity.
Qed.
Lemma put_cols_other s t rows : forall n m k, (forall r, In r rows -> fqn3 s t (cr_name r) <> k) -> mget k (put_cols s t rows n m) = mget k m.
Proof.
  induction rows as [|r rows IH]; intros n m k H; cbn; [reflexivity|]. rewrite IH by (intros r' X; apply H; right; exact X). rewrite mget_mput. destruct (beqb_spec (fqn3 s t (cr_name r)) k) as [E|]; [|reflexivity].
  exfalso. exact (H r (or_introl eq_refl) E).
Qed.
Lemma put_cols_get s t rows : NoDup (map cr_name rows) -> forall n m i r, nth_error rows i = Some r -> mget (fqn3 s t (cr_name r)) (put_cols s t rows n m) = Some (n + i)%nat.
Proof.
  induction rows as [|r0 rows IH]; intros N n m i r E; [destruct i; discriminate|]. inversion N as [|? ? N1 N2]; subst. cbn [put_cols]. destruct i as [|i]; cbn [nth_error] in E.
  - injection E as ->. rewrite put_cols_other; [rewrite mget_mput, beqb_refl, Nat.add_0_r; reflexivity|]. intros r' X Y. apply fqn3_col in Y. apply N1. rewrite <- Y. apply in_map. exact X.
  - rewrite (IH N2 (S n) _ i r E). f_equal. lia.
Qed.

(** ** Attaching indexes *)
Lemma upd_heap_nth h id f j : nth_error (upd_heap h id f) j = if (j =? id)%nat then option_map f (nth_error h id) else nth_error h j.
Proof.
  unfold upd_heap. destruct (nth_error h id) as [c|] eqn:E; cbn [option_map].
  - pose proof (nth_error_split h id E) as (l1 & l2 & -> & L). subst id. rewrite firstn_app, firstn_all, Nat.sub_diag. cbn [firstn]. rewrite app_nil_r.
    replace (skipn (S (length l1)) (l1 ++ c :: l2)) with l2 by (rewrite skipn_app, skipn_all2 by lia; replace (S (length l1) - length l1)%nat with 1%nat by lia; reflexivity).
    destruct (Nat.eqb_spec j (length l1)) as [->|N].
    + rewrite nth_error_app2, Nat.sub_diag by lia. reflexivity.
    + destruct (Nat.lt_ge_cases j (length l1)); [rewrite !nth_error_app1 by lia; reflexivity|]. rewrite !nth_error_app2 by lia. destruct (j - length l1)%nat eqn:D; [lia|]. reflexivity.
  - destruct (Nat.eqb_spec j id) as [->|]; [exact E|reflexivity].
Qed.
Lemma upd_heap_len h id f : length (upd_heap h id f) = length h.
Proof.
  unfold upd_heap. destruct (nth_error h id) as [c|] eqn:E; [|reflexivity]. assert (id < length h)%nat by (apply nth_error_Some; congruence). rewrite app_length, firstn_length. cbn [length]. rewrite skipn_length. lia.
Qed.
Lemma nth_ext_opt {A} (l l' : list A) : (forall j, nth_error l j = nth_error l' j) -> l = l'.
Proof.
  revert l'. induction l as [|x l IH]; intros [|y l'] H; [reflexivity|specialize (H 0%nat); discriminate|specialize (H 0%nat); discriminate|]. pose proof (H 0%nat) as E. injection E as ->. f_equal. apply IH. intros j. exact (H (S j)).
Qed.
Lemma upd_named h0 cs i c ix : NoDup (map c_name cs) -> nth_error cs i = Some c ->
  upd_heap (h0 ++ cs) (length h0 + i) (add_idx ix) = h0 ++ map (fun d => if beqb (c_name c) (c_name d) then add_idx ix d else d) cs.
Proof.
  intros N E. apply nth_ext_opt. intros j. rewrite upd_heap_nth, nth_tail, E. cbn [option_map]. destruct (Nat.eqb_spec j (length h0 + i)) as [->|Nj].
  - rewrite nth_tail, nth_error_map, E. cbn. rewrite beqb_refl. reflexivity.
  - destruct (Nat.lt_ge_cases j (length h0)); [rewrite !nth_error_app1 by lia; reflexivity|]. rewrite !nth_error_app2 by lia. rewrite nth_error_map. destruct (nth_error cs (j - length h0)) as [d|] eqn:D; [|reflexivity]. cbn.
    destruct (beqb_spec (c_name c) (c_name d)) as [Eq|]; [|reflexivity]. exfalso. apply Nj. assert (i = (j - length h0)%nat); [|lia].
    apply (proj1 (NoDup_nth_error (map c_name cs)) N); [rewrite map_length; apply nth_error_Some; congruence|]. rewrite !nth_error_map, E, D. cbn. rewrite Eq. reflexivity.
Qed.
Definition with_idx (l : list index) (c : column) : column := mkCol (c_name c) (c_type c) (c_udt c) (c_null c) (c_max c) (c_pos c) (c_fqn c) (c_ref c) (c_idx c ++ l).
Definition of_index (c : column) (names : list bytes) (ix : index) : list index := map (fun _ => ix) (filter (beqb (c_name c)) names).
(** The map entries of the table's columns. *)
Definition mapped (st : prov) (s t : bytes) (h0 : list column) (cs : list column) : Prop :=
  NoDup (map c_name cs) /\ forall i c, nth_error cs i = Some c -> mget (fqn3 s t (c_name c)) (p_cols st) = Some (length h0 + i)%nat.
Lemma mapped_map st st' s t h0 cs g : p_cols st' = p_cols st -> (forall c, c_name (g c) = c_name c) -> mapped st s t h0 cs -> mapped st' s t h0 (map g cs).
Proof.
  intros E Hg [N M]. split; [rewrite map_map; erewrite map_ext; [exact N|exact Hg]|]. intros i c X. rewrite nth_error_map in X. destruct (nth_error cs i) as [d|] eqn:D; [|discriminate]. injection X as <-. rewrite Hg, E. exact (M i d D).
Qed.
Lemma attach_cols_ok s t ix names : forall st h0 cs pk, p_heap st = h0 ++ cs -> mapped st s t h0 cs -> (forall n, In n names -> In n (map c_name cs)) ->
  exists pk', attach_cols st (fqn2 s t) ix names pk = (mkP (h0 ++ map (fun c => with_idx (of_index c names ix) c) cs) (p_tabs st) (p_cols st) (p_fks st), ROk pk') /\
    (if ix_primary ix && (length (ix_cols ix) =? 1)%nat
     then match rev names with [] => pk' = pk | n :: _ => exists i c, nth_error cs i = Some c /\ c_name c = n /\ pk' = Some (length h0 + i)%nat end
     else pk' = pk).
Proof.
  induction names as [|cn names IH]; intros st h0 cs pk Hh M L; cbn [attach_cols].
  - exists pk. split; [|destruct (_ && _); reflexivity]. f_equal. destruct st as [h a b k]; cbn in *. subst h. f_equal. f_equal. erewrite map_ext; [symmetry; apply map_id|]. intros []; unfold with_idx; cbn; rewrite app_nil_r; reflexivity.
  - destruct (proj1 (in_map_iff _ _ _) (L cn (or_introl eq_refl))) as (c & Ec & Hc). apply In_nth_error in Hc as (i & Hi). destruct M as [N M]. pose proof (M i c Hi) as Hg. rewrite Ec in Hg. rewrite fqn2_dot, Hg, Hh.
    rewrite (upd_named h0 cs i c ix N Hi). set (g := fun d => if beqb (c_name c) (c_name d) then add_idx ix d else d). assert (Hgn : forall d, c_name (g d) = c_name d) by (intros d; unfold g; destruct (beqb _ _); reflexivity).
    destruct (IH (set_heap st (h0 ++ map g cs)) h0 (map g cs) (if ix_primary ix && (length (ix_cols ix) =? 1)%nat then Some (length h0 + i)%nat else pk)) as (pk' & -> & Hpk).
    { reflexivity. } { apply (mapped_map st); [reflexivity|exact Hgn|split; assumption]. }
    { intros n X. rewrite map_map, (map_ext _ c_name Hgn). apply L. right. exact X. }
    exists pk'. split.
    + cbn [p_tabs p_cols p_fks set_heap]. f_equal. f_equal. f_equal. rewrite map_map. apply map_ext. intros d. unfold of_index. rewrite Hgn. cbn [filter]. unfold g. rewrite Ec. destruct (beqb_spec cn (c_name d)) as [E|E].
      * rewrite <- E, beqb_refl. unfold with_idx, add_idx. cbn. rewrite <- app_assoc. reflexivity.
      * destruct (beqb_spec (c_name d) cn) as [E'|]; [congruence|]. reflexivity.
    + destruct (ix_primary ix && (length (ix_cols ix) =? 1)%nat); [|exact Hpk]. cbn [rev]. destruct (rev names) as [|n l] eqn:R; cbn [app].
      * exists i, c. repeat split; [exact Hi|exact Ec|exact Hpk].
      * destruct Hpk as (j & d & Hd & En & E). rewrite nth_error_map in Hd. destruct (nth_error cs j) as [d'|] eqn:Dj; [|discriminate]. injection Hd as <-. exists j, d'. rewrite Hgn in En. repeat split; assumption.
Qed.
Definition all_idx (c : column) (ii : list index) : list index := flat_map (fun ix => of_index c (ix_cols ix) ix) ii.
Definition pk_rel (h0 cs : list column) (pn : option bytes) (pk : option nat) : Prop :=
  match pn, pk with
  | None, None => True
  | Some n, Some id => exists i c, nth_error cs i = Some c /\ c_name c = n /\ id = (length h0 + i)%nat
  | _, _ => False
  end.
Definition pk_step (pk : option bytes) (ix : index) : option bytes := match ix_cols ix with [n] => if ix_primary ix then Some n else pk | _ => pk end.
Lemma attach_ok s t ii : forall st h0 cs pk pn, p_heap st = h0 ++ cs -> mapped st s t h0 cs -> (forall ix n, In ix ii -> In n (ix_cols ix) -> In n (map c_name cs)) -> pk_rel h0 cs pn pk ->
  exists pk', attach st (fqn2 s t) ii pk = (mkP (h0 ++ map (fun c => with_idx (all_idx c ii) c) cs) (p_tabs st) (p_cols st) (p_fks st), ROk pk') /\ pk_rel h0 cs (fold_left pk_step ii pn) pk'.
Proof.
  induction ii as [|ix ii IH]; intros st h0 cs pk pn Hh M L Hpk; cbn [attach fold_left].
  - exists pk. split; [|exact Hpk]. f_equal. destruct st as [h a b k]; cbn in *. subst h. f_equal. f_equal. erewrite map_ext; [symmetry; apply map_id|]. intros []; unfold with_idx; cbn; rewrite app_nil_r; reflexivity.
  - destruct (attach_cols_ok s t ix (ix_cols ix) st h0 cs pk Hh M (fun n => L ix n (or_introl eq_refl))) as (pk1 & -> & H1). set (g := fun c => with_idx (of_index c (ix_cols ix) ix) c).
    assert (Hgn : forall c, c_name (g c) = c_name c) by reflexivity.
    assert (R1 : pk_rel h0 cs (pk_step pn ix) pk1).
    { unfold pk_step. destruct (ix_primary ix); cbn [andb] in H1; [|subst pk1; destruct (ix_cols ix) as [|n [|]]; exact Hpk]. destruct (ix_cols ix) as [|n [|n2 r]]; cbn in H1; [subst; exact Hpk| |subst; exact Hpk]. destruct H1 as (i & c & Hi & Hn & ->). exists i, c. repeat split; assumption. }
    destruct (IH (mkP (h0 ++ map g cs) (p_tabs st) (p_cols st) (p_fks st)) h0 (map g cs) pk1 (pk_step pn ix)) as (pk2 & -> & H2).
    { reflexivity. } { apply (mapped_map st); [reflexivity|exact Hgn|exact M]. } { intros i n X Y. rewrite map_map, (map_ext _ c_name Hgn). apply (L i n); [right; exact X|exact Y]. }
    { unfold pk_rel in *. destruct (pk_step pn ix), pk1; try exact R1. destruct R1 as (i & c & Hi & Hn & E). exists i, (g c). rewrite nth_error_map, Hi. repeat split; assumption. }
    exists pk2. split.
    + cbn [p_tabs p_cols p_fks]. f_equal. f_equal. f_equal. rewrite map_map. apply map_ext. intros c. unfold g, with_idx, all_idx. cbn. rewrite <- app_assoc. reflexivity.
    + unfold pk_rel in *. destruct (fold_left pk_step ii (pk_step pn ix)) as [n|], pk2 as [id|]; try exact H2. destruct H2 as (i & c & Hi & Hn & E). rewrite nth_error_map in Hi. destruct (nth_error cs i) as [d|] eqn:D; [|discriminate]. injection Hi as <-. exists i, d. repeat split; assumption.
Qed.

(** ** One table *)
Lemma index_rows ii : forall acc, each_row (fun (l : list index) r => (l ++ [make_index r], ROk tt)) acc (map SRow ii) = (acc ++ map make_index ii, ROk tt).
Proof. induction ii as [|i ii IH]; intros acc; cbn [map each_row]; [rewrite app_nil_r; reflexivity|]. rewrite IH, <- app_assoc. reflexivity. Qed.
Lemma read_indexes_ok cat s t ii : delivers (cat_indexes cat s t) ii -> read_indexes cat s t = ROk (map make_index ii).
Proof. intros H. unfold read_indexes. rewrite (run_delivers _ _ _ _ H), index_rows. reflexivity. Qed.
(** The provider after reading the table of row [r]. *)
Definition table_state (cols : bytes -> bytes -> list colrow) (idxs : bytes -> bytes -> list idxrow) (st : prov) (r : tabrow) (pk : option nat) : prov * table :=
  let s := tr_schema r in let t := tr_name r in
  let ii := map make_index (idxs s t) in
  let x := mkTab s t (tr_type r) false (ids_of st s t (cols s t)) ii pk (fqn2 s t) in
  (mkP (p_heap st ++ map (column_of s t ii) (cols s t)) (mput (fqn2 s t) x (p_tabs st)) (put_cols s t (cols s t) (length (p_heap st)) (p_cols st)) (p_fks st), x).
Lemma column_of_idx s t ii r : with_idx (all_idx (make_column s t r) ii) (make_column s t r) = column_of s t ii r.
Proof. reflexivity. Qed.
Lemma table_row_ok cat tabs cols idxs fks schemas tables st ts r : described cat tabs cols idxs fks -> wanted schemas tables (tr_schema r) (tr_name r) = true ->
  exists pk, table_row cat schemas tables (st, ts) r = (let '(st', x) := table_state cols idxs st r pk in ((st', ts ++ [x]), ROk tt)) /\
    let '(st', x) := table_state cols idxs st r pk in see st' x = expected cols idxs r /\
    (match pk with None => True | Some id => (length (p_heap st) <= id < length (p_heap st'))%nat end).
Proof.
  intros D W. set (s := tr_schema r). set (t := tr_name r). set (ii := map make_index (idxs s t)). unfold table_row. rewrite W. cbn [negb]. fold s t. rewrite (read_columns_ok cat st s t (cols s t)) by apply (d_cols _ _ _ _ _ D).
  rewrite (read_indexes_ok cat s t (idxs s t)) by apply (d_idxs _ _ _ _ _ D). fold ii. set (cs := map (make_column s t) (cols s t)).
  assert (Nn : map c_name cs = map cr_name (cols s t)) by (unfold cs; rewrite map_map; reflexivity).
  destruct (attach_ok s t ii (read_state st s t (cols s t)) (p_heap st) cs None None) as (pk & E & R).
  { reflexivity. }
  { split; [rewrite Nn; apply (d_cols_once _ _ _ _ _ D)|]. intros i c Hi. unfold cs in Hi. rewrite nth_error_map in Hi. destruct (nth_error (cols s t) i) as [q|] eqn:Q; [|discriminate]. injection Hi as <-. cbn [c_name make_column read_state p_cols].
    apply put_cols_get; [apply (d_cols_once _ _ _ _ _ D)|exact Q]. }
  { intros ix n X Y. rewrite Nn. unfold ii in X. apply in_map_iff in X as (i & <- & Hi). exact (d_idx_cols _ _ _ _ _ D s t i n Hi Y). }
  { exact Logic.I. }
  exists pk. rewrite E. split.
  - cbn [read_state p_tabs p_cols p_fks p_heap]. unfold table_state. fold s t ii. unfold put_table. cbn [t_fqn p_heap p_tabs p_cols p_fks]. unfold cs at 1. rewrite map_map. rewrite (map_ext _ _ (column_of_idx s t ii)). reflexivity.
  - unfold table_state. fold s t ii. set (st' := mkP _ _ _ _).
    assert (Hc : seen_columns st' (mkTab s t (tr_type r) false (ids_of st s t (cols s t)) ii pk (fqn2 s t)) = map Some (sort_by col_by_pos (map (column_of s t ii) (cols s t)))).
    { unfold seen_columns. cbn [t_cols]. unfold ids_of. replace (length (cols s t)) with (length cs) by (unfold cs; apply map_length). unfold st'. cbn [p_heap].
      rewrite <- (map_ext _ _ (column_of_idx s t ii)). rewrite <- (map_map (make_column s t) (fun c => with_idx (all_idx c ii) c)). fold cs. apply ids_rel. reflexivity. }
    split.
    + unfold see, expected. fold s t ii. cbn [t_schema t_name t_type t_view t_fqn t_idx t_pk]. rewrite Hc. f_equal. unfold pk_rel in R. change (pk_of ii) with (fold_left pk_step ii None).
      destruct (fold_left pk_step ii None) as [n|], pk as [id|]; try contradiction; [|reflexivity]. destruct R as (i & c & Hi & Hn & ->). f_equal. unfold st'. cbn [p_heap]. rewrite nth_tail, nth_error_map.
      unfold cs in Hi. rewrite nth_error_map in Hi. destruct (nth_error (cols s t) i) as [q|] eqn:Q; [|discriminate]. cbn in Hi. injection Hi as <-. cbn [c_name make_column] in Hn. cbn [option_map]. symmetry.
      assert (Nc : NoDup (map c_name (sort_by col_by_pos (map (column_of s t ii) (cols s t))))).
      { eapply Permutation_NoDup; [apply Permutation_map, sort_perm_by|]. rewrite map_map. apply (d_cols_once _ _ _ _ _ D). }
      assert (Ic : In (column_of s t ii q) (sort_by col_by_pos (map (column_of s t ii) (cols s t)))).
      { eapply Permutation_in; [apply sort_perm_by|]. apply in_map. eapply nth_error_In. exact Q. }
      revert Nc Ic. generalize (sort_by col_by_pos (map (column_of s t ii) (cols s t))) as l. induction l as [|d l IH]; intros Nc Ic; [contradiction|]. cbn [find]. inversion Nc as [|? ? N1 N2]; subst.
      destruct (beqb_spec (c_name d) (cr_name q)) as [Eq|Eq].
      * destruct Ic as [->|Ic]; [reflexivity|]. exfalso. apply N1. rewrite Eq. exact (in_map c_name _ _ Ic).
      * apply IH; [exact N2|]. destruct Ic as [->|Ic]; [exfalso; apply Eq; reflexivity|exact Ic].
    + unfold pk_rel in R. destruct (fold_left pk_step ii None), pk as [id|]; try contradiction; [|exact Logic.I]. destruct R as (i & c & Hi & _ & ->). assert (i < length cs)%nat by (apply nth_error_Some; congruence).
      unfold st'. cbn [p_heap]. rewrite app_length, map_length. unfold cs in H. rewrite map_length in H. lia.
Qed.
(** What was seen stays so when the heap grows. *)
Lemma nth_grow {A} (h x : list A) i : (i < length h)%nat -> nth_error (h ++ x) i = nth_error h i.
Proof. intros H. apply nth_error_app1. exact H. Qed.
Definition in_heap (st : prov) (x : table) : Prop :=
  Forall (fun id => (id < length (p_heap st))%nat) (t_cols x) /\ match t_pk x with Some id => (id < length (p_heap st))%nat | None => True end.
Lemma see_grow st st' x h : p_heap st' = p_heap st ++ h -> in_heap st x -> see st' x = see st x /\ in_heap st' x.
Proof.
  intros E [F P]. split.
  - unfold see, seen_columns. f_equal.
    + apply map_ext_in. intros i Hi. rewrite E. apply nth_grow. rewrite Forall_forall in F. exact (F i Hi).
    + destruct (t_pk x); [|reflexivity]. rewrite E, nth_grow by exact P. reflexivity.
  - split; [eapply Forall_impl; [|exact F]; intros a Ha; cbv beta in *; rewrite E, app_length; lia|]. destruct (t_pk x); [|exact P]. rewrite E, app_length. lia.
Qed.
Lemma ids_in_heap cols idxs st r pk : match pk with None => True | Some id => (id < length (p_heap (fst (table_state cols idxs st r pk))))%nat end -> in_heap (fst (table_state cols idxs st r pk)) (snd (table_state cols idxs st r pk)).
Proof.
  intros Hpk. split; [|exact Hpk]. cbn [table_state snd fst t_cols p_heap]. unfold ids_of. eapply Permutation_Forall; [apply sort_perm_by|]. apply Forall_forall. intros i Hi. apply in_seq in Hi. rewrite app_length, map_length. lia.
Qed.

(** ** The whole list *)
Lemma table_rows_ok cat tabs cols idxs fks schemas tables rows : described cat tabs cols idxs fks -> forall st ts, Forall (in_heap st) ts ->
  exists st' ts' h, each_row (table_row cat schemas tables) (st, ts) (map SRow rows) = ((st', ts ++ ts'), ROk tt) /\ p_heap st' = p_heap st ++ h /\ Forall (in_heap st') (ts ++ ts') /\
    map (see st') ts' = map (expected cols idxs) (filter (fun r => wanted schemas tables (tr_schema r) (tr_name r)) rows) /\ p_fks st' = p_fks st.
Proof.
  intros D. induction rows as [|r rows IH]; intros st ts H; cbn [map each_row filter].
  - exists st, [], []. rewrite !app_nil_r. repeat split. exact H.
  - destruct (wanted schemas tables (tr_schema r) (tr_name r)) eqn:W.
    + destruct (table_row_ok cat tabs cols idxs fks schemas tables st ts r D W) as (pk & E & S). rewrite E. pose proof (ids_in_heap cols idxs st r pk) as Ih. destruct (table_state cols idxs st r pk) as [st1 x] eqn:T. cbn [fst snd] in Ih. destruct S as [S Pk].
      assert (Hx : in_heap st1 x) by (apply Ih; destruct pk; [lia|exact Logic.I]). unfold table_state in T. injection T as T1 T2.
      assert (Hh : p_heap st1 = p_heap st ++ map (column_of (tr_schema r) (tr_name r) (map make_index (idxs (tr_schema r) (tr_name r)))) (cols (tr_schema r) (tr_name r))) by (rewrite <- T1; reflexivity).
      assert (H1 : Forall (in_heap st1) (ts ++ [x])) by (apply Forall_app; split; [eapply Forall_impl; [|exact H]; intros a Ha; apply (see_grow st st1 a _ Hh Ha)|constructor; [exact Hx|constructor]]).
      destruct (IH st1 (ts ++ [x]) H1) as (st2 & ts2 & h & E2 & Hh2 & H2 & M & Fk). exists st2, (x :: ts2), (map (column_of (tr_schema r) (tr_name r) (map make_index (idxs (tr_schema r) (tr_name r)))) (cols (tr_schema r) (tr_name r)) ++ h).
      rewrite E2, <- app_assoc. split; [reflexivity|]. split; [rewrite Hh2, Hh, <- app_assoc; reflexivity|]. split; [rewrite <- app_assoc in H2; exact H2|]. split; [|rewrite Fk, <- T1; reflexivity].
      cbn [map]. rewrite M. f_equal. rewrite <- S. apply (see_grow st1 st2 x h Hh2 Hx).
    + replace (table_row cat schemas tables (st, ts) r) with ((st, ts), ROk tt : outcome unit) by (unfold table_row; rewrite W; reflexivity). apply IH. exact H.
Qed.
Lemma list_tables_only_ok cat tabs cols idxs fks st schemas tables : described cat tabs cols idxs fks ->
  exists st' ts h, list_tables_only cat st schemas tables = (st', ROk ts) /\ p_heap st' = p_heap st ++ h /\ Forall (in_heap st') ts /\
    map (see st') ts = map (expected cols idxs) (filter (fun r => wanted schemas tables (tr_schema r) (tr_name r)) tabs) /\ p_fks st' = p_fks st.
Proof.
  intros D. unfold list_tables_only. rewrite (run_delivers _ _ _ _ (d_tabs _ _ _ _ _ D)). destruct (table_rows_ok cat tabs cols idxs fks schemas tables tabs D st [] (Forall_nil _)) as (st' & ts & h & -> & H). exists st', ts, h. split; [reflexivity|exact H].
Qed.
